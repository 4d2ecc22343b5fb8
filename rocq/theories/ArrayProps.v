(* C102: arrays are lists, over any history *)
From Verif Require Import Base ArrayModel ArraySpec ArrayProofs.
From Coq Require Import Permutation.

(* Any calls that make sense on lists give the same answers on arrays, with every access inside a live block *)
Theorem C102_lists : forall cs s vs, list_run no_lists cs = Some (s, vs) ->
  exists h, arun start cs = Ok (h, vs) /\ forall t, match h_arrays h t, s t with
    | Some a, Some (_, l) => a_size a = zlen l /\ forall i, in_list i l = true -> read h (a_data a) i = Ok (nth (Z.to_nat i) l 0)
    | None, None => True
    | _, _ => False
    end.
Proof.
  intros * R. destruct (run_ok cs start no_lists s vs Inv_start R) as (h & E & I). exists h. split; [exact E |]. intros t. pose proof (v_arrays _ _ I t) as V.
  destruct (h_arrays h t) as [a |]; destruct (s t) as [(z, l) |]; auto. split; [apply V |]. intros i G. destruct (block_of _ _ _ _ _ V G) as (_ & _ & _ & o & c & B & _).
  destruct (split_at _ _ G) as (x & y & w & -> & ->). rewrite <- app_assoc in B. cbn [app] in B. rewrite (read_at _ _ _ _ _ _ B), nth_split_at. reflexivity.
Qed.
Print Assumptions C102_lists.

(* An index that is too large stops the program *)
Theorem C102_asserts : forall cs s vs t z l i v, list_run no_lists cs = Some (s, vs) -> s t = Some (z, l) -> zlen l <= i ->
  forall c, In c [Get t i; Set_ t i v; StableRemove t i; UnstableRemove t i] -> exists h, arun start cs = Ok (h, vs) /\ astep h c = Trap.
Proof.
  intros * R S L c C. destruct (run_ok cs start no_lists s vs Inv_start R) as (h & E & I). exists h. split; [exact E |]. pose proof (v_arrays _ _ I t) as V. rewrite S in V.
  destruct (h_arrays h t) as [a |] eqn:A; [| contradiction]. destruct V as (Q & _). assert (X : i <? a_size a = false) by (rewrite Q; apply Z.ltb_ge; exact L).
  destruct C as [<- | [<- | [<- | [<- | []]]]]; cbn [astep]; rewrite A, X; reflexivity.
Qed.
Print Assumptions C102_asserts.

(* unstable_remove takes away that element and no other *)
Theorem C102_unstable : forall l i, in_list i l = true -> Permutation l (nth (Z.to_nat i) l 0 :: removelast (replace i (last l 0) l)).
Proof.
  intros l i G. destruct (split_at _ _ G) as (a & x & b & -> & ->). rewrite nth_split_at, replace_split. destruct (list_eq_dec Z.eq_dec b []) as [-> | N].
  - rewrite removelast_last. apply Permutation_sym, Permutation_cons_append.
  - destruct (exists_last N) as (m & y & ->). replace (a ++ x :: m ++ [y]) with ((a ++ x :: m) ++ [y]) by (rewrite <- app_assoc; reflexivity). rewrite last_last.
    replace (a ++ y :: m ++ [y]) with ((a ++ y :: m) ++ [y]) by (rewrite <- app_assoc; reflexivity). rewrite removelast_last.
    rewrite <- app_assoc. cbn [app]. rewrite <- Permutation_middle. apply perm_skip. apply Permutation_app_head. apply Permutation_sym, Permutation_cons_append.
Qed.
Print Assumptions C102_unstable.

(* When all arrays are destroyed, and none was copied, all memory is freed *)
Theorem C102_freed : forall cs s vs, list_run no_lists cs = Some (s, vs) -> forallb (fun c => negb (copies c)) cs = true -> (forall t, s t = None) ->
  exists h, arun start cs = Ok (h, vs) /\ forall b, h_blocks h b = None.
Proof.
  intros * R C D. destruct (run_ok cs start no_lists s vs Inv_start R) as (h & E & I). exists h. split; [exact E |]. intros b. destruct (h_blocks h b) eqn:B; [| reflexivity]. exfalso.
  assert (O : owned start) by (intros x X; destruct X; reflexivity). destruct (owned_run _ _ _ _ O C E b) as (t & a & A & _); [congruence |]. pose proof (v_arrays _ _ I t) as V. rewrite A, D in V. exact V.
Qed.
Print Assumptions C102_freed.

(* A shallow copy has the same elements as its source from then on: what is stored in one is read in the other *)
Theorem C102_shared : forall cs s vs d r z l x i v, list_run no_lists cs = Some (s, vs) -> s d = Some x -> s r = Some (z, l) -> d <> r -> in_list i l = true ->
  exists h, arun start (cs ++ [ShallowCopy d r; Get d i; Set_ d i v; Get r i]) = Ok (h, vs ++ [0; nth (Z.to_nat i) l 0; 0; v]).
Proof.
  intros * R D S N G. destruct (run_ok cs start no_lists s vs Inv_start R) as (h & E & I). rewrite (arun_app _ _ _ _ _ E).
  pose proof (v_arrays _ _ I d) as VD. pose proof (v_arrays _ _ I r) as V. rewrite D in VD. rewrite S in V. destruct (h_arrays h d) as [ad |] eqn:AD; [| contradiction]. destruct (h_arrays h r) as [a |] eqn:A; [| contradiction].
  destruct (block_of _ _ _ _ _ V G) as (Q & P & _ & o & c & B & _). destruct (split_at _ _ G) as (p & y & w & -> & ->). rewrite <- app_assoc in B. cbn [app] in B.
  assert (L : zlen p <? a_size a = true) by (rewrite Q; apply Z.ltb_lt; apply P).
  set (h1 := set_array h d (Some (mk_carray (a_size a) (a_data a) (a_alloc a)))).
  assert (D1 : h_arrays h1 d = Some (mk_carray (a_size a) (a_data a) (a_alloc a))) by (cbn; apply upd_same).
  assert (R1 : h_arrays h1 r = Some a) by (cbn; rewrite upd_other by congruence; exact A).
  assert (B1 : h_blocks h1 (a_data a) = Some (o, p ++ y :: w ++ c)) by exact B.
  destruct (write_at h1 _ _ _ _ _ v B1) as (h2 & W & (_ & X & B2 & _)).
  assert (R2 : h_arrays h2 r = Some a) by (rewrite X; exact R1).
  assert (E1 : astep h (ShallowCopy d r) = Ok (h1, 0)) by (cbn [astep]; rewrite AD, A; reflexivity).
  assert (E2 : astep h1 (Get d (zlen p)) = Ok (h1, y)) by (cbn [astep]; rewrite D1; cbn [a_size a_data]; rewrite L; cbn [assert obind]; rewrite (read_at _ _ _ _ _ _ B1); reflexivity).
  assert (E3 : astep h1 (Set_ d (zlen p) v) = Ok (h2, 0)) by (cbn [astep]; rewrite D1; cbn [a_size a_data]; rewrite L; cbn [assert obind]; rewrite W; reflexivity).
  assert (E4 : astep h2 (Get r (zlen p)) = Ok (h2, v)) by (cbn [astep]; rewrite R2, L; cbn [assert obind]; rewrite (read_at _ _ _ _ _ _ B2); reflexivity).
  cbn [arun]. rewrite E1. cbn [obind fst snd]. rewrite E2. cbn [obind fst snd]. rewrite E3. cbn [obind fst snd]. rewrite E4. cbn [obind fst snd]. exists h2. rewrite nth_split_at. reflexivity.
Qed.
Print Assumptions C102_shared.

(* Destroying both a shallow copy and a source that frees its memory frees that memory twice, after any calls *)
Theorem C102_twice : forall cs s vs d r l x, list_run no_lists cs = Some (s, vs) -> s d = Some x -> s r = Some (true, l) -> d <> r ->
  arun start (cs ++ [ShallowCopy d r; Delete d; Delete r]) = UB /\ arun start (cs ++ [ShallowCopy d r; Delete r; Delete d]) = UB /\
  exists h us, arun start (cs ++ [ShallowCopy d r; Delete d]) = Ok (h, us).
Proof.
  intros * R D S N. destruct (run_ok cs start no_lists s vs Inv_start R) as (h & E & I). rewrite !(arun_app _ _ _ _ _ E).
  pose proof (v_arrays _ _ I d) as VD. pose proof (v_arrays _ _ I r) as V. rewrite D in VD. rewrite S in V. destruct (h_arrays h d) as [ad |] eqn:AD; [| contradiction]. destruct (h_arrays h r) as [a |] eqn:A; [| contradiction].
  destruct V as (_ & _ & Z1 & [(_ & X & _) | (o & c & B & O)]); [discriminate X |]. specialize (O eq_refl). subst o. assert (Z2 : a_alloc a =? 0 = false) by (apply Z.eqb_neq, Z1; reflexivity).
  set (a1 := mk_carray (a_size a) (a_data a) (a_alloc a)). set (h1 := set_array h d (Some a1)).
  assert (E1 : astep h (ShallowCopy d r) = Ok (h1, 0)) by (cbn [astep]; rewrite AD, A; reflexivity).
  assert (D1 : h_arrays h1 d = Some a1) by (cbn; apply upd_same). assert (R1 : h_arrays h1 r = Some a) by (cbn; rewrite upd_other by congruence; exact A).
  destruct (delete_live h1 d a1 _ D1 Z2 B) as (h2 & E2 & B2 & O2). destruct (delete_live h1 r a _ R1 Z2 B) as (h3 & E3 & B3 & O3).
  assert (R2 : h_arrays h2 r = Some a) by (rewrite O2 by congruence; exact R1). assert (D3 : h_arrays h3 d = Some a1) by (rewrite O3 by exact N; exact D1).
  cbn [arun]. rewrite E1. cbn [obind fst snd]. rewrite E2, E3. cbn [obind fst snd]. rewrite (delete_dead _ _ _ R2 Z2 B2), (delete_dead _ _ _ D3 Z2 B3). cbn [obind fst snd].
  split; [reflexivity |]. split; [reflexivity |]. eexists. eexists. reflexivity.
Qed.
Print Assumptions C102_twice.

Definition some_calls : list acall :=
  [NewSized 10 4 7; Set_ 10 0 5; Set_ 10 1 6; Set_ 10 2 8; Set_ 10 3 9; New 20; DeepCopy 20 10 7; StableRemove 10 1; UnstableRemove 20 0; Get 10 1; Get 10 2; Get 20 0; Get 20 2].
Theorem C102_witness : match list_run no_lists some_calls with Some (s, vs) => s 10 = Some (true, [5; 8; 9]) /\ s 20 = Some (false, [9; 6; 8]) /\ skipn 9 vs = [8; 9; 9; 8] | None => False end /\
  match list_run no_lists [NewSized 10 4 7; StableRemove 10 3; Delete 10] with Some (s, _) => forall t, s t = None | None => False end.
Proof. split; [vm_compute; auto |]. cbn. intros t. unfold upd. destruct (t =? 10); reflexivity. Qed.
Print Assumptions C102_witness.

Theorem C102_shared_witness : match list_run no_lists [NewSized 10 2 7; Set_ 10 1 5; New 20] with
  | Some (s, _) => s 20 = Some (false, []) /\ s 10 = Some (true, [0; 5]) /\ in_list 1 [0; 5] = true
  | None => False
  end.
Proof. vm_compute. auto. Qed.
Print Assumptions C102_shared_witness.

(* The memory of a deep copy is not freed with the array *)
Theorem C102_copy_refuted : ~ (forall cs s vs h b, list_run no_lists cs = Some (s, vs) -> (forall t, s t = None) -> arun start cs = Ok (h, vs) -> h_blocks h b = None).
Proof.
  intros H.
  assert (X : forall t : Z, upd (upd (upd (upd (upd no_lists 10 (Some (true, [0]))) 20 (Some (false, []))) 20 (Some (false, [0]))) 20 None) 10 None t = None).
  { intros t. unfold upd. destruct (t =? 10); [reflexivity |]. destruct (t =? 20); reflexivity. }
  assert (Y := fun h => H [NewSized 10 1 7; New 20; DeepCopy 20 10 7; Delete 20; Delete 10] _ _ h 2 eq_refl X). specialize (Y _ eq_refl). vm_compute in Y. discriminate Y.
Qed.
Print Assumptions C102_copy_refuted.

(* A deep copy into an array made with a size loses that array's memory and gives the copy to the wrong allocator *)
Theorem C102_sized_refuted : ~ (forall n, exists h vs, arun start [NewSized 10 n 7; NewSized 20 n 8; DeepCopy 20 10 7; Delete 20] = Ok (h, vs)).
Proof. intros H. destruct (H 1) as (h & vs & E). vm_compute in E. discriminate E. Qed.
Print Assumptions C102_sized_refuted.
