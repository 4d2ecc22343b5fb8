(* Proofs about the image of an exported database. *)
From Coq Require Import String Permutation Sorted.
From Verif Require Import Base BaseProofs Text DatabaseModel ExportModel.
From Verif Require Import MmapModel MmapSpec MmapProofs ImageLayout ImageModel ImageSpec ImageProofs LaidModel.
#[local] Open Scope string_scope.
#[local] Open Scope Z_scope.
#[local] Open Scope list_scope.

(* ---- the bytes of one value ---- *)
Fixpoint ordered (pos : Z) (ls : list (list string * Z * Z)) (size : Z) : bool :=
  match ls with
  | [] => pos <=? size
  | (_, o, w) :: r => (pos <=? o) && (1 <=? w) && ordered (o + w) r size
  end.
Definition laid_type (t : ctype) : bool := match t with Ptr _ | Struct _ => true | Scalar n => n =? 1 | _ => false end.
Lemma leaves_ordered : forall t, laid_type t = true -> ordered 0 (leaves t) (size_of t) = true /\ 0 < size_of t.
Proof.
  intros [n|s|u|s|u] H; cbn [laid_type] in H; try discriminate H.
  - apply Z.eqb_eq in H. subst n. split; reflexivity.
  - split; reflexivity.
  - destruct s; split; vm_compute; reflexivity.
Qed.
Lemma gap_zlen : forall pad n, 0 <= n -> zlen (gap pad n) = n.
Proof. intros. unfold gap, zlen. rewrite repeat_length. lia. Qed.
Lemma ordered_le : forall ls pos size, ordered pos ls size = true -> pos <= size /\ forall p o w, In (p, o, w) ls -> pos <= o /\ 1 <= w /\ o + w <= size.
Proof.
  induction ls as [|[[p o] w] ls IH]; intros pos size H; cbn [ordered] in H.
  - split; [lia|intros ? ? ? []].
  - apply andb_prop in H. destruct H as [H1 H2]. apply andb_prop in H1. destruct (IH _ _ H2) as [A B]. split; [lia|].
    intros p' o' w' [E|E]; [injection E as <- <- <-; lia|]. specialize (B _ _ _ E). lia.
Qed.
Lemma encode_from_zlen : forall pad v ls pos size, ordered pos ls size = true -> zlen (encode_from pad v pos ls size) = size - pos.
Proof.
  induction ls as [|[[p o] w] ls IH]; intros pos size H; cbn [encode_from].
  - apply gap_zlen. cbn [ordered] in H. lia.
  - cbn [ordered] in H. apply andb_prop in H. destruct H as [H1 H2]. apply andb_prop in H1. rewrite !zlen_app, gap_zlen, le_bytes_zlen, IH by (assumption || lia). lia.
Qed.
Lemma slice_skip : forall A (a b : list A) off len, zlen a <= off -> slice (a ++ b) off len = slice b (off - zlen a) len.
Proof. exact slice_app_off. Qed.
Lemma slice_take : forall A (a b : list A) off len, 0 <= off -> 0 <= len -> off + len <= zlen a -> slice (a ++ b) off len = slice a off len.
Proof.
  intros A a b off len H1 H2 H3. apply znth_ext. intros i. rewrite !znth_slice by lia. destruct ((0 <=? i) && (i <? len)) eqn:E; [|reflexivity].
  unfold znth. destruct (off + i <? 0); [reflexivity|]. unfold zlen in H3. apply nth_error_app1. lia.
Qed.
Lemma encode_from_slice : forall pad v ls pos size p o w, ordered pos ls size = true -> In (p, o, w) ls ->
  slice (encode_from pad v pos ls size) (o - pos) w = le_bytes (Z.to_nat w) (v p).
Proof.
  induction ls as [|[[p0 o0] w0] ls IH]; intros pos size p o w H I; [contradiction|]. cbn [encode_from]. cbn [ordered] in H. apply andb_prop in H. destruct H as [H1 H2]. apply andb_prop in H1.
  destruct I as [E|I].
  - injection E as -> -> ->. apply slice_mid; [rewrite gap_zlen; lia|rewrite le_bytes_zlen; lia].
  - pose proof (proj2 (ordered_le _ _ _ H2) _ _ _ I) as [A B]. rewrite slice_skip by (rewrite gap_zlen; lia). rewrite slice_skip by (rewrite gap_zlen, le_bytes_zlen; lia).
    rewrite gap_zlen, le_bytes_zlen by lia. replace (o - pos - (o0 - pos) - Z.of_nat (Z.to_nat w0)) with (o - (o0 + w0)) by lia. apply IH; assumption.
Qed.
Lemma encode_from_bytes : forall pad v ls pos size, Forall is_byte (encode_from pad v pos ls size).
Proof.
  assert (G : forall pad n, Forall is_byte (gap pad n)). { intros. unfold gap. apply Forall_forall. intros x Hx. apply repeat_spec in Hx. subst x. unfold is_byte, u8. apply Z.mod_pos_bound. lia. }
  induction ls as [|[[p o] w] ls IH]; intros pos size; cbn [encode_from]; [apply G|]. repeat (apply Forall_app; split); [apply G|apply le_bytes_bytes|apply IH].
Qed.
(* a byte outside every member whose number differs is the same in both values *)
Lemma encode_from_same : forall pad v v' ls pos size i, ordered pos ls size = true ->
  (forall p o w, In (p, o, w) ls -> v p = v' p \/ ~ (o <= i + pos < o + w)) ->
  znth (encode_from pad v pos ls size) i = znth (encode_from pad v' pos ls size) i.
Proof.
  induction ls as [|[[p o] w] ls IH]; intros pos size i H D; cbn [encode_from]; [reflexivity|]. cbn [ordered] in H. apply andb_prop in H. destruct H as [H1 H2]. apply andb_prop in H1.
  destruct (Z.ltb_spec i (o - pos)) as [A|A]; [rewrite !znth_app_l by (rewrite gap_zlen; lia); reflexivity|].
  rewrite !(znth_app_r _ (gap _ _)) by (rewrite gap_zlen; lia). rewrite gap_zlen by lia.
  destruct (Z.ltb_spec (i - (o - pos)) w) as [B|B].
  - rewrite !znth_app_l by (rewrite le_bytes_zlen; lia). destruct (D p o w (or_introl eq_refl)) as [->|E]; [reflexivity|lia].
  - rewrite !znth_app_r by (rewrite le_bytes_zlen; lia). rewrite !le_bytes_zlen. apply IH; [exact H2|]. intros p' o' w' I'. destruct (D p' o' w' (or_intror I')) as [E|E]; [left; exact E|right; lia].
Qed.
Section Encode.
Variables (pad : Z) (t : ctype).
Hypothesis HT : laid_type t = true.
Lemma encode_zlen : forall v, zlen (encode pad t v) = size_of t.
Proof. intros v. unfold encode. rewrite encode_from_zlen by (apply leaves_ordered; exact HT). lia. Qed.
Lemma encode_slice : forall v p o w, In (p, o, w) (leaves t) -> slice (encode pad t v) o w = le_bytes (Z.to_nat w) (v p).
Proof. intros v p o w I. unfold encode. replace o with (o - 0) at 1 by lia. apply encode_from_slice; [apply leaves_ordered; exact HT|exact I]. Qed.
Lemma leaf_range : forall p o w, In (p, o, w) (leaves t) -> 0 <= o /\ 1 <= w /\ o + w <= size_of t.
Proof. intros p o w I. apply (proj2 (ordered_le _ _ _ (proj1 (leaves_ordered t HT))) _ _ _ I). Qed.
Lemma encode_same : forall v v' i, (forall p o w, In (p, o, w) (leaves t) -> v p = v' p \/ ~ (o <= i < o + w)) -> znth (encode pad t v) i = znth (encode pad t v') i.
Proof. intros v v' i D. unfold encode. apply encode_from_same; [apply leaves_ordered; exact HT|]. intros p o w I. rewrite Z.add_0_r. apply (D p o w I). Qed.

(* the elements of an array *)
Lemma elems_zlen : forall es, zlen (flat_map (encode pad t) es) = zlen es * size_of t.
Proof. induction es as [|v es IH]; [reflexivity|]. cbn [flat_map]. rewrite zlen_app, encode_zlen, IH, zlen_cons. lia. Qed.
Lemma elems_slice : forall es j v p o w, nth_error es j = Some v -> In (p, o, w) (leaves t) ->
  slice (flat_map (encode pad t) es) (Z.of_nat j * size_of t + o) w = le_bytes (Z.to_nat w) (v p).
Proof.
  induction es as [|v0 es IH]; intros j v p o w E I; [destruct j; discriminate E|]. cbn [flat_map]. pose proof (leaf_range p o w I) as R. destruct j as [|j].
  - injection E as ->. rewrite slice_take by (rewrite ?encode_zlen; lia). replace (Z.of_nat 0 * size_of t + o) with o by lia. apply encode_slice. exact I.
  - cbn [nth_error] in E. assert (0 <= Z.of_nat j * size_of t) by (apply Z.mul_nonneg_nonneg; lia). rewrite Nat2Z.inj_succ, Z.mul_succ_l. rewrite slice_skip by (rewrite encode_zlen; lia). rewrite encode_zlen. replace (Z.of_nat j * size_of t + size_of t + o - size_of t) with (Z.of_nat j * size_of t + o) by lia. apply (IH j v); assumption.
Qed.
Lemma elems_bytes : forall es, Forall is_byte (flat_map (encode pad t) es).
Proof. induction es as [|v es IH]; [constructor|]. cbn [flat_map]. apply Forall_app. split; [apply encode_from_bytes|exact IH]. Qed.
Lemma elems_same : forall es es' i, length es = length es' ->
  (forall j v v' p o w, nth_error es j = Some v -> nth_error es' j = Some v' -> In (p, o, w) (leaves t) -> v p = v' p \/ ~ (o <= i - Z.of_nat j * size_of t < o + w)) ->
  znth (flat_map (encode pad t) es) i = znth (flat_map (encode pad t) es') i.
Proof.
  induction es as [|v es IH]; intros [|v' es'] i L D; try discriminate L; [reflexivity|]. cbn [flat_map].
  destruct (Z.ltb_spec i (size_of t)) as [A|A].
  - destruct (Z.ltb_spec i 0) as [N|N]. { unfold znth. replace (i <? 0) with true by lia. reflexivity. }
    rewrite !znth_app_l by (rewrite encode_zlen; lia). apply encode_same. intros p o w I. destruct (D O v v' p o w eq_refl eq_refl I) as [E|E]; [left; exact E|right; lia].
  - rewrite !znth_app_r by (rewrite encode_zlen; lia). rewrite !encode_zlen. apply IH; [cbn [length] in L; lia|]. intros j u u' p o w E E' I.
    destruct (D (S j) u u' p o w E E' I) as [Q|Q]; [left; exact Q|right]. rewrite Nat2Z.inj_succ, Z.mul_succ_l in Q. lia.
Qed.
End Encode.

(* ---- allocations one after the other ---- *)
Notation val := (list string -> Z).
Notation seg := (tag * ctype * list val)%type.
Section Segs.
Variable pad : Z.
Definition seg_bytes (s : seg) : list Z := flat_map (encode pad (snd (fst s))) (snd s).
Definition seg_size (s : seg) : Z := zlen (snd s) * size_of (snd (fst s)).
Definition shp (s : seg) : tag * ctype * Z := (fst s, zlen (snd s)).
Definition segs_ok (cs : list seg) : Prop := forall s, In s cs -> laid_type (snd (fst s)) = true.
Fixpoint found (cs : list seg) (t : tag) (pos : Z) : option (Z * (ctype * list val)) :=
  match cs with
  | [] => None
  | s :: r => if tag_dec (fst (fst s)) t then Some (pos, (snd (fst s), snd s)) else found r t (pos + seg_size s)
  end.
Lemma seg_bytes_zlen : forall s, laid_type (snd (fst s)) = true -> zlen (seg_bytes s) = seg_size s.
Proof. intros s H. apply elems_zlen. exact H. Qed.
Lemma seg_size_nonneg : forall s, laid_type (snd (fst s)) = true -> 0 <= seg_size s.
Proof. intros s H. unfold seg_size. pose proof (zlen_nonneg _ (snd s)). destruct (leaves_ordered _ H). apply Z.mul_nonneg_nonneg; lia. Qed.
Lemma offset_found : forall cs t pos, offset_from (map shp cs) t pos = option_map fst (found cs t pos).
Proof. induction cs as [|[[t' u] es] cs IH]; intros t pos; cbn [map offset_from found shp fst snd]; [reflexivity|]. destruct (tag_dec t' t); [reflexivity|]. unfold seg_size. cbn [fst snd]. apply IH. Qed.
Lemma region_zlen : forall cs, segs_ok cs -> zlen (flat_map seg_bytes cs) = fold_right (fun s z => snd s * size_of (snd (fst s)) + z) 0 (map shp cs).
Proof.
  induction cs as [|s cs IH]; intros H; [reflexivity|]. cbn [flat_map map fold_right].
  rewrite zlen_app, seg_bytes_zlen by (apply H; left; reflexivity). rewrite IH by (intros x Hx; apply H; right; exact Hx). unfold seg_size, shp. cbn [fst snd]. reflexivity.
Qed.
Lemma region_bytes : forall cs, Forall is_byte (flat_map seg_bytes cs).
Proof. induction cs as [|s cs IH]; [constructor|]. cbn [flat_map]. apply Forall_app. split; [apply elems_bytes|exact IH]. Qed.
Lemma found_in : forall cs t pos o u es, found cs t pos = Some (o, (u, es)) -> In (t, u, es) cs.
Proof.
  induction cs as [|[[t' u'] es'] cs IH]; intros t pos o u es H; cbn [found fst snd] in H; [discriminate H|]. destruct (tag_dec t' t) as [->|N].
  - injection H as _ -> ->. left. reflexivity.
  - right. exact (IH _ _ _ _ _ H).
Qed.
Lemma found_region : forall cs t pos o u es, segs_ok cs -> found cs t pos = Some (o, (u, es)) ->
  pos <= o /\ o - pos + zlen es * size_of u <= zlen (flat_map seg_bytes cs) /\
  forall off len, 0 <= off -> 0 <= len -> off + len <= zlen es * size_of u -> slice (flat_map seg_bytes cs) (o - pos + off) len = slice (flat_map (encode pad u) es) off len.
Proof.
  induction cs as [|s cs IH]; intros t pos o u es K H; cbn [found] in H; [discriminate H|].
  assert (Ks : laid_type (snd (fst s)) = true) by (apply K; left; reflexivity). assert (Kc : segs_ok cs) by (intros x Hx; apply K; right; exact Hx).
  cbn [flat_map]. pose proof (seg_bytes_zlen s Ks) as Z1. pose proof (seg_size_nonneg s Ks) as Z2. destruct (tag_dec (fst (fst s)) t) as [E|N].
  - injection H as <- <- <-. change (flat_map (encode pad (snd (fst s))) (snd s)) with (seg_bytes s). change (zlen (snd s) * size_of (snd (fst s))) with (seg_size s).
    split; [lia|]. split; [rewrite zlen_app, Z1; pose proof (zlen_nonneg _ (flat_map seg_bytes cs)); lia|]. intros off len H1 H2 H3. replace (pos - pos + off) with off by lia. apply slice_take; lia.
  - destruct (IH _ _ _ _ _ Kc H) as (A & B & C). split; [lia|]. split; [rewrite zlen_app, Z1; lia|]. intros off len H1 H2 H3. rewrite slice_skip by lia. rewrite <- C by assumption. f_equal. lia.
Qed.
Lemma found_apart : forall cs t t' pos o u es o' u' es', segs_ok cs -> t <> t' -> found cs t pos = Some (o, (u, es)) -> found cs t' pos = Some (o', (u', es')) ->
  o + zlen es * size_of u <= o' \/ o' + zlen es' * size_of u' <= o.
Proof.
  induction cs as [|s cs IH]; intros t t' pos o u es o' u' es' K D H H'; cbn [found] in H, H'; [discriminate H|].
  assert (Kc : segs_ok cs) by (intros x Hx; apply K; right; exact Hx).
  destruct (tag_dec (fst (fst s)) t) as [E|N], (tag_dec (fst (fst s)) t') as [E'|N'].
  - congruence.
  - injection H as <- <- <-. left. destruct (found_region cs t' _ _ _ _ Kc H') as [A _]. unfold seg_size in A. exact A.
  - injection H' as <- <- <-. right. destruct (found_region cs t _ _ _ _ Kc H) as [A _]. unfold seg_size in A. exact A.
  - exact (IH _ _ _ _ _ _ _ _ _ Kc D H H').
Qed.
Lemma found_pre : forall pre t u es post pos, ~ In t (map (fun s => fst (fst s)) pre) -> segs_ok pre ->
  found (pre ++ (t, u, es) :: post) t pos = Some (pos + zlen (flat_map seg_bytes pre), (u, es)).
Proof.
  induction pre as [|s pre IH]; intros t u es post pos N K; cbn [app found fst snd flat_map].
  - destruct (tag_dec t t) as [_|Q]; [|congruence]. do 2 f_equal. cbn. lia.
  - destruct (tag_dec (fst (fst s)) t) as [E|_]; [exfalso; apply N; left; exact E|]. rewrite IH.
    + do 2 f_equal. rewrite zlen_app, seg_bytes_zlen by (apply K; left; reflexivity). lia.
    + intros I. apply N. right. exact I.
    + intros x Hx. apply K. right. exact Hx.
Qed.
Lemma found_some : forall cs t pos, In t (map (fun s => fst (fst s)) cs) -> exists o u es, found cs t pos = Some (o, (u, es)).
Proof.
  induction cs as [|s cs IH]; intros t pos I; [contradiction|]. cbn [found]. destruct (tag_dec (fst (fst s)) t) as [E|N]; [eauto|]. destruct I as [I|I]; [contradiction|]. apply IH. exact I.
Qed.
Lemma found_none : forall cs t pos, found cs t pos = None -> ~ In t (map (fun s => fst (fst s)) cs).
Proof. intros cs t pos H I. destruct (found_some cs t pos I) as (o & u & es & E). congruence. Qed.
(* two runs of allocations of the same shape differ only where the numbers in them do *)
Lemma region_same : forall cs cs' i, map shp cs = map shp cs' -> segs_ok cs ->
  (forall pre t u es post pre' es' post' j v v' p o w, cs = pre ++ (t, u, es) :: post -> cs' = pre' ++ (t, u, es') :: post' -> map shp pre = map shp pre' ->
     nth_error es j = Some v -> nth_error es' j = Some v' -> In (p, o, w) (leaves u) -> v p = v' p \/ ~ (o <= i - zlen (flat_map seg_bytes pre) - Z.of_nat j * size_of u < o + w)) ->
  znth (flat_map seg_bytes cs) i = znth (flat_map seg_bytes cs') i.
Proof.
  induction cs as [|[[t u] es] cs IH]; intros [|[[t' u'] es'] cs'] i E K D; try discriminate E; [reflexivity|].
  cbn [map] in E. injection E as E1 E2 E3 E4. subst t' u'. assert (K1 : laid_type u = true) by (exact (K _ (or_introl eq_refl))).
  assert (L : length es = length es') by (unfold zlen in E3; lia). cbn [flat_map].
  assert (Z1 : zlen (seg_bytes (t, u, es)) = zlen es * size_of u) by (apply (seg_bytes_zlen (t, u, es)); exact K1).
  assert (Z2 : zlen (seg_bytes (t, u, es')) = zlen es * size_of u) by (rewrite E3; apply (seg_bytes_zlen (t, u, es')); exact K1).
  destruct (Z.ltb_spec i (zlen es * size_of u)) as [A|A].
  - rewrite !znth_app_l by lia. unfold seg_bytes. cbn [fst snd]. apply elems_same; [exact K1|exact L|]. intros j v v' p o w Ev Ev' Il.
    destruct (D [] t u es cs [] es' cs' j v v' p o w eq_refl eq_refl eq_refl Ev Ev' Il) as [Q|Q]; [left; exact Q|right]. cbn [flat_map] in Q. change (zlen (@nil Z)) with 0 in Q. lia.
  - rewrite !znth_app_r by lia. rewrite Z1, Z2. apply IH; [exact E4|intros x Hx; apply K; right; exact Hx|].
    intros pre t1 u1 es1 post pre' es1' post' j v v' p o w Q1 Q2 Q3 Ev Ev' Il.
    destruct (D ((t, u, es) :: pre) t1 u1 es1 post ((t, u, es') :: pre') es1' post' j v v' p o w) as [Q|Q]; try assumption; try (left; exact Q).
    + rewrite Q1. reflexivity.
    + rewrite Q2. reflexivity.
    + cbn [map]. apply f_equal2; [|exact Q3]. unfold shp. cbn [fst snd]. apply f_equal2; [reflexivity|exact E3].
    + right. cbn [flat_map] in Q. rewrite zlen_app, Z1 in Q. lia.
Qed.
End Segs.

(* ---- which members are pointers ---- *)
Definition leaf_at (u : ctype) (p : list string) : option (Z * Z) :=
  match find (fun x => path_eqb (fst (fst x)) p) (leaves u) with Some (_, o, w) => Some (o, w) | None => None end.
Definition ptr_leaf (u : ctype) (p : list string) : option (list string) :=
  match leaf_at u p with
  | Some (o, w) => if w =? 8 then match find (fun x => snd x =? o) (pointers u) with Some (n, _) => Some n | None => None end else None
  | None => None
  end.
Definition leaf_check (u : ctype) : bool :=
  forallb (fun x => let '(p, o, w) := x in
    match ptr_leaf u p with
    | None => true
    | Some n => (w =? 8) && existsb (fun y => path_eqb (fst y) n && (snd y =? o)) (pointers u)
    end) (leaves u) &&
  forallb (fun y => existsb (fun x => let '(p, o, w) := x in
      (o =? snd y) && (w =? 8) && match ptr_leaf u p with Some n => path_eqb n (fst y) | None => false end) (leaves u)) (pointers u).
Lemma path_eqb_eq : forall p q, path_eqb p q = true -> p = q.
Proof. intros p q. unfold path_eqb. destruct (list_eq_dec string_dec p q); [auto|discriminate]. Qed.
Lemma leaf_checked : forall u, laid_type u = true -> leaf_check u = true.
Proof.
  intros [n|s|u|s|u] H; cbn [laid_type] in H; try discriminate H.
  - apply Z.eqb_eq in H. subst n. reflexivity.
  - reflexivity.
  - destruct s; vm_compute; reflexivity.
Qed.
Lemma ptr_leaf_pointer : forall u p o w n, laid_type u = true -> In (p, o, w) (leaves u) -> ptr_leaf u p = Some n -> w = 8 /\ In (n, o) (pointers u).
Proof.
  intros u p o w n H I E. pose proof (leaf_checked u H) as C. apply andb_prop in C. destruct C as [C _]. rewrite forallb_forall in C. specialize (C _ I). cbn beta iota in C. rewrite E in C.
  apply andb_prop in C. destruct C as [C1 C2]. split; [lia|]. apply existsb_exists in C2. destruct C2 as [[n' o'] [I' C2]]. apply andb_prop in C2. cbn [fst snd] in C2.
  destruct C2 as [C2 C3]. apply path_eqb_eq in C2. subst n'. replace o with o' by lia. exact I'.
Qed.
Lemma pointer_ptr_leaf : forall u n o, laid_type u = true -> In (n, o) (pointers u) -> exists p, In (p, o, 8) (leaves u) /\ ptr_leaf u p = Some n.
Proof.
  intros u n o H I. pose proof (leaf_checked u H) as C. apply andb_prop in C. destruct C as [_ C]. rewrite forallb_forall in C. specialize (C _ I). apply existsb_exists in C.
  destruct C as [[[p o'] w] [I' C]]. apply andb_prop in C. destruct C as [C1 C2]. cbn [fst snd] in *. destruct (ptr_leaf u p) as [n'|] eqn:E; [|discriminate C2]. apply path_eqb_eq in C2. subst n'.
  exists p. split; [|exact E]. replace o with o' by lia. replace 8 with w by lia. exact I'.
Qed.

(* values by name *)
Lemma lookup_in : forall vs p, lookup vs p = 0 \/ In (p, lookup vs p) vs.
Proof.
  induction vs as [|[q z] vs IH]; intros p; cbn [lookup]; [left; reflexivity|]. destruct (path_eqb q p) eqn:E.
  - right. left. apply path_eqb_eq in E. subst q. reflexivity.
  - destruct (IH p) as [Q|Q]; [left; exact Q|right; right; exact Q].
Qed.
Lemma lookup_nodup : forall vs p z, NoDup (map fst vs) -> In (p, z) vs -> lookup vs p = z.
Proof.
  induction vs as [|[q y] vs IH]; intros p z N I; [contradiction|]. cbn [map fst] in N. inversion N as [|a b N1 N2]; subst a b. cbn [lookup]. destruct I as [I|I].
  - injection I as -> ->. unfold path_eqb. destruct (list_eq_dec string_dec p p); [reflexivity|congruence].
  - unfold path_eqb. destruct (list_eq_dec string_dec q p) as [->|_]; [exfalso; apply N1; apply in_map_iff; exists (p, z); auto|]. apply IH; assumption.
Qed.
Lemma lookup_rel : forall (R : list string -> Z -> Z -> Prop), (forall p, R p 0 0) -> forall vs vs' p,
  Forall2 (fun a b => fst a = fst b /\ R (fst a) (snd a) (snd b)) vs vs' -> R p (lookup vs p) (lookup vs' p).
Proof.
  intros R Z0 vs vs' p H. induction H as [|[q z] [q' z'] vs vs' [E1 E2] H IH]; cbn [lookup]; [apply Z0|]. cbn [fst snd] in E1, E2. subst q'. destruct (path_eqb q p) eqn:E; [|exact IH].
  apply path_eqb_eq in E. subst q. exact E2.
Qed.
