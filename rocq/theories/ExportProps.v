(* Property theorems about building the run-time database: C42-C46, C52, C62-C66.
   Every theorem says that the build succeeds on an exportable database, and what the result holds. *)
From Verif Require Import Base BaseProofs Text HashModel HashSpec SearchModel SearchProofs Maps DatabaseModel NamesProofs MergeSpec MergeProofs ExportModel ExportSpec ExportProofs ExportParentProofs ExportTablesProofs ExportLinkProofs ExportFlagProofs ExportMainProofs ExportWitness.
From Coq Require Import Sorted Permutation.
Local Opaque sample.

(* C42: an array of an owner lists each child that is kept once, and nothing else *)
Theorem C42_children : forall L fuel db, exportable L fuel db -> exports L fuel db (fun e =>
  forall a o, a <> ABases -> exists ls, x_arr e (a, o) = map Ptr ls /\ NoDup ls /\
    forall c, In c ls <-> In c (places db (fst c)) /\ owner db c = Some o /\ array_for (fst o) (fst c) = Some a /\ kept db a o c = true).
Proof.
  intros L fuel db H. eapply exports_mono; [|apply arrays_exact; exact H]. cbv beta. intros e F a o Ha. destruct (F a o Ha) as [ls (E & N & _ & I)]. exists ls. auto.
Qed.
Print Assumptions C42_children.
(* C42: every primitive points at its owner, and at nothing if it has none. Functions that a template
   type takes as constructor or destructor point at the template type. *)
Theorem C42_parent : forall L fuel db, exportable L fuel db -> exports L fuel db (fun e =>
  forall c, In c (places db (fst c)) ->
    (forall o, owner db c = Some o -> (forall l, ~ taken_by db c l) -> x_parent e c = Ptr o) /\
    (owner db c = None -> fst c <> KPrimAttr -> (forall l, ~ taken_by db c l) -> x_parent e c = Int 0) /\
    (forall l, taken_by db c l -> exists l', taken_by db c l' /\ x_parent e c = Ptr l')).
Proof.
  intros L fuel db H. apply read; [exact H|]. intros e F c Hc. destruct (fx_parent _ _ _ F c Hc) as [[E N]|[l (E1 & E2 & E3)]].
  - split; [|split].
    + intros o Ho _. rewrite E. unfold plain_parent. rewrite Ho. reflexivity.
    + intros Ho Hk _. rewrite E. unfold plain_parent. rewrite Ho. destruct (fst c); congruence || reflexivity.
    + intros l [Hl Ht]. destruct (N l Hl) as [N1 N2]. destruct Ht; contradiction.
  - split; [|split].
    + intros o _ Hn. exfalso. apply (Hn l). split; assumption.
    + intros _ _ Hn. exfalso. apply (Hn l). split; assumption.
    + intros l' _. exists l. split; [split; assumption|exact E2].
Qed.
Print Assumptions C42_parent.
(* C42: the global namespace lists what names no parent, once each and in order *)
Theorem C42_global : forall L fuel db, exportable L fuel db -> exports L fuel db (fun e =>
  forall a k, global_kind a = Some k -> NoDup (x_global e a) /\ by_hash db (x_global e a) /\
    forall c, In c (x_global e a) <-> In c (places db k) /\ parent_at db c = 0).
Proof.
  intros L fuel db H. apply read; [exact H|]. intros e F a k Hk. rewrite (fx_global _ _ _ F), Hk. split; [apply NoDup_filter; apply places_NoDup|]. split.
  - destruct H as (Hwf & _). unfold by_hash. assert (S : StronglySorted (fun a b => hash_at db a <= hash_at db b) (places db k)).
    { unfold places. assert (G : forall n s, (n + s <= length (items db k))%nat -> StronglySorted (fun a b => hash_at db a <= hash_at db b) (map (pair k) (seq s n))).
      { induction n as [|n IH]; intros s Hs; cbn [seq map]; [constructor|]. constructor; [apply IH; lia|]. rewrite Forall_map, Forall_forall. intros j Hj. apply in_seq in Hj. unfold hash_at, at_. cbn [fst snd].
        pose proof (items_sorted db Hwf k) as Hsort. destruct (nth_error (items db k) s) as [x|] eqn:Ex; [|apply nth_error_None in Ex; lia]. destruct (nth_error (items db k) j) as [y|] eqn:Ey; [|apply nth_error_None in Ey; lia].
        revert Hsort s j Ex Ey Hj Hs. generalize (items db k). clear. induction l as [|z l IHl]; intros Hsort s j Ex Ey Hj Hs; [destruct s; discriminate|]. cbn [map sorted] in Hsort.
        destruct s as [|s]; cbn [nth_error] in Ex.
        - injection Ex as <-. destruct j as [|j]; [lia|]. cbn [nth_error] in Ey. apply Hsort. apply (in_map (fun i => n_hash (it_name i))). apply nth_error_In in Ey. exact Ey.
        - destruct j as [|j]; [lia|]. cbn [nth_error length] in *. apply (IHl (proj2 Hsort) s j Ex Ey); lia. }
      apply G. lia. }
    clear -S. induction S as [|x l S IH Hf]; cbn [filter]; [constructor|]. destruct (parent_at db x =? 0); [|exact IH]. constructor; [exact IH|]. rewrite Forall_forall in *. intros y Hy. apply filter_In in Hy. apply Hf. tauto.
  - intros c. rewrite filter_In, Z.eqb_eq. tauto.
Qed.
Print Assumptions C42_global.
(* C42, finding: a primitive whose parent name does not resolve is in no array and in no namespace *)
Lemma orphan : forall L fuel db c, exportable L fuel db -> In c (places db KClass) -> owner db c = None -> (parent_at db c =? 0) = false ->
  (forall o, ~ In c (bases_of db o)) ->
  exports L fuel db (fun e => x_parent e c = Int 0 /\ (forall a, ~ In c (x_global e a)) /\ forall a o, ~ In (Ptr c) (x_arr e (a, o))).
Proof.
  intros L fuel db c H Hc Ho Hp Hb. apply read; [exact H|]. pose proof (F_valid db KClass c Hc) as Hv. apply places_In in Hc. destruct Hc as [Hk _].
  intros e F. split; [|split].
  - destruct (fx_parent _ _ _ F _ Hv) as [[E _]|[l (E1 & _ & E3)]]; [rewrite E; unfold plain_parent; rewrite Ho, Hk; reflexivity|].
    exfalso. destruct E3 as [E3|E3]; apply tmethod_kind in E3; congruence.
  - intros a Ha. rewrite (fx_global _ _ _ F) in Ha. destruct (global_kind a) as [k|]; [|contradiction]. apply filter_In in Ha. destruct Ha as [_ Ha]. congruence.
  - intros a o Ha. destruct (ak_eqb_spec a ABases) as [->|Hne].
    + rewrite (fx_bases _ _ _ F) in Ha. apply in_map_iff in Ha. destruct Ha as [b [Eb Hi]]. injection Eb as ->. exact (Hb o Hi).
    + destruct (fx_arr _ _ _ F a o Hne) as [P _]. apply (Permutation_in _ P) in Ha. apply in_map_iff in Ha. destruct Ha as [x [Ex Hi]]. injection Ex as ->. apply child_iff in Hi.
      rewrite Ho in Hi. destruct Hi as (_ & Hi & _). discriminate.
Qed.
Theorem C42_orphans_listed_refuted : exists L fuel db c, exportable L fuel db /\ In c (places db KClass) /\
  exports L fuel db (fun e => x_parent e c = Int 0 /\ (forall a, ~ In c (x_global e a)) /\ forall a o, ~ In (Ptr c) (x_arr e (a, o))).
Proof.
  exists lay, 10%nat, sample, (KClass, 0%nat). split; [exact sample_exportable|].
  assert (Hc : In (KClass, 0%nat) (places sample KClass)) by (apply at_place; vm_compute; reflexivity). split; [exact Hc|].
  apply orphan; [exact sample_exportable|exact Hc|vm_compute; reflexivity|vm_compute; reflexivity|]. intros o. apply bases_not. vm_compute. reflexivity.
Qed.
Print Assumptions C42_orphans_listed_refuted.

(* C43: every array, the type table, the name table and the tables themselves are in hash order *)
Theorem C43_sorted : forall L fuel db, exportable L fuel db -> exports L fuel db (fun e =>
  (forall a o, a <> ABases -> exists ls, x_arr e (a, o) = map Ptr ls /\ by_hash db ls) /\
  (exists ls, x_types e = map (fun l => (hash_at db l, Ptr l)) ls /\ Permutation ls (type_places db) /\ by_hash db ls) /\
  (forall k, StronglySorted (fun r s => r_hash r <= r_hash s) (x_rows e k)) /\
  StronglySorted (fun a b => fst a < fst b) (x_names e)).
Proof.
  intros L fuel db H. pose proof H as (Hwf & _ & _ & _ & _ & Hsort & _). apply read; [exact H|]. intros e F. split; [|split; [|split]].
  - intros a o Ha. destruct (fx_arr _ _ _ F a o Ha) as [P S]. destruct (ptrs_perm db _ _ P S) as [ls (E & _ & S2)]. exists ls. auto.
  - rewrite (fx_types _ _ _ F). destruct (types_sorted L db Hsort) as [S P]. destruct (Permutation_map_inv _ _ P) as [ls [E P2]]. exists ls. rewrite E in *. split; [reflexivity|]. split; [apply Permutation_sym; exact P2|].
    unfold by_hash. clear -S. unfold sorted_by_hash in S. induction ls as [|x ls IH]; [constructor|]. cbn [map] in S. inversion S; subst. constructor; [apply IH; assumption|]. rewrite Forall_map in H2. exact H2.
  - intros k. rewrite (fx_rows _ _ _ F). unfold T_of. pose proof (items_sorted db Hwf k) as S. induction (items db k) as [|i l IH]; cbn [map] in *; [constructor|]. destruct S as [S1 S2]. constructor; [apply IH; exact S2|].
    rewrite Forall_map, Forall_forall. intros j Hj. apply S1. apply (in_map (fun i => n_hash (it_name i))). exact Hj.
  - rewrite (proj2 (fx_names _ _ _ F)). assert (S : ssorted (keys (name_array (m_names db)))) by (rewrite name_array_keys; apply names_sorted; exact Hwf). revert S. generalize (name_array (m_names db)). clear.
    induction l as [|x l IH]; cbn [keys map ssorted]; intros S; [constructor|]. destruct S as [S1 S2]. constructor; [apply IH; exact S2|]. rewrite Forall_forall. intros y Hy. apply S1. apply in_map. exact Hy.
Qed.
Print Assumptions C43_sorted.
Lemma types_found : forall L db, small_db db -> sorts L -> unique_types db -> forall h,
  FindPrimitive (lay_sort L (map (entry_of db) (type_places db))) h = Ok (match type_named db h with Some l => Some (h, Ptr l) | None => None end).
Proof.
  intros L db Hsmall Hsort Huniq h. destruct (types_sorted L db Hsort) as [S P]. pose proof (types_small L db Hsmall Hsort) as Sm.
  destruct (find_primitive_ok ref _ h S Sm) as [r [Hr Hm]]. rewrite Hr. apply (f_equal (@Ok _)). clear Hr S Sm. revert P Hm. generalize (lay_sort L (map (entry_of db) (type_places db))) as ts. intros ts P Hm.
  destruct r as [[h' p]|].
  - destruct Hm as [Hin Hh]. cbn [fst] in Hh. subst h'. apply (Permutation_in _ P) in Hin. apply in_map_iff in Hin. destruct Hin as [c [Ec Hc]]. unfold entry_of in Ec. injection Ec as E1 E2. subst p.
    destruct (type_named db h) as [l|] eqn:Et.
    + destruct (type_valid db h l Et) as (_ & E3 & E4). replace l with c; [reflexivity|]. apply (NoDup_map_eq (hash_at db) (type_places db)); try assumption. congruence.
    + exfalso. apply (type_none db h Et c Hc). exact E1.
  - destruct (type_named db h) as [l|] eqn:Et; [|reflexivity]. exfalso. destruct (type_valid db h l Et) as (_ & E3 & E4). apply (Hm (entry_of db l)); [|exact E3].
    apply (Permutation_in _ (Permutation_sym P)). apply in_map. exact E4.
Qed.
(* C43: so the run-time lookup finds a child by its hash in any array, and a type in the type table *)
Theorem C43_found : forall L fuel db, exportable L fuel db -> exports L fuel db (fun e =>
  (forall a o h, a <> ABases -> exists es r, entries (x_rows e) (x_arr e (a, o)) = Ok es /\ FindPrimitive es h = Ok r /\
    match r with
    | Some (h', p) => h' = h /\ exists c, p = Ptr c /\ In (Ptr c) (x_arr e (a, o)) /\ hash_at db c = h
    | None => forall c, In (Ptr c) (x_arr e (a, o)) -> hash_at db c <> h
    end) /\
  (forall h, FindPrimitive (x_types e) h = Ok (match type_named db h with Some l => Some (h, Ptr l) | None => None end))).
Proof.
  intros L fuel db H. pose proof H as (Hwf & Hint & _ & Hsmall & _ & Hsort & Huniq & _). apply read; [exact H|]. intros e F. split.
  - intros a o h Ha. destruct (fx_arr _ _ _ F a o Ha) as [P S]. destruct (ptrs_perm db _ _ P S) as [ls (E & P2 & S2)]. rewrite E.
    rewrite (entries_ok db (x_rows e) (fx_rows _ _ _ F)). 2: { intros l Hl. apply (Permutation_in l P2) in Hl. apply child_iff in Hl. tauto. }
    assert (S3 : sorted_by_hash (map (entry_of db) ls)).
    { clear -S2. unfold by_hash in S2. induction S2 as [|x l S IH Hf]; cbn [map]; [constructor|]. constructor; [exact IH|]. rewrite Forall_map. exact Hf. }
    assert (S4 : zlen (map (entry_of db) ls) <= 2 ^ 30).
    { pose proof (children_small db Hsmall a o) as Hc. unfold zlen in *. rewrite map_length, (Permutation_length P2). assert (Hfl : (length (filter (kept db a o) (children db a o)) <= length (children db a o))%nat); [|lia].
      generalize (children db a o) as ls0. clear. induction ls0 as [|x l IH]; cbn [filter length]; [lia|]. destruct (kept db a o x); cbn [length]; lia. }
    destruct (find_primitive_ok ref (map (entry_of db) ls) h S3 S4) as [r [Hr Hm]]. eexists _, r. split; [reflexivity|]. split; [exact Hr|].
    destruct r as [[h' p]|].
    + destruct Hm as [Hin Hh]. cbn [fst] in Hh. split; [exact Hh|]. apply in_map_iff in Hin. destruct Hin as [c [Ec Hc]]. unfold entry_of in Ec. injection Ec as E1 E2. exists c. split; [congruence|]. split; [apply in_map; exact Hc|congruence].
    + intros c Hc. apply in_map_iff in Hc. destruct Hc as [c' [E1 Hc]]. injection E1 as ->. apply (Hm (entry_of db c)). apply in_map. exact Hc.
  - intros h. rewrite (fx_types _ _ _ F). apply types_found; assumption.
Qed.
Print Assumptions C43_found.
(* C43, finding: the base class arrays are filled after the sorting and are not in hash order *)
Lemma unsorted : forall db a b r, (hash_at db a <=? hash_at db b) = false -> ~ by_hash db (a :: b :: r).
Proof.
  intros db a b r E S. unfold by_hash in S. inversion S as [|x y S1 S2]; subst. rewrite Forall_forall in S2. specialize (S2 b (or_introl eq_refl)). apply Z.leb_gt in E. lia.
Qed.
Theorem C43_bases_sorted_refuted : exists L fuel db l, exportable L fuel db /\ In l (places db KClass) /\
  exports L fuel db (fun e => exists ls, x_arr e (ABases, l) = map Ptr ls /\ ~ by_hash db ls).
Proof.
  exists lay, 10%nat, sample, (KClass, 1%nat). split; [exact sample_exportable|]. split; [apply at_place; vm_compute; reflexivity|].
  apply (read lay 10 sample sample_exportable). intros e F. exists (bases_of sample (KClass, 1%nat)). split; [apply (fx_bases _ _ _ F)|].
  assert (E : bases_of sample (KClass, 1%nat) = [(KClass, 5%nat); (KClass, 2%nat); (KClass, 3%nat); (KClass, 4%nat)]) by (vm_compute; reflexivity).
  rewrite E. apply unsorted. vm_compute. reflexivity.
Qed.
Print Assumptions C43_bases_sorted_refuted.

(* C44: the flags of a primitive are those of its attributes, and for a class what it and the classes it
   derives from hand down, bit by bit *)
Theorem C44_flags : forall L fuel db, exportable L fuel db -> exports L fuel db (fun e =>
  forall l bit, Z.testbit (x_flags e l) bit = true <->
    own_flag db l bit \/ (In l (places db KClass) /\ exists a, derives db l a /\ hands_down db a bit)).
Proof. intros L fuel db H. apply read; [exact H|]. intros e F. exact (fx_flags _ _ _ F). Qed.
Print Assumptions C44_flags.
(* C44: any order of the tables, so any order of processing, gives a class the flags of every base *)
Theorem C44_replicate_reaches : forall L fuel db, exportable L fuel db -> exports L fuel db (fun e =>
  forall d b, In d (places db KClass) -> In b (places db KClass) -> derives db d b -> own_flag db b 8 -> Z.testbit (x_flags e d) 8 = true).
Proof.
  intros L fuel db H. apply read; [exact H|]. intros e F d b Hd Hb Hdb Ho. apply (fx_flags _ _ _ F). right. split; [exact Hd|]. exists b. split; [exact Hdb|]. split; [apply places_In in Hb; tauto|]. left. auto.
Qed.
Print Assumptions C44_replicate_reaches.

(* C45: what namespaces and classes list has no unknown type *)
Theorem C45_typed : forall L fuel db, exportable L fuel db -> exports L fuel db (fun e =>
  (forall o f, In (Ptr f) (x_arr e (AFields, o)) -> exists t, x_type e f = Ptr t) /\
  (forall a o f, a = AMethods \/ a = AFunctions -> In (Ptr f) (x_arr e (a, o)) ->
     (forall p, In p (x_arr e (AParameters, f)) -> exists q t, p = Ptr q /\ x_type e q = Ptr t) /\
     (x_ret e f = Int 0 \/ exists r t, x_ret e f = Ptr r /\ x_type e r = Ptr t))).
Proof.
  intros L fuel db H. apply read; [exact H|]. intros e F.
  assert (HT : forall l, In l (places db (fst l)) -> has_type db l = true -> exists t, x_type e l = Ptr t).
  { intros l Hl Ht. rewrite (fx_type _ _ _ F l Hl). unfold has_type in Ht. destruct (type_named db (type_at db l)) as [t|]; [exists t; reflexivity|discriminate]. }
  split.
  - intros o f Hf. destruct (fx_arr _ _ _ F AFields o ltac:(discriminate)) as [P _]. apply (Permutation_in _ P) in Hf. apply in_map_iff in Hf. destruct Hf as [x [Ex Hx]]. injection Ex as ->.
    apply child_iff in Hx. destruct Hx as (V & _ & _ & K). apply HT; assumption.
  - intros a o f Ha Hf. assert (Hb : a <> ABases) by (destruct Ha; congruence). destruct (fx_arr _ _ _ F a o Hb) as [P _]. apply (Permutation_in _ P) in Hf. apply in_map_iff in Hf. destruct Hf as [x [Ex Hx]]. injection Ex as ->.
    apply child_iff in Hx. destruct Hx as (V & _ & Hk & K). assert (Ht : typed_function db f = true) by (destruct Ha as [-> | ->]; exact K). unfold typed_function in Ht. rewrite forallb_forall in Ht.
    assert (Hkf : fst f = KFunction) by (destruct Ha as [-> | ->]; destruct (fst o), (fst f); cbn in Hk; try discriminate; reflexivity). split.
    + intros p Hp. destruct (fx_arr _ _ _ F AParameters f ltac:(discriminate)) as [P2 _]. apply (Permutation_in _ P2) in Hp. apply in_map_iff in Hp. destruct Hp as [q [<- Hq]]. apply filter_In in Hq. destruct Hq as [Hq _].
      destruct (HT q) as [t Et]; [apply child_valid in Hq; tauto|apply Ht; exact Hq|]. exists q, t. auto.
    + rewrite Hkf in V. rewrite (fx_ret _ _ _ F f V). destruct (return_of db f) as [r|] eqn:Er; [|left; reflexivity]. right. apply find_some in Er. destruct Er as [Er _].
      destruct (HT r) as [t Et]; [apply child_valid in Er; tauto|apply Ht; exact Er|]. exists r, t. auto.
Qed.
Print Assumptions C45_typed.
(* C45, finding: the global namespace is not cleaned, it can list a function with a parameter of no type *)
Lemma global_untyped : forall L fuel db f p, exportable L fuel db -> In f (places db KFunction) -> In p (places db (fst p)) -> (parent_at db f =? 0) = true ->
  filter (kept db AParameters f) (children db AParameters f) = [p] -> type_named db (type_at db p) = None ->
  exports L fuel db (fun e => In f (x_global e AFunctions) /\ x_arr e (AParameters, f) = [Ptr p] /\ x_type e p = Int 0).
Proof.
  intros L fuel db f p H Hf Hp H0 E1 E2. apply read; [exact H|]. intros e F. split; [|split].
  - rewrite (fx_global _ _ _ F). cbn [global_kind]. apply filter_In. auto.
  - destruct (fx_arr _ _ _ F AParameters f ltac:(discriminate)) as [P _]. rewrite E1 in P. apply Permutation_sym, Permutation_length_1_inv in P. exact P.
  - rewrite (fx_type _ _ _ F) by exact Hp. rewrite E2. reflexivity.
Qed.
Theorem C45_global_namespace_refuted : exists L fuel db f p, exportable L fuel db /\
  exports L fuel db (fun e => In f (x_global e AFunctions) /\ x_arr e (AParameters, f) = [Ptr p] /\ x_type e p = Int 0).
Proof.
  exists lay, 10%nat, sample, (KFunction, 5%nat), (KField, 3%nat). split; [exact sample_exportable|].
  apply global_untyped; [exact sample_exportable|apply at_place; vm_compute; reflexivity|apply at_place; vm_compute; reflexivity|vm_compute; reflexivity|vm_compute; reflexivity|vm_compute; reflexivity].
Qed.
Print Assumptions C45_global_namespace_refuted.

(* C46: the return value is the first parameter called return, and the parameters are the others *)
Theorem C46_return : forall L fuel db, exportable L fuel db -> exports L fuel db (fun e =>
  forall f, In f (places db KFunction) ->
    match find (fun p => hash_at db p =? hash32 (str "return") 0) (children db AParameters f) with
    | Some r => x_ret e f = Ptr r /\ exists ls, x_arr e (AParameters, f) = map Ptr ls /\ Permutation (r :: ls) (children db AParameters f)
    | None => x_ret e f = Int 0 /\ exists ls, x_arr e (AParameters, f) = map Ptr ls /\ Permutation ls (children db AParameters f)
    end).
Proof.
  intros L fuel db H. apply read; [exact H|]. intros e F f Hf. pose proof (fx_ret _ _ _ F f Hf) as Er. destruct (fx_arr _ _ _ F AParameters f ltac:(discriminate)) as [P _].
  destruct (Permutation_map_inv _ _ P) as [ls [E P2]]. fold (return_of db f). destruct (return_of db f) as [r|] eqn:Eq; cbn [or_null] in Er; (split; [exact Er|]); exists ls; (split; [exact E|]).
  - unfold return_of in Eq. destruct (find_split _ _ _ Eq) as (l1 & l2 & El & _ & _). pose proof (children_NoDup db AParameters f) as N. rewrite El in N.
    assert (Ef : filter (kept db AParameters f) (children db AParameters f) = l1 ++ l2).
    { rewrite El. rewrite <- (filter_without l1 l2 r N). apply filter_ext. intros x. unfold kept, is_return, return_of. rewrite Eq. reflexivity. }
    rewrite Ef in P2. rewrite El. rewrite <- P2. apply Permutation_middle.
  - assert (Ef : filter (kept db AParameters f) (children db AParameters f) = children db AParameters f).
    { apply filter_true. intros x _. unfold kept, is_return. rewrite Eq. reflexivity. }
    rewrite Ef in P2. apply Permutation_sym. exact P2.
Qed.
Print Assumptions C46_return.

(* C52: every name is in the name table with its text, and the run-time lookup by text finds it *)
Theorem C52_names : forall L fuel db, exportable L fuel db -> zlen (m_names db) <= 2 ^ 30 -> exports L fuel db (fun e =>
  x_name_text e = flat_map (fun e => n_text (snd e) ++ [0]) (m_names db) /\
  map fst (x_names e) = map fst (m_names db) /\
  forall h n rest, In (h, n) (m_names db) -> exists off, In (h, Some off) (x_names e) /\ text_at_offset (x_name_text e) off (n_text n) /\
    GetNameText (x_names e) (Some (n_text n ++ 0 :: rest)) = Ok (Some (h, Some off))).
Proof.
  intros L fuel db H Hlen. pose proof H as (Hwf & _). apply read; [exact H|]. intros e F. destruct (fx_names _ _ _ F) as [E1 E2]. rewrite E1, E2. split; [|split].
  - unfold packed, name_texts. rewrite flat_map_concat_map, map_map, <- flat_map_concat_map. reflexivity.
  - apply name_array_keys.
  - intros h n rest Hin. pose proof (names_sorted db Hwf) as Hs. assert (Hf : m_find h (m_names db) = Some n).
    { apply ssorted_find; assumption. }
    destruct (name_place db Hwf h n Hf) as [off (G1 & G2)]. exists off. split; [apply m_find_In; exact G1|]. split; [exact G2|].
    destruct Hwf as ([_ W] & W2 & _). pose proof (W2 h n Hin) as [Hc _]. destruct (W h n Hf) as (_ & Hh & H0).
    assert (Hby : Forall is_byte (n_text n)) by (eapply Forall_impl; [|exact Hc]; unfold is_byte; cbn; lia).
    assert (Hnz : no_zero (n_text n)) by (intros Hz; unfold c_string in Hc; rewrite Forall_forall in Hc; apply Hc in Hz; lia).
    assert (Hss : ssorted (keys (name_array (m_names db)))) by (rewrite name_array_keys; exact Hs).
    assert (Hst : StronglySorted (fun a b => fst a <= fst b) (name_array (m_names db))).
    { revert Hss. generalize (name_array (m_names db)). clear. induction l as [|x l IH]; cbn [keys map ssorted]; intros S; [constructor|]. destruct S as [S1 S2]. constructor; [apply IH; exact S2|]. rewrite Forall_forall. intros y Hy. apply (in_map fst) in Hy. apply S1 in Hy. lia. }
    assert (Hzl : zlen (name_array (m_names db)) <= 2 ^ 30).
    { assert (El : length (keys (name_array (m_names db))) = length (keys (m_names db))) by (rewrite name_array_keys; reflexivity). unfold keys in El. rewrite !map_length in El. unfold zlen in *. rewrite El. exact Hlen. }
    destruct (get_name_text_ok _ (name_array (m_names db)) (n_text n) rest Hst Hzl Hby Hnz) as [r [Hr Hm]]. rewrite Hr. f_equal. destruct r as [[h' o']|].
    + destruct Hm as (M1 & M2 & _). cbn [fst] in M2. assert (h' = h) by congruence. subst h'.
      assert (Hfo : m_find h (name_array (m_names db)) = Some o').
      { rewrite <- Hh. exact (ssorted_find _ _ _ _ Hss M1). }
      rewrite Hh. assert (Eo : o' = Some off) by congruence. rewrite Eo. reflexivity.
    + destruct Hm as [Hz|Hm]; [congruence|]. exfalso. apply (Hm (h, Some off)); [apply m_find_In; exact G1|]. cbn. congruence.
Qed.
Print Assumptions C52_names.

(* C62: the tables hold every primitive with its name and data, and types resolve to the type of that name *)
Theorem C62_payload : forall L fuel db, exportable L fuel db -> exports L fuel db (fun e =>
  (forall k, length (x_rows e k) = length (items db k)) /\
  forall l i, at_ db l = Some i ->
    (exists r off, nth_error (x_rows e (fst l)) (snd l) = Some r /\ r_hash r = n_hash (it_name i) /\ r_data r = it_data i /\ r_uid r = it_uid i /\
       r_text r = Some off /\ text_at_offset (x_name_text e) off (n_text (it_name i))) /\
    x_type e l = or_null (type_named db (n_hash (it_type i))) /\
    x_args e l = map (fun n => or_null (type_named db (n_hash n))) (it_args i)).
Proof.
  intros L fuel db H. pose proof H as (Hwf & Hint & _). apply read; [exact H|]. intros e F. split.
  - intros k. rewrite (fx_rows _ _ _ F). apply T_len.
  - intros l i Hi. assert (Hl : In l (places db (fst l))).
    { unfold at_ in Hi. apply places_In. split; [reflexivity|]. apply nth_error_Some. congruence. }
    split; [|split].
    + rewrite (fx_rows _ _ _ F), (proj1 (fx_names _ _ _ F)). unfold T_of. rewrite nth_error_map. unfold at_ in Hi. rewrite Hi. cbn [option_map].
      pose proof (nth_error_In _ _ Hi) as Hin. destruct (name_place db Hwf _ _ (item_known db Hwf Hint _ _ Hin)) as [off (E1 & E2)].
      eexists _, off. split; [reflexivity|]. cbn [row_of r_hash r_data r_uid r_text]. unfold off_of. rewrite E1. auto 6.
    + rewrite (fx_type _ _ _ F l Hl). unfold type_at. rewrite Hi. reflexivity.
    + rewrite (fx_args _ _ _ F l Hl). unfold args_at. rewrite Hi. apply map_map.
Qed.
Print Assumptions C62_payload.

(* C63: the constructor and destructor of a class are methods of it with the right names, null if there are none;
   those of a template type are the first functions with the right names *)
Theorem C63_constructors : forall L fuel db, exportable L fuel db -> exports L fuel db (fun e =>
  (forall l, In l (places db KClass) -> method_called db l ctor_name (x_ctor e l) /\ method_called db l dtor_name (x_dtor e l)) /\
  (forall l, In l (places db KTemplateType) -> x_ctor e l = or_null (tmethod db l ctor_name) /\ x_dtor e l = or_null (tmethod db l dtor_name))).
Proof. intros L fuel db H. apply read; [exact H|]. intros e F. split; [exact (fx_class_ctor _ _ _ F)|exact (fx_tt_ctor _ _ _ F)]. Qed.
Print Assumptions C63_constructors.

(* C64: container descriptions are copied with their iterator types, and found from what they name *)
Theorem C64_containers : forall L fuel db, exportable L fuel db -> exports L fuel db (fun e =>
  length (x_infos e) = length (m_containers db) /\
  (forall i h c, nth_error (m_containers db) i = Some (h, c) ->
    (exists inf off, nth_error (x_infos e) i = Some inf /\ i_hash inf = n_hash (ci_name c) /\ i_flags inf = ci_flags c /\ i_count inf = ci_count c /\
       i_text inf = Some off /\ text_at_offset (x_name_text e) off (n_text (ci_name c))) /\
    nth_error (x_iters e) i = Some (or_null (type_named db (n_hash (ci_read c))), or_null (type_named db (n_hash (ci_write c))))) /\
  forall l, x_ci e l = info_at db l).
Proof.
  intros L fuel db H. pose proof H as (Hwf & Hint & _). apply read; [exact H|]. intros e F. destruct (fx_infos _ _ _ F) as [E1 E2]. rewrite E1, E2. split; [apply map_length|]. split; [|exact (fx_ci _ _ _ F)].
  intros i h c Hc. rewrite !nth_error_map, Hc. cbn [option_map]. split; [|reflexivity]. apply nth_error_In in Hc.
  assert (Hk : m_find (n_hash (ci_name c)) (m_names db) = Some (ci_name c)).
  { destruct Hint as [_ H2]. destruct (H2 h c Hc) as [E|E]; [|exact E]. exfalso. destruct Hwf as (_ & _ & _ & _ & _ & _ & _ & _ & _ & _ & _ & _ & _ & _ & _ & _ & [_ [_ W]] & _). apply W in Hc. destruct Hc; congruence. }
  destruct (name_place db Hwf _ _ Hk) as [off (G1 & G2)]. eexists _, off. split; [reflexivity|]. cbn [info_of i_hash i_flags i_count i_text snd]. unfold off_of. rewrite G1, (proj1 (fx_names _ _ _ F)). auto 6.
Qed.
Print Assumptions C64_containers.

(* C65: the base array of a type holds the base of each inheritance that names it as derived, in order *)
Theorem C65_bases : forall L fuel db, exportable L fuel db -> exports L fuel db (fun e =>
  forall l, x_arr e (ABases, l) = map Ptr (bases_of db l)).
Proof. intros L fuel db H. apply read; [exact H|]. intros e F. exact (fx_bases _ _ _ F). Qed.
Print Assumptions C65_bases.
(* C65: so that walking the base arrays finds exactly the classes a class derives from *)
Theorem C65_derives : forall L fuel db, exportable L fuel db -> exports L fuel db (fun e =>
  forall d b, derives db d b <-> d = b \/ exists m, In (Ptr m) (x_arr e (ABases, d)) /\ derives db m b).
Proof.
  intros L fuel db H. apply read; [exact H|]. intros e F d b. rewrite (fx_bases _ _ _ F). split.
  - intros Hd. destruct Hd as [l|l m a Hm Ha]; [left; reflexivity|right]. exists m. split; [apply in_map; exact Hm|exact Ha].
  - intros [->|[m [Hm Ha]]]; [constructor|]. apply in_map_iff in Hm. destruct Hm as [x [Ex Hx]]. injection Ex as ->. econstructor; eassumption.
Qed.
Print Assumptions C65_derives.

(* C66: text attributes keep their text, primitive attributes refer to what their value names *)
Theorem C66_attributes : forall L fuel db, exportable L fuel db -> exports L fuel db (fun e =>
  length (x_attr_vals e) = length (m_text_attrs db) /\
  (forall i h a, nth_error (m_text_attrs db) i = Some (h, a) -> exists off, nth_error (x_attr_vals e) i = Some off /\ text_at_offset (x_attr_text e) off (ta_value a)) /\
  forall i h a, nth_error (m_prim_attrs db) i = Some (h, a) -> x_prim e (KPrimAttr, i) = or_null (ref_named db (n_hash (pa_value a)))).
Proof.
  intros L fuel db H. pose proof H as (_ & _ & _ & (_ & _ & Hz) & _). apply read; [exact H|]. intros e F. destruct (fx_texts _ _ _ F) as [E1 E2]. rewrite E1, E2. split; [rewrite offs_length; apply map_length|]. split.
  - intros i h a Ha. assert (Hn : nth_error (map (fun e => ta_value (snd e)) (m_text_attrs db)) i = Some (ta_value a)) by (rewrite nth_error_map, Ha; reflexivity).
    destruct (offs_text _ _ _ Hn) as [off [G1 G2]]; [apply nth_error_In in Ha; apply (Hz h); exact Ha|]. exists off. split; [exact G1|]. split; [|apply c_str_inv; exact G2].
    apply nth_error_In in G1. assert (G : forall ts pos, 0 <= pos -> forall x, In x (offs pos ts) -> 0 <= x).
    { clear. induction ts as [|t ts IH]; intros pos Hp x Hx; cbn [offs] in Hx; [contradiction|]. destruct Hx as [<-|Hx]; [exact Hp|]. apply (IH (pos + zlen t + 1)); [unfold zlen; lia|exact Hx]. }
    apply (G _ 0 ltac:(lia) _ G1).
  - intros i h a Ha. rewrite (fx_prim _ _ _ F).
    + unfold ref_at, at_. cbn [fst snd items]. rewrite nth_error_map, Ha. reflexivity.
    + cbn [fst]. apply places_In. cbn [fst snd items]. split; [reflexivity|]. rewrite map_length. apply nth_error_Some. congruence.
Qed.
Print Assumptions C66_attributes.

(* the sample database meets the hypotheses: a namespace with an enum, classes with fields, methods, bases and
   attributes, overloaded functions with return values, a template instance and container descriptions *)
Example C42_witness : exportable lay 10 sample /\ zlen (m_names sample) <= 2 ^ 30.
Proof. split; [exact sample_exportable|vm_compute; discriminate]. Qed.
(* and its export, computed *)
Definition shown (f : export -> list ref) : outcome (list ref) := do e <- BuildCppExport lay 10 sample; Ok (f e).
Example C42_witness_classes : shown (fun e => x_arr e (AClasses, (KNamespace, 0%nat))) =
  Ok [Ptr (KClass, 1%nat); Ptr (KClass, 2%nat); Ptr (KClass, 3%nat); Ptr (KClass, 4%nat); Ptr (KClass, 5%nat)].
Proof. vm_compute. reflexivity. Qed.
Example C46_witness : shown (fun e => x_ret e (KFunction, 3%nat) :: x_arr e (AParameters, (KFunction, 3%nat))) =
  Ok [Ptr (KField, 6%nat); Ptr (KField, 1%nat); Ptr (KField, 7%nat)].
Proof. vm_compute. reflexivity. Qed.
(* the method with a parameter of unknown type is gone, the constructor stays *)
Example C45_witness : shown (fun e => x_arr e (AMethods, (KClass, 4%nat))) = Ok [Ptr (KFunction, 1%nat)].
Proof. vm_compute. reflexivity. Qed.
(* N::C has none of its own: 0x100 comes from N::B, 0x1000 from N::A *)
Example C44_witness : shown (fun e => [Int (x_flags e (KClass, 1%nat)); Int (x_flags e (KClass, 4%nat))]) = Ok [Int (256 + 4096); Int (4096 + 16)].
Proof. vm_compute. reflexivity. Qed.
Example C63_witness : shown (fun e => [x_ctor e (KClass, 4%nat); x_ctor e (KTemplateType, 0%nat); x_dtor e (KClass, 4%nat)]) = Ok [Ptr (KFunction, 1%nat); Ptr (KFunction, 2%nat); Int 0].
Proof. vm_compute. reflexivity. Qed.
Example C64_witness : match BuildCppExport lay 10 sample with Ok e => (x_ci e (KTemplateType, 0%nat), x_ci e (KField, 4%nat), x_ci e (KClass, 0%nat)) | _ => (None, None, None) end = (Some 0%nat, Some 1%nat, None).
Proof. vm_compute. reflexivity. Qed.
Example C66_witness : shown (fun e => [x_prim e (KPrimAttr, 0%nat); x_prim e (KPrimAttr, 1%nat)]) = Ok [Ptr (KFunction, 4%nat); Ptr (KClass, 4%nat)].
Proof. vm_compute. reflexivity. Qed.
