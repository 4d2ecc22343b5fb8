(* C33 to C36: merging databases *)
From Coq Require Import Permutation.
From Verif Require Import Base BaseProofs Text HashModel HashSpec HashProofs Maps DatabaseModel NamesProofs MergeModel MergeSpec MergeProofs.

(* C33 *)
Theorem C33_merge_idempotent : forall d s d', wf_db d -> wf_db s -> MergeDatabases d s = Ok d' -> MergeDatabases d' s = Ok d'.
Proof. exact merge_again. Qed.
Print Assumptions C33_merge_idempotent.
(* without the NaN proviso it is false: a NaN float attribute is added again by every merge *)
Definition nan_attr : float_attr := mk_float (mk_prim (mk_name 7 (str "a")) noname) 2143289344.
Definition nan_db : database := mk_db [] [] [] [] [] [] [] [] [] [] [] [] [(7, nan_attr)] [] [] [] [].
Theorem C33_nan_refuted : exists s d' d'', MergeDatabases db_empty s = Ok d' /\ MergeDatabases d' s = Ok d'' /\ d' <> d''.
Proof. exists nan_db. eexists. eexists. split; [reflexivity|]. split; [reflexivity|]. discriminate. Qed.
Print Assumptions C33_nan_refuted.

(* C34 *)
Theorem C34_merge_is_the_union : forall d s d', wf_db d -> wf_db s -> MergeDatabases d s = Ok d' -> merged d s d' /\ wf_db d'.
Proof. intros d s d' Hd Hs H. destruct (merge_db d s d' Hd Hs H). auto. Qed.
Print Assumptions C34_merge_is_the_union.
(* merging stops (with an assert) exactly when one hash stands for two texts *)
Theorem C34_fails_only_on_collision : forall d s, wf_db d -> wf_db s ->
  (compatible d s -> exists d', MergeDatabases d s = Ok d') /\ (~ compatible d s -> MergeDatabases d s = Trap).
Proof. exact merge_fails. Qed.
Print Assumptions C34_fails_only_on_collision.

(* C35 *)
Theorem C35_definition_wins : forall l d', Forall wf_db l -> MergeAll db_empty l = Ok d' ->
  forall k c, m_find k (m_classes d') = Some c -> is_fwd c = true ->
  forall s c', In s l -> In c' (m_range k (m_classes s)) -> is_fwd c' = true.
Proof. intros l d' Hl H k c Hc Hf. exact (proj2 (proj1 (all_fwd l db_empty d' wf_empty Hl H k) c Hc Hf)). Qed.
Print Assumptions C35_definition_wins.
Theorem C35_definition_stays : forall l1 l2 d d', Forall wf_db (l1 ++ l2) -> MergeAll db_empty l1 = Ok d -> MergeAll d l2 = Ok d' ->
  forall k c, m_find k (m_classes d) = Some c -> is_fwd c = false -> m_find k (m_classes d') = Some c.
Proof.
  intros l1 l2 d d' Hl H1 H2 k c. apply Forall_app in Hl. destruct Hl as [Ha Hb].
  exact (proj2 (all_fwd l2 d d' (all_wf l1 _ _ wf_empty Ha H1) Hb H2 k) c).
Qed.
Print Assumptions C35_definition_stays.
Theorem C35_every_class_is_there : forall l d', Forall wf_db l -> MergeAll db_empty l = Ok d' ->
  forall k, (exists c, m_find k (m_classes d') = Some c) <-> (exists s c, In s l /\ m_find k (m_classes s) = Some c).
Proof.
  intros l d' Hl H k. rewrite (all_classes l db_empty d' wf_empty Hl H k). split; [|auto]. intros [[c X]|X]; [discriminate|exact X].
Qed.
Print Assumptions C35_every_class_is_there.

(* C36 *)
Theorem C36_overloads_are_the_union : forall l d', Forall wf_db l -> MergeAll db_empty l = Ok d' ->
  each_overload_table (fun T eqb table => forall k, overload_union eqb (map table l) k (m_range k (table d'))).
Proof.
  intros l d' Hl H. destruct runs as [R1 [R2 [R3 [R4 [R5 [R6 [R7 R8]]]]]]].
  split; [exact (all_union _ _ _ any R1 enum_const_equiv eq_refl (fun _ _ _ _ _ => I) l d' Hl H)|].
  split; [exact (all_union _ _ _ any R2 function_equiv eq_refl (fun _ _ _ _ _ => I) l d' Hl H)|].
  split; [exact (all_union _ _ _ any R3 field_equiv eq_refl (fun _ _ _ _ _ => I) l d' Hl H)|].
  split; [exact (all_union _ _ _ any R4 prim_equiv eq_refl (fun _ _ _ _ _ => I) l d' Hl H)|].
  split; [exact (all_union _ _ _ any R5 int_attr_equiv eq_refl (fun _ _ _ _ _ => I) l d' Hl H)|].
  split; [apply (all_union _ _ _ _ R6 float_attr_equiv eq_refl); [|exact Hl|exact H]; intros d k v Hd Hin; unfold wf_db in Hd; decompose [and] Hd; eauto|].
  split; [exact (all_union _ _ _ any R7 prim_attr_equiv eq_refl (fun _ _ _ _ _ => I) l d' Hl H)|].
  exact (all_union _ _ _ any R8 text_attr_equiv eq_refl (fun _ _ _ _ _ => I) l d' Hl H).
Qed.
Print Assumptions C36_overloads_are_the_union.
Theorem C36_any_order : forall l1 l2 d1, Forall wf_db l1 -> Permutation l1 l2 -> MergeAll db_empty l1 = Ok d1 ->
  exists d2, MergeAll db_empty l2 = Ok d2 /\
  each_overload_table (fun T eqb table => forall k, same_set eqb (m_range k (table d1)) (m_range k (table d2))).
Proof.
  intros l1 l2 d1 Hl Hp H1. destruct (all_perm l1 l2 Hl Hp (ex_intro _ d1 H1)) as [d2 H2]. exists d2. split; [exact H2|].
  assert (Hl2 : Forall wf_db l2) by (eapply Permutation_Forall; eauto).
  destruct (C36_overloads_are_the_union l1 d1 Hl H1) as [A1 [A2 [A3 [A4 [A5 [A6 [A7 A8]]]]]]].
  destruct (C36_overloads_are_the_union l2 d2 Hl2 H2) as [B1 [B2 [B3 [B4 [B5 [B6 [B7 B8]]]]]]].
  assert (Hin : forall T (f : database -> zmap T) s, In s (map f l1) <-> In s (map f l2)).
  { intros T f s. rewrite !in_map_iff. split; intros [x [E Hx]]; exists x; (split; [exact E|]);
      (eapply Permutation_in; [|exact Hx]); [exact Hp|apply Permutation_sym; exact Hp]. }
  split; [intros k; exact (union_same _ _ _ _ _ k _ _ enum_const_equiv (Hin _ _) (A1 k) (B1 k))|].
  split; [intros k; exact (union_same _ _ _ _ _ k _ _ function_equiv (Hin _ _) (A2 k) (B2 k))|].
  split; [intros k; exact (union_same _ _ _ _ _ k _ _ field_equiv (Hin _ _) (A3 k) (B3 k))|].
  split; [intros k; exact (union_same _ _ _ _ _ k _ _ prim_equiv (Hin _ _) (A4 k) (B4 k))|].
  split; [intros k; exact (union_same _ _ _ _ _ k _ _ int_attr_equiv (Hin _ _) (A5 k) (B5 k))|].
  split; [intros k; exact (union_same _ _ _ _ _ k _ _ float_attr_equiv (Hin _ _) (A6 k) (B6 k))|].
  split; [intros k; exact (union_same _ _ _ _ _ k _ _ prim_attr_equiv (Hin _ _) (A7 k) (B7 k))|].
  intros k; exact (union_same _ _ _ _ _ k _ _ text_attr_equiv (Hin _ _) (A8 k) (B8 k)).
Qed.
Print Assumptions C36_any_order.

(* the comparisons above are exactly: same in every respect the specification names *)
Theorem C36_what_is_compared :
  (forall a b, prim_eqb a b = true <-> same_prim a b) /\ (forall a b, enum_const_eqb a b = true <-> same_enum_const a b) /\
  (forall a b, function_eqb a b = true <-> same_function a b) /\ (forall a b, field_eqb a b = true <-> same_field a b) /\
  (forall a b, int_attr_eqb a b = true <-> same_int_attr a b) /\ (forall a b, float_attr_eqb a b = true <-> same_float_attr a b) /\
  (forall a b, prim_attr_eqb a b = true <-> same_prim_attr a b) /\ (forall a b, text_attr_eqb a b = true <-> same_text_attr a b).
Proof. exact eqb_same. Qed.
Print Assumptions C36_what_is_compared.

(* two databases that meet the hypotheses: a forward declaration and a definition of class "C",
   and two overloads of function "f" *)
Definition nm (s : string) : name := mk_name (hash32 (str s) 0) (str s).
Definition pr (s : string) : prim := mk_prim (nm s) noname.
Definition hs (s : string) : Z := hash32 (str s) 0.
Definition tu1 : database := mk_db [(hs "C", nm "C")] [] [] [] [] [(hs "C", mk_class (pr "C") FORWARD_DECL_SIZE true)] [] []
  [(hs "f", mk_func (pr "f") 1 0)] [] [] [] [] [] [] [] [].
Definition tu2 : database := mk_db [(hs "C", nm "C")] [] [] [] [] [(hs "C", mk_class (pr "C") 4 true)] [] []
  [(hs "f", mk_func (pr "f") 2 0); (hs "f", mk_func (pr "f") 1 5)] [] [] [] [] [] [] [] [].
Lemma wf_one : forall T (n : T -> name) v, n_hash (n v) <> 0 -> wf_table n [(n_hash (n v), v)].
Proof. intros T n v H. split; [cbn; tauto|]. intros k w [E|[]]. injection E as <- <-. auto. Qed.
Lemma wf_two : forall T (n : T -> name) v w, n_hash (n v) <> 0 -> n_hash (n w) = n_hash (n v) -> wf_table n [(n_hash (n v), v); (n_hash (n v), w)].
Proof. intros T n v w H Hw. split; [cbn; intuition lia|]. intros k x [E|[E|[]]]; injection E as <- <-; auto. Qed.
Ltac wf_tail := repeat (split; [apply wf_nil|]); split; [split; [exact I|apply wf_nil]|]; split; [split; [exact I|apply wf_nil]|]; intros ? ? [].
Lemma names_C : names_ok [(hs "C", nm "C")] /\ forall h n, In (h, n) [(hs "C", nm "C")] -> text_ok (n_text n).
Proof.
  split.
  - split; [cbn; tauto|]. intros h n H. cbn [m_find] in H. destruct (Z.eqb_spec (hs "C") h) as [<-|]; [|discriminate].
    injection H as <-. split; [reflexivity|]. split; [reflexivity|]. vm_compute. discriminate.
  - intros h n [E|[]]. injection E as <- <-. split; [|vm_compute; reflexivity]. constructor; [|constructor]. split; reflexivity.
Qed.
Example C35_witness : wf_db tu1 /\ wf_db tu2 /\
  (exists d, MergeAll db_empty [tu1; tu2] = Ok d /\ m_find (hs "C") (m_classes d) = Some (mk_class (pr "C") 4 true) /\
     m_range (hs "f") (m_functions d) = [mk_func (pr "f") 1 0; mk_func (pr "f") 2 0]) /\
  (exists d, MergeAll db_empty [tu2; tu1] = Ok d /\ m_find (hs "C") (m_classes d) = Some (mk_class (pr "C") 4 true) /\
     m_range (hs "f") (m_functions d) = [mk_func (pr "f") 2 0; mk_func (pr "f") 1 5]).
Proof.
  destruct names_C as [N1 N2]. split; [|split; [|split]].
  - unfold wf_db, tu1. cbn [m_names m_namespaces m_types m_templates m_template_types m_classes m_enums m_enum_consts m_functions m_fields m_flag_attrs m_int_attrs m_float_attrs m_prim_attrs m_text_attrs m_containers m_inherits].
    split; [exact N1|]. split; [exact N2|]. do 4 (split; [apply wf_nil|]).
    split; [apply (wf_one class (fun c => p_name (c_prim c)) (mk_class (pr "C") FORWARD_DECL_SIZE true)); vm_compute; discriminate|]. do 2 (split; [apply wf_nil|]).
    split; [apply (wf_one function (fun f => p_name (fn_prim f)) (mk_func (pr "f") 1 0)); vm_compute; discriminate|]. wf_tail.
  - unfold wf_db, tu2. cbn [m_names m_namespaces m_types m_templates m_template_types m_classes m_enums m_enum_consts m_functions m_fields m_flag_attrs m_int_attrs m_float_attrs m_prim_attrs m_text_attrs m_containers m_inherits].
    split; [exact N1|]. split; [exact N2|]. do 4 (split; [apply wf_nil|]).
    split; [apply (wf_one class (fun c => p_name (c_prim c)) (mk_class (pr "C") 4 true)); vm_compute; discriminate|]. do 2 (split; [apply wf_nil|]).
    split; [apply (wf_two function (fun f => p_name (fn_prim f)) (mk_func (pr "f") 2 0) (mk_func (pr "f") 1 5)); vm_compute; [discriminate|reflexivity]|]. wf_tail.
  - eexists. split; [vm_compute; reflexivity|]. split; vm_compute; reflexivity.
  - eexists. split; [vm_compute; reflexivity|]. split; vm_compute; reflexivity.
Qed.
