(* C87: what scans declare, merged and exported. *)
From Verif Require Import Base BaseProofs Text HashModel HashSpec Maps DatabaseModel AttrModel NamesProofs MergeModel MergeSpec MergeProofs ScanModel
  PipeInvProofs PipeSpec PipeMergeProofs PipeScanProofs PipeProps ExportModel ExportSpec ExportProofs ExportProps PipeExportProofs.
From Verif Require ScanSpec ScanProps ScanWitness PipeWitness ExportWitness.
From Verif Require Import PipeExportWitness.
From Coq Require Import Sorted Permutation.
Local Open Scope string_scope.
Local Open Scope list_scope.
Local Open Scope Z_scope.

(* The database of any scans, merged, can be exported: what the export asks of its input (ExportSpec.v) beyond limits of
   size and of the memory layout always holds, if no anonymous union stands outside a class, types of different kinds
   have different names, and inheritance is not circular. *)
Theorem C87_exportable : forall sf runs ds d' L fuel, scanned sf runs ds -> Forall mergeable ds -> MergeAll db_empty ds = Ok d' ->
  (forall tus, In tus runs -> no_loose_unions tus) -> one_kind d' -> shallow d' fuel -> small_db d' -> no_clash L d' -> sorts L -> exportable L fuel d'.
Proof.
  intros sf runs ds d' L fuel H M Hm Hu Hk Hs Hb Hc Ho. pose proof (scanned_inv _ _ _ H) as Hi. pose proof (scanned_wf _ _ _ H M) as Hw.
  pose proof (merged_tables ds d' Hw Hm) as Ht. split; [exact Ht|]. split; [exact (merged_interned ds d' Hi Hw Hm)|].
  split; [exact (merged_fields_owned sf runs ds d' H M Hm Hu)|]. split; [exact Hb|]. split; [exact Hc|]. split; [exact Ho|]. split; [exact (one_kind_unique d' Ht Hk)|exact Hs].
Qed.
Print Assumptions C87_exportable.
(* Then every function some source declares is in the result, once, and its parameters and return value are the
   declared ones that say they belong to it. *)
Theorem C87_functions : forall sf runs ds d' L fuel, scanned sf runs ds -> Forall mergeable ds -> MergeAll db_empty ds = Ok d' -> exportable L fuel d' ->
  (forall f g, declared sf runs (ScanSpec.Function_ f) -> declared sf runs (ScanSpec.Function_ g) ->
     n_hash (p_name (fn_prim f)) = n_hash (p_name (fn_prim g)) -> fn_uid f = fn_uid g -> f = g) ->
  exports L fuel d' (fun e => forall fn, declared sf runs (ScanSpec.Function_ fn) ->
    exists i, at_row (m_functions d') i fn /\ (forall i', at_row (m_functions d') i' fn -> i' = i) /\
      (forall f, declared sf runs (ScanSpec.Field_ f) -> of_function fn f ->
        exists j, at_row (m_fields d') j f /\ (In (Ptr (KField, j)) (x_arr e (AParameters, (KFunction, i))) \/ x_ret e (KFunction, i) = Ptr (KField, j))) /\
      (forall r, In r (x_arr e (AParameters, (KFunction, i))) \/ (x_ret e (KFunction, i) = r /\ r <> Int 0) ->
        exists j f, r = Ptr (KField, j) /\ at_row (m_fields d') j f /\ declared sf runs (ScanSpec.Field_ f) /\ of_function fn f)).
Proof.
  intros sf runs ds d' L fuel H M Hm Hx Hone. pose proof (scanned_inv _ _ _ H) as Hi. pose proof (scanned_wf _ _ _ H M) as Hw.
  destruct (C86_merged_iff_declared _ _ _ _ H M Hm) as [F1 [F2 [_ F4]]]. pose proof (merged_wf ds d' Hw Hm) as W. unfold wf_db in W.
  assert (Wf : wf_table (fun f => p_name (fn_prim f)) (m_functions d')) by tauto. assert (Wc : wf_table (fun c => p_name (c_prim c)) (m_classes d')) by tauto. clear W.
  assert (Nf : NoDup (m_functions d')) by (apply rows_nodup; intros k; apply (F4 k)).
  assert (Df : forall i f, at_row (m_functions d') i f -> declared sf runs (ScanSpec.Function_ f)) by (intros i f [h E]; apply nth_error_In in E; apply F2 in E; tauto).
  assert (Uf : forall i j f g, at_row (m_functions d') i f -> at_row (m_functions d') j g -> n_hash (p_name (fn_prim f)) = n_hash (p_name (fn_prim g)) -> fn_uid f = fn_uid g -> i = j).
  { intros i j f g Hf Hg E1 E2. assert (f = g) as -> by (apply Hone; try assumption; eapply Df; eassumption). exact (same_row _ _ _ _ _ _ Wf Nf Hf Hg). }
  assert (Uc : forall i j f g, at_row (m_classes d') i f -> at_row (m_classes d') j g -> n_hash (p_name (c_prim f)) = n_hash (p_name (c_prim g)) -> i = j).
  { intros i j f g Hf Hg E. exact (same_key _ _ _ _ _ _ _ Wc (merged_classes_once ds d' Hw Hm) Hf Hg E). }
  destruct (C46_return L fuel d' Hx) as [e [He Hr]]. exists e. split; [exact He|]. intros fn Hfn.
  assert (Hin : In (n_hash (p_name (fn_prim fn)), fn) (m_functions d')) by (apply F2; auto). apply In_nth_error in Hin. destruct Hin as [i Hin].
  assert (Hat : at_row (m_functions d') i fn) by (eexists; exact Hin). exists i. split; [exact Hat|]. split; [intros i' Hi'; exact (same_row _ _ _ _ _ _ Wf Nf Hi' Hat)|].
  destruct (at_function d' i fn Hat) as [_ [_ Hp]]. specialize (Hr _ Hp).
  assert (Hmem : forall r, (In r (x_arr e (AParameters, (KFunction, i))) \/ (x_ret e (KFunction, i) = r /\ r <> Int 0)) <-> exists c, r = Ptr c /\ In c (children d' AParameters (KFunction, i))).
  { intros r. destruct (find _ (children d' AParameters (KFunction, i))) as [x|] eqn:Ef.
    - destruct Hr as [R1 [ls [R2 R3]]]. rewrite R1, R2, in_map_iff. split.
      + intros [[c [<- Hc]]|[<- _]]; [exists c; split; [reflexivity|]; apply (Permutation_in _ R3); right; exact Hc|exists x; split; [reflexivity|]; apply (Permutation_in _ R3); left; reflexivity].
      + intros [c [-> Hc]]. apply (Permutation_in _ (Permutation_sym R3)) in Hc. destruct Hc as [->|Hc]; [right; split; [reflexivity|discriminate]|left; exists c; auto].
    - destruct Hr as [R1 [ls [R2 R3]]]. rewrite R1, R2, in_map_iff. split.
      + intros [[c [<- Hc]]|[<- X]]; [exists c; split; [reflexivity|]; apply (Permutation_in _ R3); exact Hc|congruence].
      + intros [c [-> Hc]]. apply (Permutation_in _ (Permutation_sym R3)) in Hc. left. exists c. auto. }
  split.
  - intros f Hf Ho. assert (Hj : In (n_hash (p_name (f_prim f)), f) (m_fields d')) by (apply F1; auto). apply In_nth_error in Hj. destruct Hj as [j Hj].
    assert (Hja : at_row (m_fields d') j f) by (eexists; exact Hj). exists j. split; [exact Hja|].
    assert (X : In (Ptr (KField, j)) (x_arr e (AParameters, (KFunction, i))) \/ (x_ret e (KFunction, i) = Ptr (KField, j) /\ Ptr (KField, j) <> Int 0)); [|tauto].
    apply Hmem. exists (KField, j). split; [reflexivity|]. apply in_children. split; [apply (at_field d' j f Hja)|]. split; [|reflexivity]. apply (function_owns d' Uf i j fn f Hat Hja). exact Ho.
  - intros r Hr'. apply Hmem in Hr'. destruct Hr' as [[k j] [-> Hc]]. apply in_children in Hc. destruct Hc as [H1 [H2 H3]]. cbn [fst] in *. destruct k; try discriminate H3.
    apply places_In in H1. cbn [fst snd items] in H1. destruct H1 as [_ H1]. rewrite map_length in H1. destruct (row_at _ _ _ H1) as [f Hf]. exists j, f. split; [reflexivity|]. split; [exact Hf|].
    split; [destruct Hf as [h Hf]; apply nth_error_In in Hf; apply F1 in Hf; tauto|]. apply (function_owns d' Uf i j fn f Hat Hf). exact H2.
Qed.
Print Assumptions C87_functions.
(* Every class some source declares is in the result, once, and its fields are the declared ones that say they belong to
   it, whose type is known and which no function of the class's name claims. *)
Theorem C87_classes : forall sf runs ds d' L fuel, scanned sf runs ds -> Forall mergeable ds -> MergeAll db_empty ds = Ok d' -> exportable L fuel d' ->
  exports L fuel d' (fun e => forall p cl s, declared sf runs (ScanSpec.Class_ p cl s) ->
    exists i c, at_row (m_classes d') i c /\ n_hash (p_name (c_prim c)) = n_hash (p_name p) /\
      (forall i' c', at_row (m_classes d') i' c' -> n_hash (p_name (c_prim c')) = n_hash (p_name p) -> i' = i) /\
      (forall f, declared sf runs (ScanSpec.Field_ f) -> of_class (n_hash (p_name p)) f -> type_named d' (n_hash (f_type f)) <> None ->
        (forall fn, declared sf runs (ScanSpec.Function_ fn) -> ~ of_function fn f) ->
        exists j, at_row (m_fields d') j f /\ In (Ptr (KField, j)) (x_arr e (AFields, (KClass, i)))) /\
      (forall r, In r (x_arr e (AFields, (KClass, i))) ->
        exists j f, r = Ptr (KField, j) /\ at_row (m_fields d') j f /\ declared sf runs (ScanSpec.Field_ f) /\ of_class (n_hash (p_name p)) f /\
          type_named d' (n_hash (f_type f)) <> None /\ forall fn, declared sf runs (ScanSpec.Function_ fn) -> ~ of_function fn f)).
Proof.
  intros sf runs ds d' L fuel H M Hm Hx. pose proof (scanned_inv _ _ _ H) as Hi. pose proof (scanned_wf _ _ _ H M) as Hw.
  destruct (C86_merged_iff_declared _ _ _ _ H M Hm) as [F1 [F2 [_ F4]]]. pose proof (merged_wf ds d' Hw Hm) as W. unfold wf_db in W.
  assert (Wc : wf_table (fun c => p_name (c_prim c)) (m_classes d')) by tauto. clear W.
  assert (Df : forall f, (exists i, at_row (m_functions d') i f) <-> declared sf runs (ScanSpec.Function_ f)).
  { intros f. split; [intros [i [h E]]; apply nth_error_In in E; apply F2 in E; tauto|]. intros Hf. assert (Hin : In (n_hash (p_name (fn_prim f)), f) (m_functions d')) by (apply F2; auto). apply In_nth_error in Hin. destruct Hin as [i Hin]. exists i. eexists. exact Hin. }
  assert (Uc : forall i j f g, at_row (m_classes d') i f -> at_row (m_classes d') j g -> n_hash (p_name (c_prim f)) = n_hash (p_name (c_prim g)) -> i = j).
  { intros i j f g Hf Hg E. exact (same_key _ _ _ _ _ _ _ Wc (merged_classes_once ds d' Hw Hm) Hf Hg E). }
  destruct (C42_children L fuel d' Hx) as [e [He Hr]]. exists e. split; [exact He|]. intros p cl s Hd.
  assert (Hk : In (n_hash (p_name p)) (keys (m_classes d'))).
  { destruct Hd as [tus [Ht G]]. destruct (scanned_right _ _ _ _ H Ht) as [s0 [Hs0 [Hc [fl [w Hsc]]]]]. apply (proj2 (best_row ds d' (best_classes ds d' Hw Hm)) _ s0 Hs0).
    apply (ScanProps.C78_recorded_iff_declared _ _ _ _ _ Hc Hsc (n_hash (p_name p))). exists p, cl, s. auto. }
  unfold keys in Hk. apply in_map_iff in Hk. destruct Hk as [[h c] [Eh Hin]]. cbn [fst] in Eh. subst h. assert (Ec : n_hash (p_name (c_prim c)) = n_hash (p_name p)) by (destruct Wc as [_ Wc]; symmetry; apply (Wc _ _ Hin)).
  apply In_nth_error in Hin. destruct Hin as [i Hin]. assert (Hat : at_row (m_classes d') i c) by (eexists; exact Hin). exists i, c. split; [exact Hat|]. split; [exact Ec|].
  split; [intros i' c' Hc' E; apply (Uc i' i c' c Hc' Hat); congruence|].
  destruct (Hr AFields (KClass, i)) as [ls [R1 [_ R2]]]; [discriminate|]. rewrite R1. split.
  - intros f Hf Ho Ht Hn. assert (Hj : In (n_hash (p_name (f_prim f)), f) (m_fields d')) by (apply F1; auto). apply In_nth_error in Hj. destruct Hj as [j Hj].
    assert (Hja : at_row (m_fields d') j f) by (eexists; exact Hj). exists j. split; [exact Hja|]. apply in_map. apply R2. destruct (at_field d' j f Hja) as [_ [_ [P3 P4]]].
    split; [exact P4|]. split; [|split; [reflexivity|]].
    + apply (class_owns d' Uc i j c f Hat Hja). split; [rewrite Ec; exact Ho|]. intros k fn Hfn. apply Hn. apply Df. exists k. exact Hfn.
    + unfold kept, has_type. rewrite P3. destruct (type_named d' (n_hash (f_type f))); congruence.
  - intros r Hr'. apply in_map_iff in Hr'. destruct Hr' as [[k j] [<- Hc]]. apply R2 in Hc. destruct Hc as [H1 [H2 [H3 H4]]]. cbn [fst] in *. destruct k; try discriminate H3.
    apply places_In in H1. cbn [fst snd items] in H1. destruct H1 as [_ H1]. rewrite map_length in H1. destruct (row_at _ _ _ H1) as [f Hf]. exists j, f. split; [reflexivity|]. split; [exact Hf|].
    split; [destruct Hf as [h Hf]; apply nth_error_In in Hf; apply F1 in Hf; tauto|]. apply (class_owns d' Uc i j c f Hat Hf) in H2. destruct H2 as [H2 H5]. destruct (at_field d' j f Hf) as [_ [_ [P3 P4]]].
    split; [rewrite <- Ec; exact H2|]. split; [unfold kept, has_type in H4; rewrite P3 in H4; destruct (type_named d' (n_hash (f_type f))); congruence|].
    intros fn Hfn. apply Df in Hfn. destruct Hfn as [k0 Hfn]. exact (H5 k0 fn Hfn).
Qed.
Print Assumptions C87_classes.

(* Finding: an anonymous union outside a class makes the export read through a parent that is not there. *)
Theorem C87_loose_union_refuted : exists sf runs ds d' L fuel, scanned sf runs ds /\ Forall mergeable ds /\ MergeAll db_empty ds = Ok d' /\
  one_kind d' /\ shallow d' fuel /\ small_db d' /\ no_clash L d' /\ sorts L /\ BuildCppExport L fuel d' = UB.
Proof.
  exists ScanWitness.w_sf, [u_tus], [u_db], u_merged, ExportWitness.lay, 5%nat.
  split; [apply one_scanned; exact u_scan|]. split; [constructor; [apply mergeable_b_ok; vm_compute; reflexivity|constructor]|]. split; [exact u_merge|].
  split; [apply ExportWitness.nodup_b_ok; vm_compute; reflexivity|].
  split; [exists (fun _ => 0%nat); split; [intros; lia|]; apply ExportWitness.rank_b_ok; vm_compute; reflexivity|].
  split; [apply small_b_ok; vm_compute; reflexivity|]. split; [apply ExportWitness.clash_b_ok; vm_compute; reflexivity|]. split; [exact ExportWitness.isort_sorts|].
  assert (X : match BuildCppExport ExportWitness.lay 5 u_merged with UB => true | _ => false end = true) by (vm_compute; reflexivity). destruct (BuildCppExport ExportWitness.lay 5 u_merged); congruence.
Qed.
Print Assumptions C87_loose_union_refuted.
(* Finding: a class and a parameterless function of one name (C++ allows it) are mixed up: the fields of the class become
   parameters of the function, and the class has none. *)
Theorem C87_shared_name_refuted : exists sf runs ds d' L fuel, scanned sf runs ds /\ Forall mergeable ds /\ MergeAll db_empty ds = Ok d' /\
  (forall tus, In tus runs -> no_loose_unions tus) /\ one_kind d' /\ shallow d' fuel /\ small_db d' /\ no_clash L d' /\ sorts L /\
  (exists k k' c fn f, m_classes d' = [(k, c)] /\ c_size c = 4 /\ m_functions d' = [(k, fn)] /\ p_name (fn_prim fn) = p_name (c_prim c) /\
     m_fields d' = [(k', f)] /\ p_parent (f_prim f) = p_name (c_prim c) /\ type_named d' (n_hash (f_type f)) <> None) /\
  exports L fuel d' (fun e => x_arr e (AParameters, (KFunction, 0%nat)) = [Ptr (KField, 0%nat)] /\ x_arr e (AFields, (KClass, 0%nat)) = []).
Proof.
  exists ScanWitness.w_sf, [s_tus], [s_db], s_merged, ExportWitness.lay, 5%nat.
  split; [apply one_scanned; exact s_scan|]. split; [constructor; [apply mergeable_b_ok; vm_compute; reflexivity|constructor]|]. split; [exact s_merge|].
  split. { assert (X : forallb (fun u => forallb (unions_in_classes false) (snd u)) s_tus = true) by (vm_compute; reflexivity).
    intros tus [<-|[]] E tu d Hu Hd. rewrite forallb_forall in X. apply X in Hu. cbn [snd] in Hu. rewrite forallb_forall in Hu. apply Hu. exact Hd. }
  split; [apply ExportWitness.nodup_b_ok; vm_compute; reflexivity|].
  split; [exists (fun _ => 0%nat); split; [intros; lia|]; apply ExportWitness.rank_b_ok; vm_compute; reflexivity|].
  split; [apply small_b_ok; vm_compute; reflexivity|]. split; [apply ExportWitness.clash_b_ok; vm_compute; reflexivity|]. split; [exact ExportWitness.isort_sorts|]. split.
  - do 5 eexists. split; [vm_compute; reflexivity|]. split; [vm_compute; reflexivity|]. split; [vm_compute; reflexivity|]. split; [vm_compute; reflexivity|]. split; [vm_compute; reflexivity|]. split; [vm_compute; reflexivity|]. vm_compute. discriminate.
  - assert (X : match BuildCppExport ExportWitness.lay 5 s_merged with Ok e => Some (x_arr e (AParameters, (KFunction, 0%nat)), x_arr e (AFields, (KClass, 0%nat))) | _ => None end = Some ([Ptr (KField, 0%nat)], [])) by (vm_compute; reflexivity).
    destruct (BuildCppExport ExportWitness.lay 5 s_merged) as [e| | | ] eqn:E; [|discriminate X..]. exists e. split; [exact E|]. injection X as X1 X2. rewrite X1, X2. split; reflexivity.
Qed.
Print Assumptions C87_shared_name_refuted.

(* ---- the two sources of PipeWitness.v ---- *)
Lemma v_exportable : exportable ExportWitness.lay 5 PipeWitness.vw_db.
Proof.
  exact (C87_exportable _ _ _ _ _ _ PipeWitness.vw_scanned PipeWitness.vw_mergeable PipeWitness.vw_merged v_unions v_kinds v_shallow v_small v_clash ExportWitness.isort_sorts).
Qed.
Example C87_case :
  exportable ExportWitness.lay 5 PipeWitness.vw_db /\
  (forall f g, declared ScanWitness.w_sf [ScanWitness.w_tus; PipeWitness.v_tus] (ScanSpec.Function_ f) -> declared ScanWitness.w_sf [ScanWitness.w_tus; PipeWitness.v_tus] (ScanSpec.Function_ g) ->
     n_hash (p_name (fn_prim f)) = n_hash (p_name (fn_prim g)) -> fn_uid f = fn_uid g -> f = g) /\
  exports ExportWitness.lay 5 PipeWitness.vw_db (fun e =>
    map (fun j => length (x_arr e (AParameters, (KFunction, j)))) [0%nat; 1%nat; 2%nat; 3%nat] = [2%nat; 3%nat; 1%nat; 2%nat] /\
    map (fun j => length (x_arr e (AFields, (KClass, j)))) [0%nat; 1%nat] = [1%nat; 3%nat]).
Proof.
  split; [exact v_exportable|]. split.
  - intros f g Hf Hg E1 E2. destruct (C86_merged_iff_declared _ _ _ _ PipeWitness.vw_scanned PipeWitness.vw_mergeable PipeWitness.vw_merged) as [_ [F _]].
    pose proof (proj2 (F _ f) (conj eq_refl Hf)) as If. pose proof (proj2 (F _ g) (conj eq_refl Hg)) as Ig.
    refine (only_b_ok (m_functions PipeWitness.vw_db) f g _ (conj (ex_intro (fun h => In (h, f) (m_functions PipeWitness.vw_db)) _ If) (ex_intro (fun h => In (h, g) (m_functions PipeWitness.vw_db)) _ Ig)) E1 E2). vm_compute. reflexivity.
  - assert (X : match BuildCppExport ExportWitness.lay 5 PipeWitness.vw_db with Ok e => Some (map (fun j => length (x_arr e (AParameters, (KFunction, j)))) [0%nat; 1%nat; 2%nat; 3%nat], map (fun j => length (x_arr e (AFields, (KClass, j)))) [0%nat; 1%nat]) | _ => None end
      = Some ([2%nat; 3%nat; 1%nat; 2%nat], [1%nat; 3%nat])) by (vm_compute; reflexivity).
    destruct (BuildCppExport ExportWitness.lay 5 PipeWitness.vw_db) as [e| | | ] eqn:E; [|discriminate X..]. exists e. split; [exact E|]. cbn [map] in X |- *. injection X as X1 X2 X3 X4 X5 X6. rewrite X1, X2, X3, X4, X5, X6. split; reflexivity.
Qed.
