(* Two sources, scanned into a binary and a text file and merged: the examples of ToolsProps.v. *)
From Coq Require Import String.
From Verif Require Import Base BaseProofs Text Maps HashModel DatabaseModel NamesProofs MergeModel MergeSpec BinaryModel BinarySpec
  TextDbModel TextDbSpec CodeGenModel CodeGenSpec CodeGenProps ExportModel ScanModel
  PipeSpec PipeWitness ScanWitness ToolsModel ToolsSpec ToolsProofs.
From Verif Require ScanSpec ExportWitness.
Local Open Scope string_scope.
Local Open Scope list_scope.
Local Open Scope Z_scope.

Definition t_pf : Z -> list Z := fun _ => str "0".
Definition t_can : list Z -> bool := fun p => match p with [] => false | _ => true end.
Definition t_jobs : list (list Z * list (env * list decl)) := [(str "w.bin", w_tus); (str "v.csv", v_tus)].
Definition t_v : database := text_stored t_pf w_sf v_db.
Definition t_m : database := match MergeAll db_empty [w_db; t_v] with Ok d => d | _ => db_empty end.
Lemma t_merged : MergeAll db_empty [w_db; t_v] = Ok t_m.
Proof.
  assert (X : match MergeAll db_empty [w_db; t_v] with Ok _ => true | _ => false end = true) by (vm_compute; reflexivity).
  unfold t_m. destruct (MergeAll db_empty [w_db; t_v]) as [d| | | ]; [reflexivity|discriminate X..].
Qed.
Definition columnb (n : Z) (s : list Z) : bool := negb (is_nil s) && (zlen s <=? n) && negb (existsb (fun c => (c =? 9) || (c =? 10) || (c =? 0)) s).
Lemma columnb_ok : forall n s, columnb n s = true -> column_text n s.
Proof.
  intros n s H. unfold columnb in H. rewrite !andb_true_iff, !negb_true_iff in H. destruct H as [[A B] C].
  assert (X : forall c, In c s -> (c =? 9) || (c =? 10) || (c =? 0) = false).
  { intros c Hc. destruct ((c =? 9) || (c =? 10) || (c =? 0)) eqn:E; [|reflexivity]. assert (Y : existsb (fun c => (c =? 9) || (c =? 10) || (c =? 0)) s = true) by (apply existsb_exists; exists c; auto). congruence. }
  split; [intros ->; discriminate A|]. split; [lia|]. split; [intros Hc; discriminate (X _ Hc)|]. split; intros Hc; discriminate (X _ Hc).
Qed.
Definition fits_textb (d : database) : bool :=
  rowsb (fun n => columnb 4086 (n_text n)) (m_names d) && rowsb (fun e => (0 <=? e_scoped e) && (e_scoped e <=? 2)) (m_enums d) &&
  rowsb (fun a => columnb 4000 (t_pf (fa_value a))) (m_float_attrs d) && rowsb (fun a => columnb 4077 (ta_value a)) (m_text_attrs d) &&
  no0b (m_containers d) && no0b (m_inherits d).
Lemma fits_textb_ok : forall d, fits_textb d = true -> fits_text t_pf d.
Proof.
  intros d H. unfold fits_textb in H. rewrite !andb_true_iff in H. destruct H as [[[[[A B] C] D] E] F]. unfold fits_text.
  split; [revert A; apply rowsb_ok; intros v; apply columnb_ok|]. split; [revert B; apply rowsb_ok; intros v Hv; lia|]. split; [revert C; apply rowsb_ok; intros v; apply columnb_ok|].
  split; [revert D; apply rowsb_ok; intros v; apply columnb_ok|]. split; apply no0b_ok; assumption.
Qed.
Lemma t_names : text_name (str "v.csv") /\ ~ text_name (str "w.bin").
Proof.
  split; [left; exists (str "v"); reflexivity|]. intros H. apply ends_with_csv in H; [|reflexivity]. vm_compute in H. discriminate H.
Qed.
Lemma t_leaves : Forall2 (job_leaves 3 t_can t_pf w_sf) t_jobs [w_db; t_v].
Proof.
  destruct t_names as [T1 T2]. destruct w_scan as [w1 S1]. destruct v_scan as [w2 S2]. constructor; [|constructor; [|constructor]]; unfold job_leaves; cbn [fst snd].
  - split; [discriminate|]. split; [reflexivity|]. split; [split; discriminate|]. split; [reflexivity|]. split; [exact w_coherent|]. exists w_db, w1. split; [exact S1|]. split; split; intros T; try contradiction; [|reflexivity].
    split; [apply w_fits|]. unfold distinct_texts. vm_compute. apply NoDup_nil.
  - split; [discriminate|]. split; [reflexivity|]. split; [split; discriminate|]. split; [reflexivity|]. split; [exact v_coherent|]. exists v_db, w2. split; [exact S2|]. split; split; intros T; try contradiction; [|reflexivity].
    apply fits_textb_ok. vm_compute. reflexivity.
Qed.
Lemma text_mergeable : forall pf sf d, mergeable d -> m_float_attrs d = [] -> mergeable (text_stored pf sf d).
Proof.
  intros pf sf d [A [B [C D]]] E. unfold mergeable. cbn [text_stored m_names m_float_attrs m_containers m_inherits]. rewrite E, mapped_keys. split; [exact A|]. split; [intros k v []|]. auto.
Qed.
Lemma t_mergeable : Forall mergeable [w_db; t_v].
Proof.
  pose proof (Forall_inv vw_mergeable) as H1. pose proof (Forall_inv (Forall_inv_tail vw_mergeable)) as H3. constructor; [exact H1|]. constructor; [|constructor].
  apply text_mergeable; [exact H3|]. vm_compute. reflexivity.
Qed.
Lemma t_fits : fits_text t_pf t_m.
Proof. apply fits_textb_ok. vm_compute. reflexivity. Qed.
(* the files of the two, and of the merge *)
Definition t_bin : list Z := match WriteBinaryDatabase w_db with Ok f => f | _ => [] end.
Definition t_txt : list Z := match WriteTextDatabase t_pf v_db with Ok f => f | _ => [] end.
Definition t_empty : list Z := match WriteTextDatabase t_pf db_empty with Ok f => f | _ => [] end.
Definition t_out : list Z := match WriteTextDatabase t_pf t_m with Ok f => f | _ => [] end.
(* gen.cpp is there, written by hand *)
Definition t_gen : list Z := str "namespace N { }" ++ [10].
Definition t_disk : files := fun p =>
  if path_eqb p (str "w.bin") then Some t_bin else if path_eqb p (str "v.csv") then Some t_txt else
  if path_eqb p (str "m.csv") then Some t_out else if path_eqb p (str "gen.cpp") then Some t_gen else None.
Lemma t_read : read_database w_sf (t_disk (str "w.bin")) = Ok (Some w_db) /\ read_database w_sf (t_disk (str "v.csv")) = Ok (Some t_v) /\ WriteTextDatabase t_pf t_m = Ok t_out.
Proof. split; [vm_compute; reflexivity|]. split; [vm_compute; reflexivity|]. vm_compute. reflexivity. Qed.
