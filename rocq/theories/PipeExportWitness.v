(* The sources of PipeWitness.v meet the conditions of PipeExportProps.v, and two sources that do not:

     namespace N { static union { int a; float b; }; }               clcpp_reflect(N)
     namespace N { struct stat { int size; }; void stat(); }         clcpp_reflect(N)  *)
From Verif Require Import Base BaseProofs Text HashModel HashSpec Maps DatabaseModel AttrModel NamesProofs MergeModel MergeSpec ScanModel PipeSpec ScanWitness PipeWitness
  ExportModel ExportSpec ExportProofs.
From Verif Require ScanSpec ExportWitness.
Local Open Scope string_scope.
Local Open Scope list_scope.
Local Open Scope Z_scope.

Lemma v_unions : forall tus, In tus [w_tus; v_tus] -> no_loose_unions tus.
Proof.
  assert (X : forallb (fun tus => forallb (fun u => forallb (unions_in_classes false) (snd u)) tus) [w_tus; v_tus] = true) by (vm_compute; reflexivity).
  intros tus Ht E tu d Hu Hd. rewrite forallb_forall in X. apply X in Ht. rewrite forallb_forall in Ht. apply Ht in Hu. cbn [snd] in Hu. rewrite forallb_forall in Hu. apply Hu. exact Hd.
Qed.
Lemma v_kinds : one_kind vw_db.
Proof. apply ExportWitness.nodup_b_ok. vm_compute. reflexivity. Qed.
Definition v_rank (l : loc) : nat :=
  if ExportSpec.named vw_db l "N::P" then 0%nat else 1%nat.
Lemma v_shallow : shallow vw_db 5.
Proof.
  exists v_rank. split; [intros l; unfold v_rank; destruct (ExportSpec.named vw_db l "N::P"); lia|]. apply ExportWitness.rank_b_ok. vm_compute. reflexivity.
Qed.
Lemma v_small : small_db vw_db.
Proof.
  split; [vm_compute; discriminate|]. split.
  - intros h n Hin. assert (E : forallb (fun e => zlen (n_text (snd e)) <? 2 ^ 28) (m_names vw_db) = true) by (vm_compute; reflexivity). rewrite forallb_forall in E. apply E in Hin. cbn [snd] in Hin. lia.
  - intros h a Ha Hz. assert (E : forallb (fun e => negb (existsb (Z.eqb 0) (ta_value (snd e)))) (m_text_attrs vw_db) = true) by (vm_compute; reflexivity).
    rewrite forallb_forall in E. apply E in Ha. cbn [snd] in Ha. apply negb_true_iff in Ha. assert (E2 : existsb (Z.eqb 0) (ta_value a) = true) by (apply existsb_exists; exists 0; split; [exact Hz|reflexivity]). congruence.
Qed.
Lemma v_clash : no_clash ExportWitness.lay vw_db.
Proof. apply ExportWitness.clash_b_ok. vm_compute. reflexivity. Qed.
(* functions of one name and id *)
Fixpoint only_b (l : list (Z * function)) : bool :=
  match l with
  | [] => true
  | a :: r => forallb (fun b => negb ((n_hash (p_name (fn_prim (snd a))) =? n_hash (p_name (fn_prim (snd b)))) && (fn_uid (snd a) =? fn_uid (snd b)))) r && only_b r
  end.
Lemma only_b_ok : forall l f g, only_b l = true -> (exists h, In (h, f) l) /\ (exists h, In (h, g) l) ->
  n_hash (p_name (fn_prim f)) = n_hash (p_name (fn_prim g)) -> fn_uid f = fn_uid g -> f = g.
Proof.
  induction l as [|[k x] l IH]; intros f g H [[h1 H1] [h2 H2]] E1 E2; [destruct H1|]. cbn [only_b snd] in H. apply andb_true_iff in H. destruct H as [Ha Hb]. rewrite forallb_forall in Ha.
  destruct H1 as [H1|H1], H2 as [H2|H2].
  - congruence.
  - assert (x = f) as -> by congruence. apply Ha in H2. cbn [snd] in H2. rewrite E1, E2, !Z.eqb_refl in H2. discriminate H2.
  - assert (x = g) as -> by congruence. apply Ha in H1. cbn [snd] in H1. rewrite E1, E2, !Z.eqb_refl in H1. discriminate H1.
  - apply IH; try assumption. split; eexists; eassumption.
Qed.
Definition small_b (d : database) : bool :=
  (zlen (flat_map (places d) all_kinds) <=? 2 ^ 30) && forallb (fun e => zlen (n_text (snd e)) <? 2 ^ 28) (m_names d) && forallb (fun e => negb (existsb (Z.eqb 0) (ta_value (snd e)))) (m_text_attrs d).
Lemma small_b_ok : forall d, small_b d = true -> small_db d.
Proof.
  intros d H. unfold small_b in H. rewrite !andb_true_iff in H. destruct H as [[H1 H2] H3]. rewrite forallb_forall in H2, H3. split; [lia|]. split.
  - intros h n Hin. apply H2 in Hin. cbn [snd] in Hin. lia.
  - intros h a Ha Hz. apply H3 in Ha. cbn [snd] in Ha. apply negb_true_iff in Ha. assert (E2 : existsb (Z.eqb 0) (ta_value a) = true) by (apply existsb_exists; exists 0; split; [exact Hz|reflexivity]). congruence.
Qed.
Definition u_tus : list (env * list decl) :=
  [(wE, [ask "full-N"; D_namespace (H "N" []) [D_record (H "N::(anonymous)" []) (mk_rcd true false false [] true false 4)
     [D_leaf (H "N::a" []) (L_field false (str "a") 0 t_int); D_leaf (H "N::b" []) (L_field false (str "b") 0 (Q false (T_builtin (str "float"))))]]])].
Definition u_db : database := match scan 3 w_sf u_tus with Ok (d, _) => d | _ => db_empty end.
Definition u_merged : database := match MergeAll db_empty [u_db] with Ok d => d | _ => db_empty end.
Lemma u_scan : exists w, scan 3 w_sf u_tus = Ok (u_db, w).
Proof.
  assert (X : match scan 3 w_sf u_tus with Ok _ => true | _ => false end = true) by (vm_compute; reflexivity).
  unfold u_db. destruct (scan 3 w_sf u_tus) as [[d w]| | | ]; [|discriminate X..]. exists w. reflexivity.
Qed.
Lemma u_merge : MergeAll db_empty [u_db] = Ok u_merged.
Proof.
  assert (X : match MergeAll db_empty [u_db] with Ok _ => true | _ => false end = true) by (vm_compute; reflexivity).
  unfold u_merged. destruct (MergeAll db_empty [u_db]) as [d| | | ]; [|discriminate X..]. reflexivity.
Qed.
Definition s_tus : list (env * list decl) :=
  [(wE, [ask "full-N"; D_namespace (H "N" []) [D_record (H "N::stat" []) (ScanWitness.plain [] 4) [D_leaf (H "N::stat::size" []) (L_field false (str "size") 0 t_int)];
     D_leaf (H "N::stat" []) (L_function (mk_fn true (Q false (T_builtin (str "void"))) []))]])].
Definition s_db : database := match scan 3 w_sf s_tus with Ok (d, _) => d | _ => db_empty end.
Definition s_merged : database := match MergeAll db_empty [s_db] with Ok d => d | _ => db_empty end.
Lemma s_scan : exists w, scan 3 w_sf s_tus = Ok (s_db, w).
Proof.
  assert (X : match scan 3 w_sf s_tus with Ok _ => true | _ => false end = true) by (vm_compute; reflexivity).
  unfold s_db. destruct (scan 3 w_sf s_tus) as [[d w]| | | ]; [|discriminate X..]. exists w. reflexivity.
Qed.
Lemma s_merge : MergeAll db_empty [s_db] = Ok s_merged.
Proof.
  assert (X : match MergeAll db_empty [s_db] with Ok _ => true | _ => false end = true) by (vm_compute; reflexivity).
  unfold s_merged. destruct (MergeAll db_empty [s_db]) as [d| | | ]; [|discriminate X..]. reflexivity.
Qed.
Lemma wE_coherent : forall d, ScanSpec.coherent (ScanSpec.units [(wE, d)]).
Proof. intros d E i infos E' j nm [<-|[]] _ _ _ _ _. exact w_based. Qed.
Definition mergeable_b (d : database) : bool :=
  forallb (fun e => (zlen (n_text (snd e)) <? 2 ^ 31 - 1) && forallb (fun c => (0 <? c) && (c <? 256)) (n_text (snd e))) (m_names d) &&
  match m_float_attrs d with [] => true | _ => false end && negb (existsb (Z.eqb 0) (keys (m_containers d) ++ keys (m_inherits d))).
Lemma mergeable_b_ok : forall d, mergeable_b d = true -> mergeable d.
Proof.
  intros d H. unfold mergeable_b in H. rewrite !andb_true_iff in H. destruct H as [[H1 H2] H3]. split; [|split].
  - intros k n Hin. rewrite forallb_forall in H1. apply H1 in Hin. cbn [snd] in Hin. apply andb_true_iff in Hin. destruct Hin as [A B]. rewrite forallb_forall in B. split; [|lia].
    unfold c_string. rewrite Forall_forall. intros c Hc. apply B in Hc. unfold is_byte. lia.
  - destruct (m_float_attrs d); [|discriminate H2]. intros x a [].
  - assert (X : ~ In 0 (keys (m_containers d) ++ keys (m_inherits d))).
    { intros X. assert (Y : existsb (Z.eqb 0) (keys (m_containers d) ++ keys (m_inherits d)) = true) by (apply existsb_exists; exists 0; split; [exact X|reflexivity]). rewrite Y in H3. discriminate H3. }
    rewrite in_app_iff in X. split; intros Y; apply X; [left|right]; exact Y.
Qed.
Lemma one_scanned : forall tus d, (exists w, scan 3 w_sf [(wE, tus)] = Ok (d, w)) -> scanned w_sf [[(wE, tus)]] [d].
Proof. intros tus d Hs. constructor; [|constructor]. split; [apply wE_coherent|exists 3%nat; exact Hs]. Qed.
