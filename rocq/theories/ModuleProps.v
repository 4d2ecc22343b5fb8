(* C100: Module objects over their life. *)
From Verif Require Import Base BaseProofs Text Maps ModuleModel ModuleSpec ModuleProofs.

Lemma start_balanced : forall refs0, balanced refs0 (fun _ => 0) (fun _ => 0%nat) (mk_system refs0 []).
Proof. intros refs0. split; [constructor|]. split; [reflexivity|]. intros h N. cbn. lia. Qed.

(* at every point of every history, the references to a library are those there were, one for each module that holds it, and those lost
   by loading a module again *)
Theorem C100_references : forall exported answer refs0 cs s answers, mrun exported answer (mk_system refs0 []) cs = Ok (s, answers) ->
  forall h, h <> 0 -> s_refs s h = (refs0 h + holders h (s_modules s) + lost h (fun _ => 0%Z) cs)%nat.
Proof.
  intros exported answer refs0 cs s rs H h N. destruct (run_balanced exported answer cs refs0 _ _ _ s rs (start_balanced refs0) H) as (_ & _ & R). rewrite R by exact N. reflexivity.
Qed.
Print Assumptions C100_references.
(* so that nothing stays open once all modules are destroyed, if no module that held a library was loaded again *)
Theorem C100_no_leak : forall exported answer refs0 cs s answers, mrun exported answer (mk_system refs0 []) cs = Ok (s, answers) -> s_modules s = [] ->
  (forall h, h <> 0 -> lost h (fun _ => 0) cs = 0%nat) -> forall h, h <> 0 -> s_refs s h = refs0 h.
Proof.
  intros exported answer refs0 cs s rs H E L h N. rewrite (C100_references _ _ _ _ _ _ H h N), (L h N), E. cbn. lia.
Qed.
Print Assumptions C100_no_leak.
(* no program that uses modules only while they exist closes a library too often: calls end, or stop at an assert *)
Theorem C100_defined : forall exported answer refs0 cs, orderly (fun _ => false) cs ->
  (exists s answers, mrun exported answer (mk_system refs0 []) cs = Ok (s, answers)) \/ mrun exported answer (mk_system refs0 []) cs = Trap.
Proof.
  intros exported answer refs0 cs O. apply (run_defined exported answer cs refs0 _ _ _ (fun _ => false) (start_balanced refs0)); [|exact O]. intros k. cbn. split; [discriminate|congruence].
Qed.
Print Assumptions C100_defined.
(* the asserts: functions of a module that holds no library, and a library that loads for no host *)
Theorem C100_asserts : forall exported answer refs0 cs s answers c, mrun exported answer (mk_system refs0 []) cs = Ok (s, answers) ->
  match c with NewModule this => m_find this (s_modules s) = None | LoadModule this _ _ | GetFunction this _ | GetReflectionDB this | DeleteModule this => m_find this (s_modules s) <> None end ->
  (mstep exported answer s c = Trap <-> match c with LoadModule _ host handle => host = 0 /\ handle <> 0 | GetFunction this _ => fold_left held_after cs (fun _ => 0) this = 0 | _ => False end).
Proof.
  intros exported answer refs0 cs s rs c H P. pose proof (run_balanced exported answer cs refs0 _ _ _ s rs (start_balanced refs0) H) as B. destruct (step_defined exported answer _ _ _ _ c B P) as [(s' & a & E & _)|[E X]]; [|tauto].
  split; [rewrite E; discriminate|]. intros X. exfalso. destruct B as (_ & K & _). destruct c as [t|t host h|t name|t|t]; try exact X; cbn [mstep] in E; specialize (K t); destruct (m_find t (s_modules s)) as [m|] eqn:F; try congruence.
  - destruct X as [-> NH]. unfold load_module in E. rewrite (proj2 (Z.eqb_neq _ _) NH) in E. discriminate E.
  - unfold get_function in E. rewrite <- K, X in E. discriminate E.
Qed.
Print Assumptions C100_asserts.
(* a Load that succeeds answers true; until the module is loaded again or destroyed, whatever happens to others, its functions are those
   of the library, its database is the one the library gives, and the library stays open *)
Theorem C100_loaded : forall exported answer refs0 cs s answers this host handle, mrun exported answer (mk_system refs0 []) cs = Ok (s, answers) ->
  m_find this (s_modules s) <> None -> host <> 0 -> handle <> 0 ->
  exists s1, mstep exported answer s (LoadModule this host handle) = Ok (s1, 1) /\
    forall later s2 answers2, Forall (leaves this) later -> mrun exported answer s1 later = Ok (s2, answers2) ->
      (forall name, mstep exported answer s2 (GetFunction this name) = Ok (s2, exported handle name)) /\
      (exported handle (str "GetReflectionDatabase") <> 0 -> mstep exported answer s2 (GetReflectionDB this) = Ok (s2, answer (exported handle (str "GetReflectionDatabase")))) /\
      (0 < s_refs s2 handle)%nat.
Proof.
  intros exported answer refs0 cs s rs this host h H F NH Nh. pose proof (run_balanced exported answer cs refs0 _ _ _ s rs (start_balanced refs0) H) as B. cbn [mstep]. destruct (m_find this (s_modules s)) as [m|] eqn:E; [|congruence].
  set (f := exported h (str "GetReflectionDatabase")). set (m1 := if f =? 0 then mk_module h host (m_db m) else mk_module h host (answer f)).
  assert (L : load_module exported answer m host h = Ok (m1, 1)).
  { unfold load_module. rewrite (proj2 (Z.eqb_neq _ _) Nh), (proj2 (Z.eqb_neq _ _) NH). cbn [negb assert obind]. unfold get_function. cbn [m_handle]. rewrite (proj2 (Z.eqb_neq _ _) Nh). reflexivity. }
  rewrite L. cbn [obind fst snd]. eexists. split; [reflexivity|]. intros later s2 rs2 LV R2.
  set (s1 := mk_system _ _) in R2. assert (S1 : mstep exported answer s (LoadModule this host h) = Ok (s1, 1)) by (cbn [mstep]; rewrite E, L; reflexivity).
  assert (M1 : m_handle m1 = h) by (unfold m1; destruct (f =? 0); reflexivity).
  assert (F2 : m_find this (s_modules s2) = Some m1) by (apply (run_frame exported answer later s1 s2 rs2 this m1 R2 LV); unfold s1; cbn [s_modules]; apply find_same; congruence).
  pose proof (run_balanced exported answer later _ _ _ _ _ _ (step_balanced exported answer _ _ _ _ _ _ _ B S1) R2) as (_ & _ & R). cbn [mstep]. rewrite F2. split; [|split].
  - intros name. unfold get_function. rewrite M1, (proj2 (Z.eqb_neq _ _) Nh). reflexivity.
  - intros Nf. unfold m1. rewrite (proj2 (Z.eqb_neq _ _) Nf). reflexivity.
  - rewrite R by exact Nh. pose proof (holder_some _ _ _ _ F2 M1). lia.
Qed.
Print Assumptions C100_loaded.
(* a Load that fails answers false and leaves a module that holds nothing *)
Theorem C100_failed : forall exported answer s this host, m_find this (s_modules s) <> None ->
  exists s1, mstep exported answer s (LoadModule this host 0) = Ok (s1, 0) /\ s_refs s1 = s_refs s /\ (forall name, mstep exported answer s1 (GetFunction this name) = Trap) /\
    forall k, k <> this -> m_find k (s_modules s1) = m_find k (s_modules s).
Proof.
  intros exported answer s this host F. cbn [mstep]. destruct (m_find this (s_modules s)) as [m|] eqn:E; [|congruence]. cbn [load_module Z.eqb obind fst snd]. eexists. split; [reflexivity|]. split; [reflexivity|]. split.
  - intros name. cbn [mstep s_modules]. rewrite find_same by congruence. reflexivity.
  - intros k N. cbn [s_modules]. apply find_other. exact N.
Qed.
Print Assumptions C100_failed.

(* ---- two modules, of which one is loaded twice ---- *)
Definition wit_exported (h : Z) (name : list Z) : Z := if h =? 7 then (if list_eqb name (str "GetReflectionDatabase") then 70 else 71) else 0.
Definition wit_answer (f : Z) : Z := if f =? 70 then 700 else 0.
Definition wit_history : list mcall := [NewModule 1; NewModule 2; LoadModule 1 9 7; LoadModule 2 9 7; GetReflectionDB 1; DeleteModule 1; GetFunction 2 (str "f"); DeleteModule 2].
Example C100_witness : orderly (fun _ => false) wit_history /\ (forall h, h <> 0 -> lost h (fun _ => 0) wit_history = 0%nat) /\
  exists s, mrun wit_exported wit_answer (mk_system (fun _ => 0%nat) []) wit_history = Ok (s, [0; 0; 1; 1; 700; 0; 71; 0]) /\ s_modules s = [] /\ s_refs s 7 = 0%nat.
Proof.
  split; [vm_compute; intuition|]. split; [|eexists; split; [vm_compute; reflexivity|split; reflexivity]].
  intros h N. destruct h; [congruence|reflexivity|reflexivity].
Qed.
(* Finding: a module that is loaded again drops its library without closing it; if the new library cannot be loaded the module has none,
   and if the new one gives no database the module still gives that of the old one *)
Theorem C100_reload_refuted :
  (exists s, mrun wit_exported wit_answer (mk_system (fun _ => 0%nat) []) [NewModule 1; LoadModule 1 9 7; LoadModule 1 9 8; GetReflectionDB 1; DeleteModule 1] = Ok (s, [0; 1; 1; 700; 0]) /\ s_refs s 7 = 1%nat /\ s_refs s 8 = 0%nat) /\
  (exists s, mrun wit_exported wit_answer (mk_system (fun _ => 0%nat) []) [NewModule 1; LoadModule 1 9 7; LoadModule 1 9 0; DeleteModule 1] = Ok (s, [0; 1; 0; 0]) /\ s_refs s 7 = 1%nat) /\
  mrun wit_exported wit_answer (mk_system (fun _ => 0%nat) []) [NewModule 1; LoadModule 1 9 7; LoadModule 1 9 0; GetFunction 1 (str "f")] = Trap.
Proof. split; [eexists; split; [vm_compute; reflexivity|split; reflexivity]|]. split; [eexists; split; [vm_compute; reflexivity|reflexivity]|vm_compute; reflexivity]. Qed.
Print Assumptions C100_reload_refuted.
