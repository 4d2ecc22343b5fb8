(* Property theorems about Database objects over their life: C98. *)
From Coq Require Import String Permutation.
From Verif Require Import Base BaseProofs Maps DatabaseModel ExportModel ExportSpec ExportWitness ExportProps MmapModel MmapSpec MmapProofs ImageModel LaidModel LaidSpec LaidWitness LaidMemProps.
From Verif Require Import QueryModel QuerySpec QueryLoadProps QueryFindProps LifeModel LifeSpec LifeProofs.
#[local] Open Scope Z_scope.
#[local] Open Scope list_scope.

(* at every point of every history, the blocks of an allocator that are live are those it started with, one for each loaded Database
   that used it, and those failed loads left *)
Theorem C98_blocks : forall addr w0 cs answers w, history addr w0 cs answers w -> forall a,
  NoDup (w_live w a) /\ exists lost, Permutation (w_live w a) (w_live w0 a ++ blocks a (w_objects w) ++ lost).
Proof.
  intros addr w0 cs rs w H a. destruct (history_holds _ _ _ _ _ H) as (lost & (_ & G & P) & _). split; [exact (proj1 (G a))|]. exists (lost a). apply P.
Qed.
Print Assumptions C98_blocks.
(* nothing else stays when every failed Load was turned down by the header; once all objects are destroyed, nothing at all *)
Theorem C98_no_leak : forall addr w0 cs answers w, history addr w0 cs answers w -> Forall2 not_cut cs answers -> forall a,
  Permutation (w_live w a) (w_live w0 a ++ blocks a (w_objects w)) /\ (w_objects w = [] -> Permutation (w_live w a) (w_live w0 a)).
Proof.
  intros addr w0 cs rs w H C a. destruct (history_holds _ _ _ _ _ H) as (lost & (_ & G & P) & E). specialize (P a). rewrite (E C a), app_nil_r in P. split; [exact P|]. intros N. rewrite P, N. cbn [blocks flat_map]. rewrite app_nil_r. reflexivity.
Qed.
Print Assumptions C98_no_leak.
(* any object can be destroyed at any time: its block is live in the allocator that gave it, and only that one is given back *)
Theorem C98_destroy : forall addr w0 cs answers w this o, history addr w0 cs answers w -> In (this, o) (w_objects w) ->
  exists w', step addr w (Destruct this) = Ok (w', true) /\ ~ In this (map fst (w_objects w')) /\ forall a, Permutation (w_live w a) (block_of a o ++ w_live w' a).
Proof.
  intros addr w0 cs rs w this o H I. destruct (history_holds _ _ _ _ _ H) as (lost & (U & G & P) & _). pose proof (find_in _ _ _ U I) as F. cbn [step]. rewrite F. unfold DestructObject.
  assert (D : ~ In this (map fst (filter (fun x => negb (fst x =? this)) (w_objects w)))).
  { intros J. apply in_map_iff in J. destruct J as ([k v] & E & J). cbn [fst] in E. subst k. apply filter_In in J. cbn [fst] in J. rewrite Z.eqb_refl in J. destruct J as [_ J]. discriminate J. }
  destruct (o_mem o) as [[b m]|] eqn:N.
  - assert (J : In b (w_live w (o_alloc o))).
    { apply (Permutation_in b (Permutation_sym (P (o_alloc o)))). apply in_or_app. right. apply in_or_app. left. apply (Permutation_in b (Permutation_sym (remove_blocks _ _ _ _ U F))). apply in_or_app. left. unfold block_of. rewrite N, Z.eqb_refl. left. reflexivity. }
    destruct (free_live (env_of w (o_alloc o) []) b (G _) J) as (e & FR & _ & PE). rewrite FR. cbn [obind]. eexists. split; [reflexivity|]. split; [exact D|]. intros a. cbn [with_env w_live]. destruct (Z.eq_dec a (o_alloc o)) as [->|NE].
    + rewrite set_same. unfold block_of. rewrite N, Z.eqb_refl. exact PE.
    + rewrite set_other by exact NE. rewrite (block_other a) by congruence. reflexivity.
  - cbn [obind]. eexists. split; [reflexivity|]. split; [exact D|]. intros a. cbn [w_live]. unfold block_of. rewrite N. reflexivity.
Qed.
Print Assumptions C98_destroy.
(* Load on a loaded object stops at an assert, whatever the file *)
Theorem C98_load_once : forall addr w0 cs answers w this o a file to options, history addr w0 cs answers w -> In (this, o) (w_objects w) -> o_mem o <> None ->
  step addr w (Load this a file to options) = Trap.
Proof.
  intros addr w0 cs rs w this o a file to options H I N. destruct (history_holds _ _ _ _ _ H) as (lost & (U & _) & _). cbn [step]. rewrite (find_in _ _ _ U I). unfold LoadObject. destruct (o_mem o); [reflexivity|congruence].
Qed.
Print Assumptions C98_load_once.
(* Load of a file that is not one, or is cut short, answers false and the object can be loaded again *)
Theorem C98_failed_load : forall addr w0 cs answers w this o a file to options, history addr w0 cs answers w -> In (this, o) (w_objects w) -> o_mem o = None -> Forall is_byte file ->
  zlen file < 32 \/ firstn 12 file <> magic \/ zlen file < full_length file ->
  exists w', step addr w (Load this a file to options) = Ok (w', false) /\ In (this, mk_object None a) (w_objects w') /\
    (forall k x, k <> this -> In (k, x) (w_objects w') <-> In (k, x) (w_objects w)) /\
    (forall b, b <> a -> w_live w' b = w_live w b) /\ w_live w' a = w_live w a ++ leaked (w_next w a) file.
Proof.
  intros addr w0 cs rs w this o a file to options H I N B C. destruct (history_holds _ _ _ _ _ H) as (lost & (U & G & _) & _). pose proof (find_in _ _ _ U I) as F. cbn [step]. rewrite F. unfold LoadObject. rewrite N. cbn [assert obind].
  assert (X : exists e, LoadMemoryMappedDatabase (addr a) (env_of w a file) = Ok (None, e)).
  { destruct (load_any (addr a) (env_of w a file) B (proj2 (G a))) as [[_ [f' X]]|[[_ [_ [f' [n X]]]]|[X1 [X2 [X3 _]]]]]; [eexists; exact X|eexists; exact X|]. exfalso. cbn [env_of e_file] in *. destruct C as [C|[C|C]]; [lia|contradiction|lia]. }
  destruct X as (e & X). rewrite X. cbn [obind]. eexists. split; [reflexivity|]. cbn [with_env w_objects w_live]. pose proof (load_live (addr a) (env_of w a file) _ _ B (G a) X) as LV. cbn beta iota in LV.
  split; [apply m_find_In; exact (find_update_same _ _ _ _ F)|]. split; [|split].
  - assert (U' : unique (m_update this (mk_object None a) (w_objects w))) by (unfold unique; rewrite update_fst; exact U). intros k x K. split; intros J; apply m_find_In.
    + rewrite <- (find_update_other _ _ this (mk_object None a)) by congruence. exact (find_in _ _ _ U' J).
    + rewrite find_update_other by congruence. exact (find_in _ _ _ U J).
  - intros b NE. apply set_other. exact NE.
  - rewrite set_same. exact LV.
Qed.
Print Assumptions C98_failed_load.
(* what is proved of loaded memory (C95 to C97) holds of any object, loaded at any point of any history, until it is destroyed *)
Theorem C98_loaded_lives : forall L fuel db P, reaches_loaded L fuel db P -> lives_loaded L fuel db P.
Proof. exact loaded_lives. Qed.
Print Assumptions C98_loaded_lives.
(* the look-ups of C96 for instance *)
Theorem C98_look_ups : forall L fuel db, exportable L fuel db -> attributes_owned db -> lives_loaded L fuel db (fun fb base this to options before mem => forall h,
  finds db base mem (type_places db) h (GetType base mem h) /\
  finds db base mem (places db KNamespace) h (GetNamespace base mem h) /\
  finds db base mem (places db KTemplate) h (GetTemplate base mem h) /\
  finds db base mem (places db KFunction) h (GetFunction base mem h) /\
  finds_all db (places db KFunction) h (GetOverloadedFunction base mem h)).
Proof. intros L fuel db X A. apply loaded_lives. exact (C96_primitives L fuel db X A). Qed.
Print Assumptions C98_look_ups.

(* a history of two objects and two allocators with blocks already live: a foreign file is turned down, both objects are loaded with
   the file of the sample database, the first from another allocator than it was first given, one is destroyed; a file cut short then
   leaves its blocks *)
Definition sample_file : list Z :=
  match BuildCppExport lay 10 sample with
  | Ok e => match SaveCppExport 4096 (image e (heap_for e) 170 1000 4096) (fun _ => ([1; 2; 3; 4], [5; 6; 7; 8])) with Ok file => file | _ => [] end
  | _ => []
  end.
Definition begun : world := mk_world (fun a => 5 * a) (fun a => if a =? 1 then [3; 4] else if a =? 2 then [7] else []) [].
Definition at_block (a b : Z) : Z := 2 ^ 40 * a + 2 ^ 30 * b.
Definition story : list call := [Construct 100; Construct 200; Load 100 1 (repeat 7 40) 0 0; Load 200 2 sample_file 5000 0; Load 100 2 sample_file 5000 1; Destruct 200].
Example C98_witness :
  match run at_block begun story, run at_block begun (story ++ [Construct 300; Load 300 1 (removelast sample_file) 0 0; Destruct 300; Destruct 100]) with
  | Ok (w, answers), Ok (w', answers') =>
      history at_block begun story answers w /\ answers = [true; true; false; true; true; true] /\ Forall2 not_cut story answers /\
      map (fun x => (fst x, o_alloc (snd x), match o_mem (snd x) with Some (b, m) => Some b | None => None end)) (w_objects w) = [(100, 2, Some 14)] /\
      w_live w 1 = [3; 4] /\ w_live w 2 = [7; 14] /\
      w_objects w' = [] /\ answers' = [true; true; false; true; true; true; true; false; true; true] /\ w_live w' 1 = [3; 4; 5; 6; 7] /\ w_live w' 2 = [7]
  | _, _ => False
  end.
Proof.
  destruct (run at_block begun story) as [[w answers]| | |] eqn:R.
  2-4: exfalso; revert R; vm_compute; discriminate.
  assert (S : match run at_block begun story with Ok (w, answers) => answers = [true; true; false; true; true; true] /\
      map (fun x => (fst x, o_alloc (snd x), match o_mem (snd x) with Some (b, m) => Some b | None => None end)) (w_objects w) = [(100, 2, Some 14)] /\ w_live w 1 = [3; 4] /\ w_live w 2 = [7; 14] | _ => False end)
    by (vm_compute; repeat split).
  rewrite R in S. destruct S as (-> & S2 & S3 & S4).
  assert (T : match run at_block begun (story ++ [Construct 300; Load 300 1 (removelast sample_file) 0 0; Destruct 300; Destruct 100]) with Ok (w', answers') =>
      w_objects w' = [] /\ answers' = [true; true; false; true; true; true; true; false; true; true] /\ w_live w' 1 = [3; 4; 5; 6; 7] /\ w_live w' 2 = [7] | _ => False end)
    by (vm_compute; repeat split).
  destruct (run at_block begun (story ++ _)) as [[w' answers']| | |]; try contradiction.
  assert (B : forallb (fun c => match c with Load _ _ f _ _ => forallb (fun b => (0 <=? b) && (b <? 256)) f | _ => true end) story = true) by (vm_compute; reflexivity).
  split; [split; [|split; [|exact R]]|split; [reflexivity|split; [|tauto]]].
  - split; [reflexivity|]. intros a. unfold begun. cbn [w_live w_next]. destruct (Z.eqb_spec a 1) as [->|]; [|destruct (Z.eqb_spec a 2) as [->|]; [|split; constructor]].
    + split; [|repeat constructor]. constructor; [intros [E|[]]; discriminate E|]. constructor; [intros []|constructor].
    + split; [|repeat constructor]. constructor; [intros []|constructor].
  - apply Forall_forall. intros c I. rewrite forallb_forall in B. apply B in I. destruct c as [|x a f to o|]; try exact Logic.I. apply Forall_forall. intros b J. rewrite forallb_forall in I. apply I in J. unfold is_byte. lia.
  - unfold story. do 2 (apply Forall2_cons; [exact Logic.I|]). apply Forall2_cons; [right; right; discriminate|]. do 2 (apply Forall2_cons; [left; reflexivity|]). apply Forall2_cons; [exact Logic.I|]. apply Forall2_nil.
Qed.
