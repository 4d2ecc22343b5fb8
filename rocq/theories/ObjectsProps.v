(* C28-C32, C54: object groups *)
From Verif Require Import Base BaseProofs ObjectsModel ObjectsSpec ObjectsProofs ObjectsIterProofs.
From Coq Require Import Sorting.Permutation.

(* C28: a group is a finite map, after any legal history *)
Theorem C28_finite_map : forall l, s_all_ok [] l ->
  exists g, g_run group_new l = Ok g /\ forall id, FindObject g id = Ok (lookup (s_run l) id).
Proof. exact history_map. Qed.
Print Assumptions C28_finite_map.
(* the same in terms of the live objects: found iff live *)
Theorem C28_found_iff_live : forall g m o, reachable g m ->
  FindObject g (o_id o) = Ok (Some o) <-> In o m.
Proof.
  intros g m o Hr. destruct (reachable_G _ _ Hr) as [HG _]. rewrite (find_ok g m _ HG).
  assert (Hnd : NoDup (map o_id m)).
  { destruct HG as [k [_ [HC _]]]. apply HC. }
  unfold lookup. split.
  - intros H. injection H as H. apply find_some in H. tauto.
  - intros Hin. f_equal. clear HG Hr. induction m as [|a m IH]; [destruct Hin|]. cbn [map] in Hnd.
    inversion Hnd as [|x l Hni Hnd2]; subst x l. cbn [find]. destruct (Z.eqb_spec (o_id a) (o_id o)) as [E|E].
    + destruct Hin as [->|Hin]; [reflexivity|]. exfalso. apply Hni. apply in_map_iff. exists o. auto.
    + destruct Hin as [->|Hin]; [contradiction|]. auto.
Qed.
Print Assumptions C28_found_iff_live.

(* C29: there is always a never-used slot, and lookups, legal additions and removals end *)
Theorem C29_terminates : forall g m, reachable g m ->
  (exists p o, znth (g_table g) p = Some (0, o)) /\
  (forall id, exists r, FindObject g id = Ok r) /\
  (forall o, s_ok m (GAdd o) -> exists g', AddObject g o = Ok g' /\ reachable g' (o :: m)) /\
  (forall o, In o m -> exists g', RemoveObject g o = Ok g').
Proof.
  intros g m Hr. destruct (reachable_G _ _ Hr) as [HG Hids]. split; [|split; [|split]].
  - eapply empty_slot. exact HG.
  - intros id. rewrite (find_ok g m id HG). eauto.
  - intros [i p c] Hok.
    destruct (create_ok (mk_ctype true true false false) i p c g m) as [g' [H1 H2]]; auto.
    + split; [reflexivity|left; reflexivity].
    + exists g'. split; [|exact H2]. unfold CreateObject in H1. cbn in H1.
      destruct (AddObject g (mk_object i p c)); cbn [obind] in H1; congruence.
  - intros o Hin. destruct (remove_ok g m o HG Hids) as [g' [H1 _]]; [exists o; auto|]. eauto.
Qed.
Print Assumptions C29_terminates.

(* C30: iterating a group yields each live object once and stops *)
Theorem C30_single : forall hp g m fuel, holds hp g m -> (length m < fuel)%nat ->
  exists out, (do it <- iter_new hp g false; drain fuel hp it) = Ok out /\ Permutation out m.
Proof. exact iter_single. Qed.
Print Assumptions C30_single.
Theorem C30_recursive : forall hp g l fuel, objects hp g l -> (length l < fuel)%nat ->
  exists out, (do it <- iter_new hp g true; drain fuel hp it) = Ok out /\ Permutation out l.
Proof. exact iter_recursive. Qed.
Print Assumptions C30_recursive.

(* C31: nearest enclosing group wins *)
Theorem C31_innermost : forall hp g ms, chain hp g ms -> forall fuel id, (length ms < fuel)%nat ->
  FindObjectSearchParents fuel hp g id = Ok (first_found ms id).
Proof. exact search_parents_ok. Qed.
Print Assumptions C31_innermost.

(* C32: paths of one and two ids *)
Theorem C32_one_id : forall hp g id r, path hp g [id] r -> FindObjectRelative hp g [id] 1 = Ok r.
Proof. exact relative_1. Qed.
Print Assumptions C32_one_id.
Theorem C32_two_ids : forall hp g id1 id2 r, path hp g [id1; id2] r -> FindObjectRelative hp g [id1; id2] 2 = Ok r.
Proof. exact relative_2. Qed.
Print Assumptions C32_two_ids.
(* longer paths: every intermediate id is looked up in the receiver, not in the group reached so far *)
Theorem C32_longer_paths : forall hp this m pre last lastg id,
  holds hp this m ->
  Forall (fun id => exists o ch, lookup m id = Some o /\ o_group o = Some ch) pre ->
  (exists o, lookup m last = Some o /\ o_group o = Some lastg) ->
  zlen pre + 2 < 2 ^ 32 -> forall ml, holds hp lastg ml ->
  FindObjectRelative hp this (pre ++ [last; id]) (zlen pre + 2) = Ok (lookup ml id).
Proof. exact relative_flat. Qed.
Print Assumptions C32_longer_paths.

(* a concrete tree: group 0 holds 5 and the group object 7 (group 1); group 1 holds 13, which
   collides with 5, and the group object 9 (group 2); group 2 holds 21 *)
Definition ob (id : Z) := mk_object id (id * 16) None.
Definition og (id g : Z) := mk_object id (id * 16) (Some g).
Definition run0 (l : list gop) : group := match g_run group_new l with Ok g => g | _ => group_new end.
Definition h0 := [GAdd (ob 5); GAdd (ob 13); GAdd (og 7 1); GRemove (ob 13)].
Definition h1 := [GAdd (ob 5); GAdd (ob 13); GRemove (ob 5); GAdd (og 9 2)].
Definition h2 := [GAdd (ob 21)].
Definition tree : heap := [mk_cell (run0 h0) None; mk_cell (run0 h1) (Some 0); mk_cell (run0 h2) (Some 1)].
Lemma r0 : reachable (run0 h0) [og 7 1; ob 5].
Proof.
  exists h0. split; [|split; vm_compute; reflexivity].
  cbn. unfold is_u32. repeat match goal with |- _ /\ _ => split end; try lia; try exact I;
    try (intros o' Ho; repeat destruct Ho as [<-|Ho]; try destruct Ho; cbn; lia); try (vm_compute; reflexivity).
  exists (ob 13). cbn. auto.
Qed.
Lemma r1 : reachable (run0 h1) [og 9 2; ob 13].
Proof.
  exists h1. split; [|split; vm_compute; reflexivity].
  cbn. unfold is_u32. repeat match goal with |- _ /\ _ => split end; try lia; try exact I;
    try (intros o' Ho; repeat destruct Ho as [<-|Ho]; try destruct Ho; cbn; lia); try (vm_compute; reflexivity).
  exists (ob 5). cbn. auto.
Qed.
Lemma r2 : reachable (run0 h2) [ob 21].
Proof.
  exists h2. split; [|split; vm_compute; reflexivity].
  cbn. unfold is_u32. repeat match goal with |- _ /\ _ => split end; try lia; try exact I;
    try (intros o' Ho; repeat destruct Ho as [<-|Ho]; try destruct Ho; cbn; lia); try (vm_compute; reflexivity).
Qed.
Lemma hold0 : holds tree 0 [og 7 1; ob 5]. Proof. eexists. split; [reflexivity|exact r0]. Qed.
Lemma hold1 : holds tree 1 [og 9 2; ob 13]. Proof. eexists. split; [reflexivity|exact r1]. Qed.
Lemma hold2 : holds tree 2 [ob 21]. Proof. eexists. split; [reflexivity|exact r2]. Qed.

(* finding: with three ids the code looks the second one up in the wrong group *)
Theorem C32_three_ids_refuted : exists hp g ids o,
  path hp g ids (Some o) /\ zlen ids = 3 /\ FindObjectRelative hp g ids 3 = Ok None.
Proof.
  exists tree, 0, [7; 9; 21], (ob 21). split; [|split; vm_compute; reflexivity].
  apply (path_step tree 0 _ 7 9 [21] (og 7 1) 1 (Some (ob 21)) hold0); try reflexivity.
  apply (path_step tree 1 _ 9 21 [] (og 9 2) 2 (Some (ob 21)) hold1); try reflexivity.
  exact (path_last tree 2 _ 21 hold2).
Qed.
Print Assumptions C32_three_ids_refuted.
(* finding: zero ids make the count wrap and the read go past the array *)
Theorem C32_no_ids_refuted : FindObjectRelative tree 0 [] 0 = UB.
Proof. vm_compute. reflexivity. Qed.
Print Assumptions C32_no_ids_refuted.

Example C28_witness : s_all_ok [] h0 /\ exists g, g_run group_new h0 = Ok g /\
  FindObject g 5 = Ok (Some (ob 5)) /\ FindObject g 13 = Ok None /\ FindObject g 7 = Ok (Some (og 7 1)).
Proof.
  split; [|exists (run0 h0); vm_compute; auto].
  cbn. unfold is_u32. repeat match goal with |- _ /\ _ => split end; try lia; try exact I;
    try (intros o' Ho; repeat destruct Ho as [<-|Ho]; try destruct Ho; cbn; lia); try (vm_compute; reflexivity).
  exists (ob 13). cbn. auto.
Qed.
Example C29_witness : reachable (run0 h1) [og 9 2; ob 13]. Proof. exact r1. Qed.
Example C30_witness : objects tree 0 ([og 7 1; ob 5] ++ ([og 9 2; ob 13] ++ ([ob 21] ++ []) ++ []) ++ []) /\
  (do it <- iter_new tree 0 true; drain 6 tree it) = Ok [ob 5; og 7 1; og 9 2; ob 13; ob 21].
Proof.
  split; [|vm_compute; reflexivity]. apply objects_intro; [exact hold0|].
  apply (nested_group tree (og 7 1) [ob 5] 1); [reflexivity| |apply nested_leaf; [reflexivity|apply nested_nil]].
  apply objects_intro; [exact hold1|].
  apply (nested_group tree (og 9 2) [ob 13] 2); [reflexivity| |apply nested_leaf; [reflexivity|apply nested_nil]].
  apply objects_intro; [exact hold2|]. apply nested_leaf; [reflexivity|apply nested_nil].
Qed.
Example C31_witness : chain tree (Some 2) [[ob 21]; [og 9 2; ob 13]; [og 7 1; ob 5]] /\
  FindObjectSearchParents 4 tree (Some 2) 5 = Ok (Some (ob 5)).
Proof.
  split; [|vm_compute; reflexivity].
  eapply chain_cons; [reflexivity|exact r2|]. eapply chain_cons; [reflexivity|exact r1|].
  eapply chain_cons; [reflexivity|exact r0|]. apply chain_nil.
Qed.
Example C32_witness : path tree 0 [7; 13] (Some (ob 13)).
Proof.
  apply (path_step tree 0 _ 7 13 [] (og 7 1) 1 (Some (ob 13)) hold0); try reflexivity. exact (path_last tree 1 _ 13 hold1).
Qed.

(* C54: creating makes the object findable, destroying it restores every lookup *)
Theorem C54_create_destroy : forall t id ptr ch g m, creatable t -> reachable g m ->
  s_ok m (GAdd (mk_object id ptr ch)) ->
  exists g1 g2, CreateObject (Some t) id ptr ch (Some g) = Ok (Some (mk_object id ptr ch), Some g1) /\
    FindObject g1 id = Ok (Some (mk_object id ptr ch)) /\
    DestroyObject t (mk_object id ptr ch) (Some g1) = Ok (Some g2) /\
    (forall id', FindObject g2 id' = FindObject g id').
Proof. exact create_destroy. Qed.
Print Assumptions C54_create_destroy.
Theorem C54_refused : forall ty id ptr ch g, (match ty with None => True | Some t => ~ creatable t end) ->
  CreateObject ty id ptr ch g = Ok (None, g).
Proof. exact create_refused. Qed.
Print Assumptions C54_refused.
Theorem C54_zero_id_traps : forall t ptr ch g, creatable t -> CreateObject (Some t) 0 ptr ch (Some g) = Trap.
Proof.
  intros [c og1 ct dt] ptr ch g [H1 H2]. cbn in H1, H2. subst c. unfold CreateObject. cbn.
  destruct H2 as [->|[-> ->]]; [reflexivity|destruct og1; reflexivity].
Qed.
Print Assumptions C54_zero_id_traps.
Example C54_witness : creatable (mk_ctype true false true true) /\ reachable (run0 h0) [og 7 1; ob 5] /\
  s_ok [og 7 1; ob 5] (GAdd (mk_object 21 4 None)).
Proof.
  split; [split; cbn; auto|]. split; [exact r0|]. cbn. unfold is_u32. repeat match goal with |- _ /\ _ => split end; try lia; try (vm_compute; reflexivity).
  intros o' Ho; repeat destruct Ho as [<-|Ho]; try destruct Ho; cbn; lia.
Qed.
