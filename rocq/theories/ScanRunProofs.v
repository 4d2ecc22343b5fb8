From Verif Require Import Base BaseProofs Text HashModel Maps FileUtilsModel FileUtilsSpec FileUtilsProofs DatabaseModel AttrModel ScanModel ScanSpec ScanTypeProofs ScanParseProofs ScanAttrProofs ScanWalkProofs.
Local Open Scope string_scope.
Local Open Scope list_scope.
Local Open Scope Z_scope.

(* ---- requests ---- *)
Lemma split_dash_cases : forall s acc, exists x xs, split_dash acc s = x :: xs /\
  ((xs = [] /\ x = rev acc ++ s /\ ~ In 45 s) \/ (exists u v, s = u ++ 45 :: v /\ ~ In 45 u /\ x = rev acc ++ u /\ xs = split_dash [] v)).
Proof.
  induction s as [|c s IH]; intros acc; cbn [split_dash].
  - exists (rev acc), []. split; [reflexivity|]. left. rewrite app_nil_r. auto.
  - destruct (Z.eqb_spec c 45) as [->|Hc].
    + exists (rev acc), (split_dash [] s). split; [reflexivity|]. right. exists [], s. rewrite app_nil_r. auto.
    + destruct (IH (c :: acc)) as [x [xs [H1 H2]]]. exists x, xs. split; [exact H1|]. cbn [rev] in H2. rewrite <- app_assoc in H2. destruct H2 as [[H2 [H3 H4]]|[u [v [H2 [H3 [H4 H5]]]]]].
      * left. split; [exact H2|]. split; [exact H3|]. intros [H|H]; [congruence|contradiction].
      * right. exists (c :: u), v. split; [rewrite H2; reflexivity|]. split; [intros [H|H]; [congruence|contradiction]|]. split; [rewrite H4, <- app_assoc; reflexivity|exact H5].
Qed.
Lemma split_dash_app : forall u v acc, ~ In 45 u -> split_dash acc (u ++ 45 :: v) = (rev acc ++ u) :: split_dash [] v.
Proof.
  induction u as [|c u IH]; intros v acc H; cbn [app split_dash].
  - rewrite app_nil_r. reflexivity.
  - destruct (Z.eqb_spec c 45) as [->|Hc]; [exfalso; apply H; left; reflexivity|]. rewrite IH by (intros H0; apply H; right; exact H0).
    cbn [rev]. rewrite <- app_assoc. reflexivity.
Qed.
Lemma split_dash_end : forall u acc, ~ In 45 u -> split_dash acc u = [rev acc ++ u].
Proof.
  induction u as [|c u IH]; intros acc H; cbn [split_dash]; [rewrite app_nil_r; reflexivity|].
  destruct (Z.eqb_spec c 45) as [->|Hc]; [exfalso; apply H; left; reflexivity|]. rewrite IH by (intros H0; apply H; right; exact H0).
  cbn [rev]. rewrite <- app_assoc. reflexivity.
Qed.
Lemma split_dash_ne : forall s acc, split_dash acc s <> [].
Proof. intros s acc. destruct (split_dash_cases s acc) as [x [xs [H _]]]. rewrite H. discriminate. Qed.
Definition decode (a : list Z) : option (list Z * (list Z * list Z * bool)) :=
  if is_prefix (str "container-") a then
    match split_dash [] a with
    | [_; nm; rd; wr; key] =>
        if list_eqb key (str "haskey") then Some (nm, (rd, wr, true))
        else if list_eqb key (str "nokey") then Some (nm, (rd, wr, false))
        else None
    | _ => None
    end
  else None.
Lemma decode_spec : forall a c, container_request a c <-> decode a = Some c.
Proof.
  intros a [nm [[rd wr] key]]. unfold container_request. split.
  - intros [-> [H1 [H2 H3]]]. unfold decode. rewrite is_prefix_app.
    change (str "container-" ++ nm ++ str "-" ++ rd ++ str "-" ++ wr ++ str "-" ++ (if key then str "haskey" else str "nokey"))
      with (str "container" ++ 45 :: (nm ++ 45 :: (rd ++ 45 :: (wr ++ 45 :: (if key then str "haskey" else str "nokey"))))).
    rewrite !split_dash_app; try assumption; [|cbn; intuition discriminate]. rewrite split_dash_end; [|destruct key; cbn; intuition discriminate].
    cbn [rev app]. destruct key; reflexivity.
  - intros H. unfold decode in H. destruct (is_prefix (str "container-") a) eqn:Ep; [|discriminate H].
    apply is_prefix_spec in Ep. destruct Ep as [r0 ->].
    change (str "container-" ++ r0) with (str "container" ++ 45 :: r0) in *.
    rewrite split_dash_app in H by (cbn; intuition discriminate).
    destruct (split_dash_cases r0 []) as [x1 [xs1 [E1 D1]]]. rewrite E1 in H.
    destruct D1 as [[D1 _]|[u1 [v1 [-> [N1 [-> ->]]]]]]; [rewrite D1 in H; discriminate H|]. cbn [rev app] in *.
    destruct (split_dash_cases v1 []) as [x2 [xs2 [E2 D2]]]. rewrite E2 in H.
    destruct D2 as [[D2 _]|[u2 [v2 [-> [N2 [-> ->]]]]]]; [rewrite D2 in H; discriminate H|]. cbn [rev app] in *.
    destruct (split_dash_cases v2 []) as [x3 [xs3 [E3 D3]]]. rewrite E3 in H.
    destruct D3 as [[D3 _]|[u3 [v3 [-> [N3 [-> ->]]]]]]; [rewrite D3 in H; discriminate H|]. cbn [rev app] in *.
    destruct (split_dash_cases v3 []) as [x4 [xs4 [E4 D4]]]. rewrite E4 in H.
    destruct D4 as [[-> [-> N4]]|[u4 [v4 [-> [N4 [-> ->]]]]]].
    2:{ exfalso. destruct (split_dash [] v4) eqn:E5; [exact (split_dash_ne _ _ E5)|discriminate H]. }
    cbn [rev app] in H. destruct (list_eqb v3 (str "haskey")) eqn:K1; [|destruct (list_eqb v3 (str "nokey")) eqn:K2; [|discriminate H]].
    + apply list_eqb_eq in K1. assert (nm = u1 /\ rd = u2 /\ wr = u3 /\ key = true) as [-> [-> [-> ->]]] by (repeat split; congruence).
      rewrite K1. repeat split; assumption.
    + apply list_eqb_eq in K2. assert (nm = u1 /\ rd = u2 /\ wr = u3 /\ key = false) as [-> [-> [-> ->]]] by (repeat split; congruence).
      rewrite K2. repeat split; assumption.
Qed.
Lemma list_eqb_refl : forall l, list_eqb l l = true.
Proof. intros l. apply list_eqb_eq. reflexivity. Qed.
Lemma list_eqb_neq : forall a b, list_eqb a b = false -> a <> b.
Proof. intros a b H E. subst. rewrite list_eqb_refl in H. discriminate H. Qed.
Lemma t_find_set : forall T k (v : T) m k', t_find k' (t_set k v m) = if list_eqb k k' then Some v else t_find k' m.
Proof.
  induction m as [|[a w] m IH]; intros k'; cbn [t_set t_find]; [reflexivity|]. destruct (list_eqb a k) eqn:E; cbn [t_find].
  - apply list_eqb_eq in E. subst a. destruct (list_eqb k k'); reflexivity.
  - rewrite IH. destruct (list_eqb a k') eqn:E2; [|reflexivity]. apply list_eqb_eq in E2. subst k'.
    destruct (list_eqb k a) eqn:E3; [|reflexivity]. apply list_eqb_eq in E3. subst. rewrite list_eqb_refl in E. discriminate E.
Qed.
Lemma t_set_In : forall T k (v : T) m, NoDup (map fst m) -> NoDup (map fst (t_set k v m)) /\
  forall k' v', In (k', v') (t_set k v m) <-> (k' = k /\ v' = v) \/ (k' <> k /\ In (k', v') m).
Proof.
  intros T k v. assert (K : forall m k' v', In (k', v') (t_set k v m) -> k' = k \/ In (k', v') m).
  { induction m as [|[a w] m IH]; intros k' v' H; cbn [t_set] in H; [destruct H as [H|[]]; left; congruence|].
    destruct (list_eqb a k); (destruct H as [H|H]; [|try (right; right; exact H)]).
    - left. congruence.
    - right. left. exact H.
    - destruct (IH _ _ H); [auto|right; right; assumption]. }
  induction m as [|[a w] m IH]; intros Hd; cbn [t_set map fst] in *.
  - split; [constructor; [intros []|constructor]|]. intros k' v'. cbn. split; [intros [H|[]]; left; split; congruence|].
    intros [[-> ->]|[_ []]]. auto.
  - inversion Hd as [|x l Hx Hd']; subst. destruct (IH Hd') as [I1 I2]. destruct (list_eqb a k) eqn:E.
    + apply list_eqb_eq in E. subst a. cbn [map fst]. split; [exact Hd|]. intros k' v'. cbn [In]. split.
      * intros [H|H]; [left; split; congruence|]. right. split; [|right; exact H]. intros ->. apply Hx. apply in_map_iff. exists (k, v'). auto.
      * intros [[-> ->]|[H1 [H2|H2]]]; [auto|congruence|auto].
    + apply list_eqb_neq in E. cbn [map fst]. split.
      * constructor; [|exact I1]. intros H. apply in_map_iff in H. destruct H as [[k' v'] [H1 H2]]. cbn in H1. subst k'.
        apply K in H2. destruct H2 as [H2|H2]; [congruence|]. apply Hx. apply in_map_iff. exists (a, v'). auto.
      * intros k' v'. cbn [In]. rewrite I2. split; [intros [H|[H|[H H']]]; [right; split; [congruence|auto]|auto|auto]|].
        intros [H|[H1 [H2|H2]]]; auto.
Qed.
Definition spec_inv (asked : list (list Z)) (sp : specs) : Prop :=
  gathered asked sp /\ containers_of asked (rs_containers sp) /\ forall nm, t_find nm (rs_types sp) <> Some RST_None.
Lemma spec_mark_snoc : forall asked a nm, spec_mark (asked ++ [a]) nm = match spec_mark asked nm with Unmarked => spec_mark [a] nm | m => m end.
Proof.
  induction asked as [|b asked IH]; intros a nm; cbn [app spec_mark]; [reflexivity|].
  destruct (list_eqb b (str "full-" ++ nm)); [reflexivity|]. destruct (list_eqb b (str "part-" ++ nm)); [reflexivity|apply IH].
Qed.
Lemma gathered_step : forall asked sp a, gathered asked sp -> (forall nm, t_find nm (rs_types sp) <> Some RST_None) ->
  gathered (asked ++ [a]) (gather_spec a sp) /\ forall nm, t_find nm (rs_types (gather_spec a sp)) <> Some RST_None.
Proof.
  intros asked sp a Hg Hn.
  assert (K : forall nm0 m, (m = Full \/ m = Part) -> (forall nm, spec_mark [a] nm = if list_eqb nm0 nm then m else Unmarked) ->
    gathered (asked ++ [a]) (AddReflectionSpec nm0 (type_of m) sp) /\ forall nm, t_find nm (rs_types (AddReflectionSpec nm0 (type_of m) sp)) <> Some RST_None).
  { intros nm0 m Hm Ha. split.
    - intros nm. rewrite spec_mark_snoc, Ha. pose proof (Hg nm) as G. unfold AddReflectionSpec.
      destruct (t_find nm0 (rs_types sp)) as [t|] eqn:Et.
      + rewrite G. destruct (list_eqb nm0 nm) eqn:E; [|destruct (spec_mark asked nm); reflexivity]. apply list_eqb_eq in E. subst nm0.
        unfold GetSpec in G. rewrite Et in G. destruct (spec_mark asked nm); try reflexivity. cbn in G. subst t. exfalso. eapply Hn. exact Et.
      + unfold GetSpec. cbn [rs_types]. rewrite t_find_set. destruct (list_eqb nm0 nm) eqn:E.
        * apply list_eqb_eq in E. subst nm0. unfold GetSpec in G. rewrite Et in G.
          destruct (spec_mark_cases asked nm) as [X|[X|X]]; rewrite X in *; [destruct Hm as [-> | ->]; reflexivity|discriminate G|discriminate G].
        * unfold GetSpec in G. rewrite G. destruct (spec_mark asked nm); reflexivity.
    - intros nm. unfold AddReflectionSpec. destruct (t_find nm0 (rs_types sp)); [apply Hn|]. cbn [rs_types]. rewrite t_find_set.
      destruct (list_eqb nm0 nm); [destruct Hm as [-> | ->]; discriminate|apply Hn]. }
  assert (N : (forall nm, spec_mark [a] nm = Unmarked) -> gathered (asked ++ [a]) sp).
  { intros H nm. rewrite spec_mark_snoc, H. rewrite (Hg nm). destruct (spec_mark asked nm); reflexivity. }
  unfold gather_spec. destruct (is_prefix (str "full-") a) eqn:E1.
  { apply is_prefix_spec in E1. destruct E1 as [r ->]. change (skipn 5 (str "full-" ++ r)) with r. apply (K r Full); [auto|]. intros nm. cbn [spec_mark].
    destruct (list_eqb r nm) eqn:E; [apply list_eqb_eq in E; subst; rewrite list_eqb_refl; reflexivity|].
    destruct (list_eqb (str "full-" ++ r) (str "full-" ++ nm)) eqn:E2.
    - apply list_eqb_eq in E2. apply app_inv_head in E2. apply list_eqb_neq in E. congruence.
    - destruct (list_eqb (str "full-" ++ r) (str "part-" ++ nm)) eqn:E3; [|reflexivity]. apply list_eqb_eq in E3. discriminate E3. }
  destruct (is_prefix (str "part-") a) eqn:E2.
  { apply is_prefix_spec in E2. destruct E2 as [r ->]. change (skipn 5 (str "part-" ++ r)) with r. apply (K r Part); [auto|]. intros nm. cbn [spec_mark].
    destruct (list_eqb (str "part-" ++ r) (str "full-" ++ nm)) eqn:E3; [apply list_eqb_eq in E3; discriminate E3|].
    destruct (list_eqb r nm) eqn:E; [apply list_eqb_eq in E; subst; rewrite list_eqb_refl; reflexivity|].
    destruct (list_eqb (str "part-" ++ r) (str "part-" ++ nm)) eqn:E4; [|reflexivity].
    apply list_eqb_eq in E4. apply app_inv_head in E4. apply list_eqb_neq in E. congruence. }
  assert (Un : forall nm, spec_mark [a] nm = Unmarked).
  { intros nm. cbn [spec_mark]. destruct (list_eqb a (str "full-" ++ nm)) eqn:E3; [apply list_eqb_eq in E3; subst; rewrite is_prefix_app in E1; discriminate E1|].
    destruct (list_eqb a (str "part-" ++ nm)) eqn:E4; [apply list_eqb_eq in E4; subst; rewrite is_prefix_app in E2; discriminate E2|reflexivity]. }
  assert (Z0 : forall c, gathered (asked ++ [a]) (mk_specs (rs_types sp) c)) by (intros c nm; exact (N Un nm)).
  destruct (is_prefix (str "container-") a); [|split; [exact (N Un)|exact Hn]].
  destruct (split_dash [] a) as [|x0 [|x1 [|x2 [|x3 [|x4 [|x5 xs]]]]]]; try (split; [exact (N Un)|exact Hn]).
  destruct (list_eqb x4 (str "haskey")); [split; [apply Z0|exact Hn]|]. destruct (list_eqb x4 (str "nokey")); (split; [apply Z0|exact Hn]) || (split; [exact (N Un)|exact Hn]).
Qed.
Lemma gather_containers : forall a sp, rs_containers (gather_spec a sp) =
  match decode a with Some (nm, v) => t_set nm v (rs_containers sp) | None => rs_containers sp end.
Proof.
  intros a sp. unfold gather_spec, decode.
  assert (A : forall nm t, rs_containers (AddReflectionSpec nm t sp) = rs_containers sp).
  { intros nm t. unfold AddReflectionSpec. destruct (t_find nm (rs_types sp)); reflexivity. }
  destruct (is_prefix (str "full-") a) eqn:E1.
  { apply is_prefix_spec in E1. destruct E1 as [r ->]. apply A. }
  destruct (is_prefix (str "part-") a) eqn:E2.
  { apply is_prefix_spec in E2. destruct E2 as [r ->]. apply A. }
  destruct (is_prefix (str "container-") a); [|reflexivity].
  destruct (split_dash [] a) as [|x0 [|x1 [|x2 [|x3 [|x4 [|x5 xs]]]]]]; try reflexivity.
  destruct (list_eqb x4 (str "haskey")); [reflexivity|]. destruct (list_eqb x4 (str "nokey")); reflexivity.
Qed.
Lemma containers_step : forall asked a cs, containers_of asked cs ->
  containers_of (asked ++ [a]) (match decode a with Some (nm, v) => t_set nm v cs | None => cs end).
Proof.
  intros asked a cs [Hd Hc].
  assert (S : forall nm v, (exists l1 b l2, asked ++ [a] = l1 ++ b :: l2 /\ container_request b (nm, v) /\ forall a' v', In a' l2 -> ~ container_request a' (nm, v')) <->
    (decode a = Some (nm, v) \/ (In (nm, v) cs /\ forall v', decode a <> Some (nm, v')))).
  { intros nm v. split.
    - intros [l1 [b [l2 [H1 [H2 H3]]]]]. destruct (rev l2) as [|z l2'] eqn:Er.
      + assert (l2 = []) as -> by (rewrite <- (rev_involutive l2), Er; reflexivity). change (b :: []) with ([b]) in H1. apply app_inj_tail in H1. destruct H1 as [-> ->].
        left. apply decode_spec. exact H2.
      + assert (l2 = rev l2' ++ [z]) as -> by (rewrite <- (rev_involutive l2), Er; reflexivity). rewrite app_comm_cons, app_assoc in H1. apply app_inj_tail in H1.
        destruct H1 as [-> ->]. right. split.
        * apply Hc. exists l1, b, (rev l2'). split; [reflexivity|]. split; [exact H2|]. intros a' v' Hin. apply H3. apply in_or_app. left. exact Hin.
        * intros v' Hv. apply decode_spec in Hv. eapply H3; [|exact Hv]. apply in_or_app. right. left. reflexivity.
    - intros [H|[H1 H2]].
      + exists asked, a, []. split; [reflexivity|]. split; [apply decode_spec; exact H|]. intros a' v' [].
      + apply Hc in H1. destruct H1 as [l1 [b [l2 [-> [H3 H4]]]]]. exists l1, b, (l2 ++ [a]). split; [rewrite <- app_assoc; reflexivity|]. split; [exact H3|].
        intros a' v' Hin. apply in_app_or in Hin. destruct Hin as [Hin|[<-|[]]]; [apply H4; exact Hin|]. intros Hr. apply decode_spec in Hr. eapply H2. exact Hr. }
  destruct (decode a) as [[nm0 v0]|] eqn:Ed.
  - destruct (t_set_In _ nm0 v0 _ Hd) as [N I]. split; [exact N|]. intros nm v. rewrite I, S. split.
    + intros [[-> ->]|[H1 H2]]; [left; reflexivity|]. right. split; [exact H2|]. intros v' Hv. congruence.
    + intros [H|[H1 H2]]; [left; split; congruence|]. right. split; [|exact H1]. intros ->. eapply H2. reflexivity.
  - split; [exact Hd|]. intros nm v. rewrite S. split; [intros H; right; split; [exact H|discriminate]|]. intros [H|[H _]]; [discriminate H|exact H].
Qed.
Lemma request_spec : forall d, request d = match snd (GetReflectionSpec d) with None => [] | Some a => [a] end.
Proof.
  intros [h l|h r l|h k|]; try reflexivity. unfold GetReflectionSpec. cbn [is_internal request].
  destruct l as [|[h0 l0|h0 r0 l0|h0 k0|] l]; try (destruct (list_eqb (h_name h) (str "clcpp_internal")); reflexivity).
  destruct (list_eqb (h_name h) (str "clcpp_internal")); [|reflexivity]. cbn [snd]. destruct (h_annots h0); reflexivity.
Qed.
Lemma Gather_ok : forall l asked sp, spec_inv asked sp ->
  fst (Gather l sp) = map (fun d => fst (GetReflectionSpec d)) l /\ spec_inv (asked ++ flat_map request l) (snd (Gather l sp)).
Proof.
  induction l as [|d l IH]; intros asked sp Hs; cbn [Gather fst snd flat_map map].
  - split; [reflexivity|]. rewrite app_nil_r. exact Hs.
  - set (s' := match snd (GetReflectionSpec d) with None => sp | Some a => gather_spec a sp end).
    assert (Hs' : spec_inv (asked ++ request d) s').
    { rewrite request_spec. unfold s'. destruct (snd (GetReflectionSpec d)) as [a|]; [|rewrite app_nil_r; exact Hs].
      destruct Hs as [G [C N]]. destruct (gathered_step _ _ a G N) as [G' N']. split; [exact G'|]. split; [|exact N'].
      rewrite gather_containers. apply containers_step. exact C. }
    destruct (IH _ _ Hs') as [I1 I2]. split; [f_equal; exact I1|]. rewrite app_assoc. exact I2.
Qed.

(* ---- the run ---- *)
Section Run.
Variable Es : env -> Prop.
Hypothesis Hcoh : coherent Es.
Notation inv := (inv Es). Notation track := (track Es).
Lemma add_base_types_ok : forall l d d', inv d -> add_base_types l d = Ok d' -> track (map (fun t => Type_ (fst t) (snd t)) l) d d'.
Proof.
  induction l as [|[t z] l IH]; intros d d' Hi H; cbn [add_base_types] in H.
  - injection H as <-. apply post_refl. exact Hi.
  - apply obind_ok in H. destruct H as [[n d1] [H1 H]]. cbn [fst snd] in H. destruct (post_db_name Es _ _ _ _ Hi H1) as [-> [P1 _]].
    apply obind_ok in H. destruct H as [m [H2 H]]. apply db_add_ok in H2. destruct H2 as [-> _].
    pose proof (track_note Es (Type_ t z) d1 I (track_inv _ _ _ _ P1)) as P2.
    exact (post_trans _ _ _ _ _ P1 (track_trans _ _ _ _ _ _ P2 (IH _ _ (track_inv _ _ _ _ P2) H))).
Qed.
Lemma add_containers_ok : forall l d d', inv d -> add_containers l d = Ok d' -> track (map (fun c => Container_ (fst c) (snd c)) l) d d'.
Proof.
  induction l as [|[c [[r w] k]] l IH]; intros d d' Hi H; cbn [add_containers] in H.
  - injection H as <-. apply post_refl. exact Hi.
  - apply obind_ok in H. destruct H as [[n1 d1] [H1 H]]. cbn [fst snd] in H. destruct (post_db_name Es _ _ _ _ Hi H1) as [-> [P1 _]].
    apply obind_ok in H. destruct H as [[n2 d2] [H2 H]]. cbn [fst snd] in H. destruct (post_db_name Es _ _ _ _ (track_inv _ _ _ _ P1) H2) as [-> [P2 _]].
    apply obind_ok in H. destruct H as [[n3 d3] [H3 H]]. cbn [fst snd] in H. destruct (post_db_name Es _ _ _ _ (track_inv _ _ _ _ P2) H3) as [-> [P3 _]].
    rewrite name_of_hash in H.
    pose proof (track_note Es (Container_ c (r, w, k)) d3 I (track_inv _ _ _ _ P3)) as P4.
    refine (post_trans _ _ _ _ _ P1 (post_trans _ _ _ _ _ P2 (post_trans _ _ _ _ _ P3 (track_trans _ [_] _ _ _ _ P4 _)))).
    apply (IH _ _ (track_inv _ _ _ _ P4)). destruct k; exact H.
Qed.
Lemma scan_tus_ok : forall fuel sf tus x x' d' asked, Forall (fun p => Es (fst p)) tus -> inv (st_db (snd x)) -> st_allow (snd x) = false -> spec_inv asked (fst x) ->
  scan_tus fuel sf tus x = Ok x' -> add_containers (rs_containers (fst x')) (st_db (snd x')) = Ok d' ->
  exists evs, run_events sf asked tus evs /\ track evs (st_db (snd x)) d'.
Proof.
  induction tus as [|[E tu] tus IH]; intros x x' d' asked HE Hi Ha Hs H Hc; cbn [scan_tus] in H.
  - injection H as <-. pose proof (add_containers_ok _ _ _ Hi Hc) as T. eexists. split; [constructor; exact (proj1 (proj2 Hs))|exact T].
  - inversion HE as [|p l HE1 HE2]; subst. cbn [fst] in HE1. apply obind_ok in H. destruct H as [[sp1 s1] [H1 H]]. unfold scan_tu in H1.
    destruct (Gather_ok tu _ _ Hs) as [G1 G2].
    apply obind_ok in H1. destruct H1 as [d [H2 H1]]. pose proof (add_base_types_ok _ _ _ Hi H2) as T1.
    apply obind_ok in H1. destruct H1 as [s2 [H3 H1]]. rewrite G1 in H3.
    destruct (walk_tu_ok Es Hcoh E HE1 _ _ _ _ (proj1 G2) _ (set_db d (snd x)) _ (track_inv _ _ _ _ T1) H3) as [evs [W [K1 K2]]].
    assert (sp1 = snd (Gather tu (fst x)) /\ s1 = s2) as [-> ->] by (split; congruence). cbn [st_allow set_db] in K1, W. rewrite Ha in W.
    destruct (IH (snd (Gather tu (fst x)), s2) x' d' _ HE2 (track_inv _ _ _ _ K2) (eq_trans K1 Ha) G2 H Hc) as [more [R T3]].
    exists (map (fun t => Type_ (fst t) (snd t)) builtin_types ++ evs ++ more). split; [constructor; [exact W|exact R]|].
    cbn [st_db set_db] in K2. exact (track_trans _ _ _ _ _ _ T1 (track_trans _ _ _ _ _ _ K2 T3)).
Qed.
End Run.
Theorem scan_ok : forall fuel sf tus d w, coherent (fun E => In E (map fst tus)) -> scan fuel sf tus = Ok (d, w) ->
  exists evs, run_events sf [] tus evs /\ track (fun E => In E (map fst tus)) evs db_empty d.
Proof.
  intros fuel sf tus d w Hcoh H. unfold scan in H. apply obind_ok in H. destruct H as [x [H1 H]]. apply obind_ok in H. destruct H as [d' [H2 H]].
  assert (d = d') as -> by congruence.
  refine (scan_tus_ok _ Hcoh fuel sf tus (specs_empty, mk_st db_empty false []) x d' [] _ _ eq_refl _ H1 H2).
  - apply Forall_forall. intros p Hp. apply in_map. exact Hp.
  - split; [exact nwf_nil|]. intros k t [].
  - split; [intros nm; reflexivity|]. split; [|intros nm; discriminate]. split; [constructor|]. intros nm v. split; [intros []|].
    intros [l1 [a [l2 [Hl _]]]]. destruct l1; discriminate Hl.
Qed.
