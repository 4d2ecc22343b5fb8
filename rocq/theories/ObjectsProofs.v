(* Lemmas for ObjectsModel.v *)
From Verif Require Import Base BaseProofs ObjectsModel ObjectsSpec.
From Coq Require Import Sorting.Permutation.

(* ---- arrays ---- *)
Lemma wr_ok : forall A (l : list A) i a x, znth l i = Some x ->
  exists pre post, l = pre ++ x :: post /\ zlen pre = i /\ wr l i a = Ok (pre ++ a :: post).
Proof.
  intros A l i a x H. pose proof (znth_range _ _ _ _ H) as Hr.
  assert (Hx : nth_error l (Z.to_nat i) = Some x).
  { unfold znth in H. destruct (i <? 0); [discriminate|exact H]. }
  exists (firstn (Z.to_nat i) l), (skipn (S (Z.to_nat i)) l).
  assert (Hd : l = firstn (Z.to_nat i) l ++ x :: skipn (S (Z.to_nat i)) l).
  { clear - Hx. revert Hx. generalize (Z.to_nat i). intros n. revert l. induction n as [|n IH]; intros [|b l] H; try discriminate.
    - cbn in H. inversion H. reflexivity.
    - cbn in H. cbn [firstn skipn app]. f_equal. apply IH. exact H. }
  split; [exact Hd|]. split.
  - unfold zlen in *. rewrite firstn_length. lia.
  - unfold wr. replace ((0 <=? i) && (i <? zlen l)) with true by lia. reflexivity.
Qed.

Lemma znth_mid : forall A (pre : list A) x post j,
  znth (pre ++ x :: post) j = if j =? zlen pre then Some x else
    if j <? zlen pre then znth pre j else znth post (j - zlen pre - 1).
Proof.
  intros A pre x post j. pose proof (zlen_nonneg _ pre).
  destruct (Z.eqb_spec j (zlen pre)) as [->|Hne].
  - rewrite znth_app_r by lia. rewrite Z.sub_diag. apply znth_0.
  - destruct (Z.ltb_spec j (zlen pre)).
    + destruct (Z.ltb_spec j 0).
      * unfold znth. destruct (Z.ltb_spec j 0); [reflexivity|lia].
      * apply znth_app_l. lia.
    + rewrite znth_app_r by lia. rewrite znth_cons by lia. reflexivity.
Qed.

Lemma zlen_mid : forall A (pre : list A) x post, zlen (pre ++ x :: post) = zlen pre + 1 + zlen post.
Proof. intros. rewrite zlen_app, zlen_cons. lia. Qed.

(* ---- probing ---- *)
Fixpoint ploop (fuel : nat) (t : list entry) (mask : Z) (stop : entry -> bool) (index : Z) : outcome Z :=
  match fuel with
  | O => Fuel
  | S n => do e <- rd t index; if stop e then Ok index else ploop n t mask stop (Z.land (u32 (index + 1)) mask)
  end.
Definition isSome {A} (o : option A) : bool := match o with Some _ => true | None => false end.
Definition find_stop (id : Z) (e : entry) : bool := (fst e =? 0) || ((fst e =? id) && isSome (snd e)).
Definition free_stop (e : entry) : bool := (fst e =? 0) || negb (isSome (snd e)).
Definition remove_stop (id : Z) (e : entry) : bool := (fst e =? 0) || (fst e =? id).

Lemma find_loop_eq : forall fuel t mask id i, find_loop fuel t mask id i = ploop fuel t mask (find_stop id) i.
Proof.
  induction fuel as [|n IH]; intros; cbn [find_loop ploop]; [reflexivity|].
  destruct (rd t i) as [e| | |]; cbn [obind]; auto. unfold find_stop at 1, isSome.
  destruct (fst e =? 0); cbn [orb]; [reflexivity|]. destruct ((fst e =? id) && _); auto.
Qed.
Lemma free_loop_eq : forall fuel t mask i, free_loop fuel t mask i = ploop fuel t mask free_stop i.
Proof.
  induction fuel as [|n IH]; intros; cbn [free_loop ploop]; [reflexivity|].
  destruct (rd t i) as [e| | |]; cbn [obind]; auto. unfold free_stop at 1, isSome.
  destruct (fst e =? 0); cbn [orb]; [reflexivity|]. destruct (snd e); cbn [negb]; auto.
Qed.
Lemma remove_loop_eq : forall fuel t mask id i, remove_loop fuel t mask id i = ploop fuel t mask (remove_stop id) i.
Proof.
  induction fuel as [|n IH]; intros; cbn [remove_loop ploop]; [reflexivity|].
  destruct (rd t i) as [e| | |]; cbn [obind]; auto. unfold remove_stop at 1.
  destruct ((fst e =? 0) || (fst e =? id)); auto.
Qed.

Lemma pow_bounds : forall k, 3 <= k <= 30 -> 8 <= 2 ^ k <= 1073741824.
Proof.
  intros k H. change 8 with (2 ^ 3). change 1073741824 with (2 ^ 30).
  split; apply Z.pow_le_mono_r; lia.
Qed.
Lemma land_mask : forall k x, 3 <= k <= 30 -> Z.land x (u32 (2 ^ k - 1)) = x mod 2 ^ k.
Proof.
  intros k x Hk. pose proof (pow_bounds k Hk).
  assert (Hu : u32 (2 ^ k - 1) = Z.ones k).
  { unfold u32. rewrite Z.mod_small by lia. rewrite Z.ones_equiv. lia. }
  rewrite Hu. apply Z.land_ones. lia.
Qed.
Lemma next_index : forall k id i, 3 <= k <= 30 ->
  Z.land (u32 ((id + i) mod 2 ^ k + 1)) (u32 (2 ^ k - 1)) = (id + (i + 1)) mod 2 ^ k.
Proof.
  intros k id i Hk. pose proof (pow_bounds k Hk). rewrite land_mask by exact Hk.
  pose proof (Z.mod_pos_bound (id + i) (2 ^ k) ltac:(lia)).
  unfold u32. rewrite (Z.mod_small _ 4294967296) by lia. rewrite Z.add_mod_idemp_l by lia. f_equal. lia.
Qed.

Lemma ploop_ok : forall k t stop id p e, 3 <= k <= 30 -> zlen t = 2 ^ k ->
  znth t p = Some e -> stop e = true ->
  exists d e', 0 <= d < 2 ^ k /\ d <= (p - id) mod 2 ^ k /\
    ploop (S (Z.to_nat (2 ^ k))) t (u32 (2 ^ k - 1)) stop (Z.land id (u32 (2 ^ k - 1))) = Ok ((id + d) mod 2 ^ k) /\
    znth t ((id + d) mod 2 ^ k) = Some e' /\ stop e' = true /\
    (forall i e'', 0 <= i < d -> znth t ((id + i) mod 2 ^ k) = Some e'' -> stop e'' = false).
Proof.
  intros k t stop id p e Hk Hlen Hp Hs. pose proof (pow_bounds k Hk) as HM.
  pose proof (znth_range _ _ _ _ Hp) as Hpr.
  assert (Hdp : 0 <= (p - id) mod 2 ^ k < 2 ^ k) by (apply Z.mod_pos_bound; lia).
  assert (Hpd : (id + (p - id) mod 2 ^ k) mod 2 ^ k = p).
  { rewrite Z.add_mod_idemp_r by lia. replace (id + (p - id)) with p by lia. apply Z.mod_small. lia. }
  assert (G : forall fuel i, 0 <= i <= (p - id) mod 2 ^ k -> (p - id) mod 2 ^ k - i < Z.of_nat fuel ->
    (forall j e'', 0 <= j < i -> znth t ((id + j) mod 2 ^ k) = Some e'' -> stop e'' = false) ->
    exists d e', 0 <= d < 2 ^ k /\ d <= (p - id) mod 2 ^ k /\
      ploop fuel t (u32 (2 ^ k - 1)) stop ((id + i) mod 2 ^ k) = Ok ((id + d) mod 2 ^ k) /\
      znth t ((id + d) mod 2 ^ k) = Some e' /\ stop e' = true /\
      (forall i e'', 0 <= i < d -> znth t ((id + i) mod 2 ^ k) = Some e'' -> stop e'' = false)).
  { induction fuel as [|n IH]; intros i Hi Hf Hpre; [lia|]. cbn [ploop].
    assert (Hin : 0 <= (id + i) mod 2 ^ k < zlen t) by (rewrite Hlen; apply Z.mod_pos_bound; lia).
    destruct (znth_in _ t _ Hin) as [x Hx]. unfold rd. rewrite Hx. cbn [obind].
    destruct (stop x) eqn:Ex.
    - exists i, x. split; [lia|]. split; [lia|]. auto.
    - rewrite next_index by exact Hk. destruct (Z.eq_dec i ((p - id) mod 2 ^ k)) as [->|Hne].
      + exfalso. rewrite Hpd in Hx. congruence.
      + apply IH; [lia|lia|]. intros j e'' Hj Hje. destruct (Z.eq_dec j i) as [->|]; [congruence|].
        apply (Hpre j e''); [lia|exact Hje]. }
  destruct (G (S (Z.to_nat (2 ^ k))) 0) as [d [e' [H1 [H2 [H3 H4]]]]]; [lia|lia|intros; lia|].
  exists d, e'. split; [exact H1|]. split; [exact H2|]. split; [|exact H4].
  rewrite land_mask by exact Hk. rewrite Z.add_0_r in H3. exact H3.
Qed.

(* ---- the table invariant ---- *)
Definition lives (t : list entry) : list object :=
  flat_map (fun e => match snd e with Some o => [o] | None => [] end) t.
Definition cnt (t : list entry) : Z := zlen (filter (fun e => negb (fst e =? 0)) t).

Definition Core (t : list entry) (k : Z) (m : list object) : Prop :=
  3 <= k <= 30 /\ zlen t = 2 ^ k /\
  (forall p e, znth t p = Some e -> fst e = 0 -> snd e = None) /\
  (forall p h o, znth t p = Some (h, Some o) -> o_id o = h /\ h <> 0 /\
     forall i e, 0 <= i < (p - h) mod 2 ^ k -> znth t ((h + i) mod 2 ^ k) = Some e -> fst e <> 0 /\ fst e <> h) /\
  Permutation (lives t) m /\ NoDup (map o_id m).

Lemma lives_app : forall a b, lives (a ++ b) = lives a ++ lives b.
Proof. intros. apply flat_map_app. Qed.
Lemma lives_In : forall t o, In o (lives t) <-> exists p h, znth t p = Some (h, Some o).
Proof.
  intros t o. unfold lives. rewrite in_flat_map. split.
  - intros [[h x] [Hin Hx]]. cbn in Hx. destruct x as [o'|]; [|destruct Hx].
    destruct Hx as [->|[]]. apply In_znth in Hin. destruct Hin as [p Hp]. exists p, h. exact Hp.
  - intros [p [h Hp]]. exists (h, Some o). split; [eapply znth_In; eauto|left; reflexivity].
Qed.
Lemma cnt_app : forall a b, cnt (a ++ b) = cnt a + cnt b.
Proof. intros. unfold cnt. rewrite filter_app, zlen_app. reflexivity. Qed.
Lemma cnt_cons : forall e t, cnt (e :: t) = (if fst e =? 0 then 0 else 1) + cnt t.
Proof. intros. unfold cnt. cbn [filter]. destruct (fst e =? 0); cbn [negb]; [|rewrite zlen_cons]; lia. Qed.
Lemma cnt_le : forall t, 0 <= cnt t <= zlen t.
Proof.
  induction t as [|e t IH]; [cbn; lia|]. rewrite cnt_cons, zlen_cons. destruct (fst e =? 0); lia.
Qed.
Lemma cnt_empty_slot : forall t, cnt t < zlen t -> exists p e, znth t p = Some e /\ fst e = 0.
Proof.
  induction t as [|e t IH]; intros H; [cbn in H; lia|]. rewrite cnt_cons, zlen_cons in H.
  destruct (Z.eqb_spec (fst e) 0) as [E|E].
  - exists 0, e. split; [apply znth_0|exact E].
  - destruct (IH ltac:(lia)) as [p [e' [H1 H2]]]. exists (p + 1), e'.
    pose proof (znth_range _ _ _ _ H1). rewrite znth_cons by lia. replace (p + 1 - 1) with p by lia. auto.
Qed.
Lemma mod_eq_dist : forall M h p, 0 < M -> 0 <= p < M -> (h + (p - h) mod M) mod M = p.
Proof.
  intros M h p HM Hp. rewrite Z.add_mod_idemp_r by lia. replace (h + (p - h)) with p by lia. apply Z.mod_small. exact Hp.
Qed.
Lemma dist_of_index : forall M h d, 0 <= d < M -> ((h + d) mod M - h) mod M = d.
Proof.
  intros M h d Hd. rewrite Zminus_mod_idemp_l. replace (h + d - h) with d by lia. apply Z.mod_small. exact Hd.
Qed.

(* looking up *)
Lemma core_find : forall t k m id, Core t k m -> cnt t < 2 ^ k ->
  exists i e, find_loop (S (Z.to_nat (2 ^ k))) t (u32 (2 ^ k - 1)) id (Z.land id (u32 (2 ^ k - 1))) = Ok i /\
    znth t i = Some e /\
    match snd e with
    | Some o => In o m /\ o_id o = id
    | None => forall o, In o m -> o_id o <> id
    end.
Proof.
  intros t k m id [Hk [Hlen [Hz [Hpr [Hperm Hnd]]]]] Hc. pose proof (pow_bounds k Hk) as HM.
  destruct (cnt_empty_slot t ltac:(lia)) as [q [eq [Hq Heq]]].
  destruct (ploop_ok k t (find_stop id) id q eq Hk Hlen Hq) as [d [e [H1 [H2 [H3 [H4 [H5 H6]]]]]]].
  { unfold find_stop. rewrite Heq. reflexivity. }
  exists ((id + d) mod 2 ^ k), e. rewrite find_loop_eq. split; [exact H3|]. split; [exact H4|].
  destruct e as [h [o|]]; cbn [snd].
  - destruct (Hpr _ _ _ H4) as [Hid [Hh _]]. unfold find_stop in H5. cbn [fst snd isSome] in H5.
    destruct (Z.eqb_spec h 0); [contradiction|]. cbn [orb] in H5. rewrite andb_true_r in H5. apply Z.eqb_eq in H5.
    split; [|congruence]. eapply Permutation_in; [exact Hperm|]. apply lives_In. eauto.
  - intros o Hin Hid. assert (Hl : In o (lives t)) by (eapply Permutation_in; [apply Permutation_sym; exact Hperm|exact Hin]).
    apply lives_In in Hl. destruct Hl as [p [h' Hp]]. destruct (Hpr _ _ _ Hp) as [Hid' [Hh' Hpre]].
    rewrite Hid in Hid'. subst h'.
    pose proof (znth_range _ _ _ _ Hp) as Hprange. rewrite Hlen in Hprange.
    unfold find_stop in H5. cbn [fst snd isSome] in H5. rewrite andb_false_r, orb_false_r in H5. apply Z.eqb_eq in H5. subst h.
    destruct (Z.ltb_spec d ((p - id) mod 2 ^ k)) as [Hlt|Hge].
    + destruct (Hpre d (0, None) ltac:(lia) H4) as [Hx _]. cbn in Hx. contradiction.
    + destruct (Z.eq_dec d ((p - id) mod 2 ^ k)) as [->|Hne].
      * rewrite mod_eq_dist in H4 by lia. congruence.
      * specialize (H6 ((p - id) mod 2 ^ k) (id, Some o)).
        rewrite mod_eq_dist in H6 by lia. pose proof (Z.mod_pos_bound (p - id) (2 ^ k) ltac:(lia)).
        specialize (H6 ltac:(lia) Hp). unfold find_stop in H6. cbn [fst snd isSome] in H6.
        rewrite Z.eqb_refl in H6. cbn in H6. rewrite orb_true_r in H6. discriminate.
Qed.

(* inserting *)
Lemma core_insert : forall t k m o, Core t k m -> cnt t < 2 ^ k -> o_id o <> 0 ->
  (forall o', In o' m -> o_id o' <> o_id o) ->
  exists i t', free_loop (S (Z.to_nat (2 ^ k))) t (u32 (2 ^ k - 1)) (Z.land (o_id o) (u32 (2 ^ k - 1))) = Ok i /\
    wr t i (o_id o, Some o) = Ok t' /\ Core t' k (o :: m) /\ cnt t' <= cnt t + 1.
Proof.
  intros t k m o [Hk [Hlen [Hz [Hpr [Hperm Hnd]]]]] Hc Ho Hfresh. pose proof (pow_bounds k Hk) as HM.
  destruct (cnt_empty_slot t ltac:(lia)) as [q [eq [Hq Heq]]].
  destruct (ploop_ok k t free_stop (o_id o) q eq Hk Hlen Hq) as [d [e [H1 [H2 [H3 [H4 [H5 H6]]]]]]].
  { unfold free_stop. rewrite Heq. reflexivity. }
  assert (Hnone : snd e = None).
  { unfold free_stop in H5. apply orb_true_iff in H5. destruct H5 as [H5|H5].
    - apply Z.eqb_eq in H5. eapply Hz; eauto.
    - destruct (snd e); [discriminate|reflexivity]. }
  destruct (wr_ok _ t _ (o_id o, Some o) e H4) as [pre [post [Ht [Hpl Hw]]]].
  exists ((o_id o + d) mod 2 ^ k), (pre ++ (o_id o, Some o) :: post). rewrite free_loop_eq.
  split; [exact H3|]. split; [exact Hw|].
  remember ((o_id o + d) mod 2 ^ k) as ix eqn:Hix.
  assert (Hnew : forall j, znth (pre ++ (o_id o, Some o) :: post) j = if j =? ix then Some (o_id o, Some o) else znth t j).
  { intros j. rewrite Ht, !znth_mid, Hpl. destruct (j =? ix); reflexivity. }
  assert (Hlive_ne : forall p h o', znth t p = Some (h, Some o') -> h <> o_id o).
  { intros p h o' Hp. destruct (Hpr _ _ _ Hp) as [Hid _]. rewrite <- Hid. apply Hfresh.
    eapply Permutation_in; [exact Hperm|]. apply lives_In. eauto. }
  split.
  - unfold Core. split; [exact Hk|].
    split; [rewrite <- Hlen, Ht, !zlen_mid; reflexivity|].
    split; [intros p e' Hp Hf; rewrite Hnew in Hp; destruct (p =? ix); [inversion Hp; subst; cbn in Hf; contradiction|eapply Hz; eauto]|].
    split.
    + intros p h o' Hp. rewrite Hnew in Hp. destruct (Z.eqb_spec p ix) as [->|Hne].
      * inversion Hp; subst h o'. split; [reflexivity|]. split; [exact Ho|].
        intros i e' Hi Hie. rewrite Hix, dist_of_index in Hi by lia.
        rewrite Hnew in Hie. destruct (Z.eqb_spec ((o_id o + i) mod 2 ^ k) ix) as [Heq2|Hne2].
        -- exfalso. assert (i = d); [|lia]. rewrite <- (dist_of_index (2 ^ k) (o_id o) i) by lia.
           rewrite Heq2, Hix. apply dist_of_index. lia.
        -- specialize (H6 i e' Hi Hie). unfold free_stop in H6. apply orb_false_iff in H6.
           destruct H6 as [H6a H6b]. split; [apply Z.eqb_neq; exact H6a|].
           destruct e' as [h' [o'|]]; [|discriminate]. cbn [fst]. eapply Hlive_ne; eauto.
      * destruct (Hpr _ _ _ Hp) as [Hid [Hh Hpre]]. split; [exact Hid|]. split; [exact Hh|].
        intros i e' Hi Hie. rewrite Hnew in Hie. destruct (Z.eqb_spec ((h + i) mod 2 ^ k) ix) as [Heq2|Hne2].
        -- inversion Hie; subst e'. cbn [fst]. split; [exact Ho|]. intros Hc2. exact (Hlive_ne _ _ _ Hp (eq_sym Hc2)).
        -- exact (Hpre i e' Hi Hie).
    + split.
      * rewrite lives_app. cbn [lives flat_map snd app]. fold (lives post).
        apply Permutation_sym. apply Permutation_cons_app. apply Permutation_sym.
        rewrite Ht, lives_app in Hperm. cbn [lives flat_map] in Hperm. rewrite Hnone in Hperm. exact Hperm.
      * cbn [map]. constructor; [|exact Hnd]. intros Hin. apply in_map_iff in Hin. destruct Hin as [o' [Hid Hin]].
        exact (Hfresh o' Hin Hid).
  - rewrite Ht, !cnt_app, !cnt_cons. cbn [fst]. destruct (Z.eqb_spec (o_id o) 0); [contradiction|].
    destruct (fst e =? 0); lia.
Qed.

(* removing *)
Lemma core_remove : forall t k m id, Core t k m -> cnt t < 2 ^ k ->
  (exists o, In o m /\ o_id o = id) ->
  exists i e t', remove_loop (S (Z.to_nat (2 ^ k))) t (u32 (2 ^ k - 1)) id (Z.land id (u32 (2 ^ k - 1))) = Ok i /\
    znth t i = Some e /\ wr t i (fst e, None) = Ok t' /\
    Core t' k (filter (fun o => negb (o_id o =? id)) m) /\ cnt t' = cnt t.
Proof.
  intros t k m id [Hk [Hlen [Hz [Hpr [Hperm Hnd]]]]] Hc [o [Hin Hid]]. pose proof (pow_bounds k Hk) as HM.
  assert (Hl : In o (lives t)) by (eapply Permutation_in; [apply Permutation_sym; exact Hperm|exact Hin]).
  apply lives_In in Hl. destruct Hl as [p [h Hp]]. destruct (Hpr _ _ _ Hp) as [Hid' [Hh Hpre]].
  rewrite Hid in Hid'. subst h.
  pose proof (znth_range _ _ _ _ Hp) as Hprange. rewrite Hlen in Hprange.
  destruct (ploop_ok k t (remove_stop id) id p (id, Some o) Hk Hlen Hp) as [d [e [H1 [H2 [H3 [H4 [H5 H6]]]]]]].
  { unfold remove_stop. cbn [fst]. rewrite Z.eqb_refl. apply orb_true_r. }
  assert (Hd : d = (p - id) mod 2 ^ k).
  { destruct (Z.eq_dec d ((p - id) mod 2 ^ k)) as [|Hne]; [assumption|]. exfalso.
    destruct (Hpre d e ltac:(lia) H4) as [Ha Hb]. unfold remove_stop in H5.
    apply orb_true_iff in H5. destruct H5 as [H5|H5]; apply Z.eqb_eq in H5; contradiction. }
  rewrite Hd, mod_eq_dist in H3, H4 by lia. assert (e = (id, Some o)) by congruence. subst e.
  destruct (wr_ok _ t p (id, @None object) (id, Some o) Hp) as [pre [post [Ht [Hpl Hw]]]].
  exists p, (id, Some o), (pre ++ (id, None) :: post). rewrite remove_loop_eq.
  split; [exact H3|]. split; [exact Hp|]. split; [exact Hw|].
  assert (Hnew : forall j, znth (pre ++ (id, None) :: post) j = if j =? p then Some (id, None) else znth t j).
  { intros j. rewrite Ht, !znth_mid, Hpl. destruct (j =? p); reflexivity. }
  assert (Hhash : forall j e', znth (pre ++ (id, None) :: post) j = Some e' -> exists e'', znth t j = Some e'' /\ fst e'' = fst e').
  { intros j e' Hj. rewrite Hnew in Hj. destruct (Z.eqb_spec j p) as [->|].
    - exists (id, Some o). split; [exact Hp|]. injection Hj as <-. reflexivity.
    - exists e'. auto. }
  assert (Hperm2 : Permutation (o :: lives pre ++ lives post) m).
  { eapply perm_trans; [|exact Hperm]. rewrite Ht, lives_app. cbn [lives flat_map snd app]. apply Permutation_middle. }
  assert (Hnd2 : NoDup (map o_id (o :: lives pre ++ lives post))).
  { eapply Permutation_NoDup; [apply Permutation_map, Permutation_sym; exact Hperm2|exact Hnd]. }
  split.
  - unfold Core. split; [exact Hk|].
    split; [rewrite <- Hlen, Ht, !zlen_mid; reflexivity|].
    split; [intros q e' Hq Hf; rewrite Hnew in Hq; destruct (q =? p); [inversion Hq; reflexivity|eapply Hz; eauto]|].
    split.
    + intros q h o' Hq. rewrite Hnew in Hq. destruct (Z.eqb_spec q p); [discriminate|].
      destruct (Hpr _ _ _ Hq) as [Ha [Hb Hcc]]. split; [exact Ha|]. split; [exact Hb|].
      intros i e' Hi Hie. destruct (Hhash _ _ Hie) as [e'' [He1 He2]]. rewrite <- He2. exact (Hcc i e'' Hi He1).
    + split.
      * assert (Hf : filter (fun o0 => negb (o_id o0 =? id)) (o :: lives pre ++ lives post) = lives pre ++ lives post).
        { cbn [filter]. rewrite Hid, Z.eqb_refl. cbn [negb]. cbn [map] in Hnd2. inversion Hnd2 as [|x l Hni Hnd3]; subst x l.
          clear - Hni Hid. remember (lives pre ++ lives post) as L. clear HeqL. induction L as [|a L IH]; [reflexivity|].
          cbn [filter]. destruct (Z.eqb_spec (o_id a) id) as [E|E].
          - exfalso. apply Hni. cbn [map]. left. congruence.
          - cbn [negb]. f_equal. apply IH. intros Hx. apply Hni. right. exact Hx. }
        rewrite lives_app. cbn [lives flat_map snd app]. fold (lives post). rewrite <- Hf.
        clear - Hperm2. induction Hperm2 as [|x l l' _ IH|x y l|l l' l'' _ IH1 _ IH2]; cbn [filter].
        -- constructor.
        -- destruct (negb (o_id x =? id)); [constructor|]; exact IH.
        -- destruct (negb (o_id x =? id)), (negb (o_id y =? id)); try reflexivity. constructor.
        -- eapply perm_trans; eauto.
      * clear - Hnd. induction m as [|a m IH]; [constructor|]. cbn [map] in Hnd. inversion Hnd; subst.
        cbn [filter]. destruct (negb (o_id a =? id)); [|auto]. cbn [map]. constructor; [|auto].
        intros Hx. apply H1. apply in_map_iff in Hx. destruct Hx as [b [Hb1 Hb2]]. apply filter_In in Hb2.
        apply in_map_iff. exists b. tauto.
  - rewrite Ht, !cnt_app, !cnt_cons. cbn [fst]. lia.
Qed.

Lemma znth_repeat : forall A (a : A) n p e, znth (repeat a n) p = Some e -> e = a.
Proof. intros A a n p e H. apply znth_In in H. apply repeat_spec in H. exact H. Qed.
Lemma core_new : forall k, 3 <= k <= 30 -> Core (new_table (2 ^ k)) k [] /\ cnt (new_table (2 ^ k)) = 0.
Proof.
  intros k Hk. pose proof (pow_bounds k Hk). unfold new_table.
  assert (Hl : forall n, lives (repeat empty_entry n) = []).
  { induction n as [|n IH]; cbn; auto. }
  split.
  - unfold Core. split; [exact Hk|]. split; [rewrite zlen_repeat; lia|].
    split; [intros p e Hp _; apply znth_repeat in Hp; subst; reflexivity|].
    split; [intros p h o Hp; apply znth_repeat in Hp; discriminate|].
    rewrite Hl. split; constructor.
  - generalize (Z.to_nat (2 ^ k)). induction n as [|n IH]; [reflexivity|]. cbn [repeat]. rewrite cnt_cons. cbn. exact IH.
Qed.

(* ---- the whole group ---- *)
Definition G (g : group) (m : list object) : Prop :=
  exists k, g_max g = 2 ^ k /\ Core (g_table g) k m /\ g_nb g = zlen m /\
    cnt (g_table g) <= g_occ g /\ g_occ g < 2 ^ k /\ 3 * zlen m <= 2 * 2 ^ k.

Lemma u32_small : forall z, 0 <= z < 4294967296 -> u32 z = z.
Proof. intros. apply Z.mod_small. assumption. Qed.

Ltac Zify.zify_post_hook ::= Z.div_mod_to_equations.
(* one insertion that needs no resize *)
Lemma add_simple : forall n t k m o nb occ, Core t k m -> nb = zlen m -> cnt t <= occ -> occ + 1 < 2 ^ k ->
  3 * (zlen m + 1) <= 2 * 2 ^ k -> o_id o <> 0 -> (forall o', In o' m -> o_id o' <> o_id o) ->
  exists t', AddHashEntry (S n) (mk_group (2 ^ k) nb occ t) o = Ok (mk_group (2 ^ k) (zlen (o :: m)) (occ + 1) t') /\
    Core t' k (o :: m) /\ cnt t' <= occ + 1.
Proof.
  intros n t k m o nb occ HC Hnb Hcnt Hocc Hth Ho Hfresh.
  pose proof (proj1 HC) as Hk. pose proof (pow_bounds k Hk) as HM. pose proof (cnt_le t).
  pose proof (zlen_nonneg _ m).
  destruct (core_insert t k m o HC ltac:(lia) Ho Hfresh) as [i [t' [Hf [Hw [HC' Hc']]]]].
  exists t'. split; [|split; [exact HC'|lia]].
  cbn [AddHashEntry g_max g_table g_nb g_occ]. rewrite Hf. cbn [obind]. rewrite Hw. cbn [obind].
  rewrite (u32_small (nb + 1)) by lia. rewrite (u32_small (occ + 1)) by lia. rewrite (u32_small (2 ^ k * 2)) by lia.
  destruct (nb + 1 >? 2 ^ k * 2 / 3) eqn:E1; [lia|]. destruct (Z.eqb_spec (occ + 1) (2 ^ k)); [lia|].
  rewrite zlen_cons. do 2 f_equal. lia.
Qed.

(* Resize: reinserting *)
Lemma refill : forall n es t k m, Core t k m -> cnt t <= zlen m ->
  3 * (zlen m + zlen (lives es)) <= 2 * 2 ^ k ->
  (forall o, In o (lives es) -> o_id o <> 0) -> NoDup (map o_id (lives es ++ m)) ->
  exists t', fold_left (fun og (e : entry) => do g' <- og;
               match snd e with Some o' => AddHashEntry (S n) g' o' | None => Ok g' end)
             es (Ok (mk_group (2 ^ k) (zlen m) (zlen m) t)) =
             Ok (mk_group (2 ^ k) (zlen m + zlen (lives es)) (zlen m + zlen (lives es)) t') /\
    (exists m', Core t' k m' /\ Permutation m' (lives es ++ m)) /\ cnt t' <= zlen m + zlen (lives es).
Proof.
  intros n es. induction es as [|e es IH]; intros t k m HC Hc Hth Hnz Hnd; cbn [fold_left].
  - exists t. cbn [lives flat_map]. rewrite zlen_nil, Z.add_0_r. split; [reflexivity|]. split; [|exact Hc].
    exists m. split; [exact HC|]. reflexivity.
  - pose proof (proj1 HC) as Hk. pose proof (pow_bounds k Hk) as HM.
    pose proof (zlen_nonneg _ m). pose proof (zlen_nonneg _ (lives es)).
    destruct e as [h [o|]]; cbn [obind snd].
    + cbn [lives flat_map snd app] in *. fold (lives es) in *. rewrite zlen_cons in *.
      cbn [map app] in Hnd. inversion Hnd as [|x l Hni Hnd2]; subst x l.
      destruct (add_simple n t k m o (zlen m) (zlen m) HC eq_refl Hc ltac:(lia) ltac:(lia)) as [t1 [Ha [HC1 Hc1]]].
      * apply Hnz. left. reflexivity.
      * intros o' Ho' Heq. apply Hni. apply in_map_iff. exists o'. split; [exact Heq|]. apply in_or_app. right. exact Ho'.
      * rewrite Ha. replace (zlen m + 1) with (zlen (o :: m)) by (rewrite zlen_cons; lia).
        destruct (IH t1 k (o :: m) HC1) as [t' [H1 [[m' [H2 H3]] H4]]].
        -- rewrite zlen_cons. lia.
        -- rewrite zlen_cons. lia.
        -- intros o' Ho'. apply Hnz. right. exact Ho'.
        -- eapply Permutation_NoDup; [|exact Hnd]. apply (Permutation_map o_id (l := o :: lives es ++ m)). apply Permutation_middle.
        -- exists t'. rewrite zlen_cons in H1, H4.
           replace (zlen m + (1 + zlen (lives es))) with (1 + zlen m + zlen (lives es)) by lia.
           split; [rewrite zlen_cons; exact H1|]. split; [|exact H4].
           exists m'. split; [exact H2|]. eapply perm_trans; [exact H3|]. apply Permutation_sym.
           cbn [app]. apply Permutation_middle.
    + cbn [lives flat_map snd app] in *. fold (lives es) in *. apply IH; auto.
Qed.

Lemma Core_perm : forall t k m m', Core t k m -> Permutation m m' -> Core t k m'.
Proof.
  intros t k m m' [H1 [H2 [H3 [H4 [H5 H6]]]]] Hp. unfold Core. repeat (split; [assumption|]).
  split; [eapply perm_trans; eauto|]. eapply Permutation_NoDup; [apply Permutation_map; exact Hp|exact H6].
Qed.

Lemma resize_ok : forall t k m k', Core t k m -> 3 <= k' <= 30 -> (forall o, In o m -> o_id o <> 0) ->
  3 * zlen m <= 2 * 2 ^ k' ->
  exists t', fold_left (fun og (e : entry) => do g' <- og;
               match snd e with Some o' => AddHashEntry 1 g' o' | None => Ok g' end)
             t (Ok (mk_group (2 ^ k') 0 0 (new_table (2 ^ k')))) =
             Ok (mk_group (2 ^ k') (zlen m) (zlen m) t') /\ Core t' k' m /\ cnt t' <= zlen m.
Proof.
  intros t k m k' HC Hk' Hnz Hth. destruct (core_new k' Hk') as [HC0 Hc0].
  destruct HC as [H1 [H2 [H3 [H4 [H5 H6]]]]].
  assert (Hzl : zlen (lives t) = zlen m) by (unfold zlen; rewrite (Permutation_length H5); reflexivity).
  destruct (refill 0 t (new_table (2 ^ k')) k' [] HC0) as [t' [Hf [[m' [HC' Hp]] Hc']]].
  - rewrite Hc0, zlen_nil. lia.
  - rewrite zlen_nil, Hzl. lia.
  - intros o Ho. apply Hnz. eapply Permutation_in; eauto.
  - rewrite app_nil_r. eapply Permutation_NoDup; [apply Permutation_map, Permutation_sym; exact H5|exact H6].
  - rewrite zlen_nil, Hzl, Z.add_0_l in *. exists t'. split; [exact Hf|]. split; [|exact Hc'].
    eapply Core_perm; [exact HC'|]. rewrite app_nil_r in Hp. eapply perm_trans; eauto.
Qed.

Definition ids_ok (m : list object) : Prop := forall o, In o m -> o_id o <> 0.

Lemma add_ok : forall g m o, G g m -> ids_ok m -> s_ok m (GAdd o) ->
  exists g', AddObject g o = Ok g' /\ G g' (o :: m).
Proof.
  intros [gmax gnb gocc t] m o [k [Hmax [HC [Hnb [Hcnt [Hocc Hth]]]]]] Hids [Ho [Hu [Hfresh Hbig]]].
  cbn [g_max g_nb g_occ g_table] in *. change (2 ^ 29) with 536870912 in Hbig.
  pose proof (proj1 HC) as Hk. pose proof (pow_bounds k Hk) as HM. pose proof (cnt_le t). pose proof (zlen_nonneg _ m).
  unfold AddObject. destruct (Z.eqb_spec (o_id o) 0); [contradiction|]. cbn [negb assert obind].
  destruct (core_insert t k m o HC ltac:(lia) Ho Hfresh) as [i [t' [Hf [Hw [HC' Hc']]]]].
  remember 1%nat as one eqn:Hone.
  cbn [AddHashEntry g_max g_table g_nb g_occ]. rewrite Hmax, Hf. cbn [obind]. rewrite Hw. cbn [obind]. subst one.
  rewrite (u32_small (gnb + 1)) by lia. rewrite (u32_small (gocc + 1)) by lia. rewrite (u32_small (2 ^ k * 2)) by lia.
  assert (Hids' : forall o', In o' (o :: m) -> o_id o' <> 0) by (intros o' [<-|H']; auto).
  assert (Hz1 : zlen (o :: m) = zlen m + 1) by (rewrite zlen_cons; lia).
  destruct (gnb + 1 >? 2 ^ k * 2 / 3) eqn:E1.
  - assert (Hk' : exists k', (if 2 ^ k <? 8192 * 4 then u32 (2 ^ k * 4) else 2 ^ k * 2) = 2 ^ k' /\ 3 <= k' <= 30 /\ 2 * 2 ^ k <= 2 ^ k').
    { change (8192 * 4) with 32768. destruct (Z.ltb_spec (2 ^ k) 32768) as [Hs|Hs].
      - exists (k + 2). rewrite Z.pow_add_r by lia. change (2 ^ 2) with 4. rewrite u32_small by lia.
        split; [reflexivity|]. split; [|lia]. assert (k < 15); [|lia].
        destruct (Z.ltb_spec k 15); [assumption|]. exfalso.
        assert (2 ^ 15 <= 2 ^ k) by (apply Z.pow_le_mono_r; lia). change (2 ^ 15) with 32768 in *. lia.
      - exists (k + 1). rewrite Z.pow_add_r by lia. change (2 ^ 1) with 2.
        assert (Hk30 : k <> 30). { intros ->. change (2 ^ 30) with 1073741824 in *. lia. }
        split; [reflexivity|]. split; [lia|lia]. }
    destruct Hk' as [k' [-> [Hk1 Hk2]]].
    destruct (resize_ok t' k (o :: m) k' HC' Hk1 Hids' ltac:(lia)) as [t2 [Hr [HC2 Hc2]]].
    rewrite Hr. eexists. split; [reflexivity|]. exists k'. cbn [g_max g_nb g_occ g_table].
    pose proof (pow_bounds k' Hk1). repeat (split; [assumption || reflexivity || lia|]). lia.
  - destruct (Z.eqb_spec (gocc + 1) (2 ^ k)) as [E2|E2].
    + destruct (resize_ok t' k (o :: m) k HC' Hk Hids' ltac:(lia)) as [t2 [Hr [HC2 Hc2]]].
      rewrite Hr. eexists. split; [reflexivity|]. exists k. cbn [g_max g_nb g_occ g_table].
      repeat (split; [assumption || reflexivity || lia|]). lia.
    + eexists. split; [reflexivity|]. exists k. cbn [g_max g_nb g_occ g_table].
      repeat (split; [assumption || reflexivity || lia|]). lia.
Qed.

Lemma filter_one : forall m id, NoDup (map o_id m) -> (exists o, In o m /\ o_id o = id) ->
  zlen (filter (fun o => negb (o_id o =? id)) m) = zlen m - 1.
Proof.
  induction m as [|a m IH]; intros id Hnd [o [Hin Hid]]; [destruct Hin|]. cbn [map] in Hnd. inversion Hnd as [|x l Hni Hnd2]; subst x l.
  cbn [filter]. rewrite zlen_cons. destruct (Z.eqb_spec (o_id a) id) as [E|E]; cbn [negb].
  - replace (filter (fun o0 => negb (o_id o0 =? id)) m) with m; [lia|].
    symmetry. clear - Hni E. induction m as [|b m IH]; [reflexivity|]. cbn [filter].
    destruct (Z.eqb_spec (o_id b) id) as [E2|E2].
    + exfalso. apply Hni. left. congruence.
    + cbn [negb]. f_equal. apply IH. intros Hx. apply Hni. right. exact Hx.
  - rewrite zlen_cons. destruct Hin as [->|Hin]; [contradiction|]. rewrite IH; [lia|exact Hnd2|]. exists o. auto.
Qed.

Lemma remove_ok : forall g m o, G g m -> ids_ok m -> s_ok m (GRemove o) ->
  exists g', RemoveObject g o = Ok g' /\ G g' (s_step m (GRemove o)).
Proof.
  intros [gmax gnb gocc t] m o [k [Hmax [HC [Hnb [Hcnt [Hocc Hth]]]]]] Hids Hex.
  cbn [g_max g_nb g_occ g_table s_ok s_step] in *.
  pose proof (proj1 HC) as Hk. pose proof (pow_bounds k Hk) as HM. pose proof (cnt_le t).
  unfold RemoveObject. assert (Hid0 : o_id o <> 0).
  { destruct Hex as [o' [Hin Hid]]. rewrite <- Hid. apply Hids. exact Hin. }
  destruct (Z.eqb_spec (o_id o) 0); [contradiction|].
  destruct (core_remove t k m (o_id o) HC ltac:(lia) Hex) as [i [e [t' [Hf [He [Hw [HC' Hc']]]]]]].
  unfold RemoveHashEntry. cbn [g_max g_table g_nb g_occ]. rewrite Hmax, Hf. cbn [obind].
  unfold rd. rewrite He. cbn [obind]. rewrite Hw. cbn [obind].
  pose proof (filter_one m (o_id o) (proj2 (proj2 (proj2 (proj2 (proj2 HC))))) Hex) as Hfl.
  pose proof (zlen_nonneg _ (filter (fun o' => negb (o_id o' =? o_id o)) m)).
  rewrite (u32_small (gnb - 1)) by lia.
  eexists. split; [reflexivity|]. exists k. cbn [g_max g_nb g_occ g_table].
  repeat (split; [assumption || reflexivity || lia|]). lia.
Qed.

Lemma run_ok : forall l g m, G g m -> ids_ok m -> s_all_ok m l ->
  exists g', g_run g l = Ok g' /\ G g' (fold_left s_step l m) /\ ids_ok (fold_left s_step l m).
Proof.
  induction l as [|op l IH]; intros g m HG Hids Hok; cbn [g_run s_all_ok fold_left] in *.
  - exists g. auto.
  - destruct Hok as [H1 H2]. destruct op as [o|o]; cbn [g_step].
    + destruct (add_ok g m o HG Hids H1) as [g1 [Ha HG1]]. rewrite Ha. cbn [obind].
      apply IH; [exact HG1| |exact H2]. intros o' [<-|Ho']; [apply H1|auto].
    + destruct (remove_ok g m o HG Hids H1) as [g1 [Ha HG1]]. rewrite Ha. cbn [obind].
      apply IH; [exact HG1| |exact H2]. intros o' Ho'. cbn [s_step] in Ho'. apply filter_In in Ho'. apply Hids. tauto.
Qed.

Lemma G_new : G group_new [].
Proof.
  exists 3. destruct (core_new 3 ltac:(lia)) as [HC Hc]. change (2 ^ 3) with 8 in *.
  cbn [g_max g_nb g_occ g_table group_new]. rewrite Hc. rewrite zlen_nil.
  repeat (split; [assumption || reflexivity || lia|]). lia.
Qed.

Lemma find_ok : forall g m id, G g m -> FindObject g id = Ok (lookup m id).
Proof.
  intros [gmax gnb gocc t] m id [k [Hmax [HC [Hnb [Hcnt [Hocc Hth]]]]]]. cbn [g_max g_nb g_occ g_table] in *.
  destruct (core_find t k m id HC ltac:(lia)) as [i [e [Hf [He Hs]]]].
  unfold FindObject. cbn [g_max g_table]. rewrite Hmax, Hf. cbn [obind]. unfold rd. rewrite He. cbn [obind]. f_equal.
  pose proof (proj2 (proj2 (proj2 (proj2 (proj2 HC))))) as Hnd.
  unfold lookup. destruct (snd e) as [o|].
  - destruct Hs as [Hin Hid]. clear - Hin Hid Hnd. induction m as [|a m IH]; [destruct Hin|].
    cbn [map] in Hnd. inversion Hnd as [|x l Hni Hnd2]; subst x l. cbn [find].
    destruct (Z.eqb_spec (o_id a) id) as [E|E].
    + destruct Hin as [->|Hin]; [reflexivity|]. exfalso. apply Hni. apply in_map_iff. exists o. split; [congruence|exact Hin].
    + destruct Hin as [->|Hin]; [contradiction|]. auto.
  - destruct (find (fun o => o_id o =? id) m) as [o|] eqn:E; [|reflexivity]. exfalso.
    apply find_some in E. destruct E as [Hin Heq]. apply Z.eqb_eq in Heq. exact (Hs o Hin Heq).
Qed.

Lemma reachable_G : forall g m, reachable g m -> G g m /\ ids_ok m.
Proof.
  intros g m [l [Hok [Hrun ->]]]. destruct (run_ok l group_new [] G_new) as [g' [Hr [HG Hi]]]; auto.
  - intros o [].
  - assert (g' = g) by congruence. subst. split; assumption.
Qed.

Lemma history_map : forall l, s_all_ok [] l ->
  exists g, g_run group_new l = Ok g /\ forall id, FindObject g id = Ok (lookup (s_run l) id).
Proof.
  intros l Hok. destruct (run_ok l group_new [] G_new) as [g' [Hr [HG Hi]]]; auto.
  - intros o [].
  - exists g'. split; [exact Hr|]. intros id. apply find_ok. exact HG.
Qed.

Lemma empty_slot : forall g m, G g m -> exists p o, znth (g_table g) p = Some (0, o).
Proof.
  intros g m [k [Hmax [HC [Hnb [Hcnt [Hocc Hth]]]]]]. destruct HC as [H1 [H2 _]].
  destruct (cnt_empty_slot (g_table g) ltac:(lia)) as [p [[h o] [Hp Hh]]]. cbn in Hh. subst h. exists p, o. exact Hp.
Qed.
