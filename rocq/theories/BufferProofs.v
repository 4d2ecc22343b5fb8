(* Lemmas for BufferModel.v *)
From Verif Require Import Base BaseProofs BufferModel BufferSpec.
Ltac Zify.zify_post_hook ::= Z.div_mod_to_equations.

(* ---- the growth loop ---- *)
Definition g15 (c : Z) : Z := c + c / 2.
Fixpoint g_iter (n : nat) (c : Z) : Z := match n with O => c | S k => g_iter k (g15 c) end.

Lemma g15_mono : forall a b, a <= b -> g15 a <= g15 b.
Proof. intros. unfold g15. lia. Qed.
Lemma g_iter_mono : forall n a b, a <= b -> g_iter n a <= g_iter n b.
Proof. induction n as [|n IH]; intros a b H; cbn [g_iter]; [exact H|]. apply IH, g15_mono, H. Qed.

Lemma grow_ok : forall n need c c0, 0 <= need <= limit -> 2 <= c0 <= c -> c < 4294967296 ->
  need <= g_iter n c0 ->
  exists c', grow (S n) need c = Ok c' /\ need <= c' /\ c <= c' < 4294967296.
Proof.
  unfold limit. induction n as [|n IH]; intros need c c0 Hn Hc Hc2 Hi; cbn [g_iter] in Hi.
  - cbn [grow]. destruct (need >? c) eqn:E; [lia|]. exists c. split; [reflexivity|lia].
  - remember (S n) as k. cbn [grow]. destruct (need >? c) eqn:E.
    + assert (Hu : u32 (c + c / 2) = c + c / 2) by (unfold u32; apply Z.mod_small; lia). rewrite Hu.
      subst k. destruct (IH need (c + c / 2) (g15 c0) Hn) as [c' [H1 [H2 H3]]].
      * unfold g15. lia.
      * lia.
      * exact Hi.
      * exists c'. split; [exact H1|lia].
    + exists c. split; [reflexivity|lia].
Qed.

Lemma grow_fuel_mono : forall n m need c c', grow n need c = Ok c' -> (n <= m)%nat -> grow m need c = Ok c'.
Proof.
  induction n as [|n IH]; intros m need c c' H Hm; [discriminate|].
  destruct m as [|m]; [lia|]. cbn [grow] in *. destruct (need >? c); [|exact H].
  apply IH; [exact H|lia].
Qed.

Lemma grow_enough : forall fuel need c, (64 <= fuel)%nat -> 0 <= need <= limit -> 2 <= c < 4294967296 ->
  exists c', grow fuel need c = Ok c' /\ need <= c' /\ c <= c' < 4294967296.
Proof.
  intros fuel need c Hf Hn Hc.
  assert (Hi : need <= g_iter 63 2).
  { assert (limit <= g_iter 63 2) by (vm_compute; discriminate). lia. }
  destruct (grow_ok 63 need c 2 Hn ltac:(lia) ltac:(lia) Hi) as [c' [H1 H2]].
  exists c'. split; [|exact H2]. apply (grow_fuel_mono 64); assumption.
Qed.

Lemma grow_stuck_0 : forall fuel need, 0 < need -> grow fuel need 0 = Fuel.
Proof.
  induction fuel as [|f IH]; intros need H; [reflexivity|]. cbn [grow].
  destruct (need >? 0) eqn:E; [|lia]. change (u32 (0 + 0 / 2)) with 0. auto.
Qed.
Lemma grow_stuck_1 : forall fuel need, 1 < need -> grow fuel need 1 = Fuel.
Proof.
  induction fuel as [|f IH]; intros need H; [reflexivity|]. cbn [grow].
  destruct (need >? 1) eqn:E; [|lia]. change (u32 (1 + 1 / 2)) with 1. auto.
Qed.
Lemma grow_stuck_limit : forall fuel, grow fuel (limit + 1) limit = Fuel.
Proof.
  intros [|fuel]; [reflexivity|]. cbn [grow]. change (limit + 1 >? limit) with true. cbn match.
  change (u32 (limit + limit / 2)) with 0. apply grow_stuck_0. unfold limit. lia.
Qed.

(* ---- the invariant ---- *)
Definition R (b : wbuf) (s : abuf) : Prop :=
  wb_pos b = apos s /\ 0 <= apos s <= ahigh s /\ ahigh s <= zlen (wb_cells b) /\ zlen (wb_cells b) < 4294967296 /\
  (wb_data b = None -> ahigh s = 0) /\
  (wb_data b = None <-> anull s = true) /\
  (wb_data b <> None -> 2 <= zlen (wb_cells b)) /\
  (forall i v, known s i = Some v -> znth (wb_cells b) i = Some (Some v)).

Lemma znth_nil : forall A i, znth ([] : list A) i = None.
Proof. intros A i. unfold znth. destruct (i <? 0); [reflexivity|]. destruct (Z.to_nat i); reflexivity. Qed.

Lemma zlen_new_block : forall n, 0 <= n -> zlen (new_block n) = n.
Proof. intros n H. unfold new_block. unfold zlen. rewrite repeat_length. lia. Qed.

Lemma znth_firstn : forall A (l : list A) n i, i < n -> znth (firstn (Z.to_nat n) l) i = znth l i.
Proof.
  intros A l n i H. unfold znth. destruct (Z.ltb_spec i 0); [reflexivity|].
  assert (Hi : (Z.to_nat i < Z.to_nat n)%nat) by lia. revert Hi.
  generalize (Z.to_nat i) (Z.to_nat n). clear. intros i n. revert n l. induction i as [|i IH]; intros [|n] [|a l] Hi; cbn; try lia; auto.
  apply IH. lia.
Qed.

(* allocation: position and room, everything before the old position kept *)
Lemma alloc_ok : forall fuel b s n, (64 <= fuel)%nat -> R b s -> 0 <= n -> apos s + n <= limit ->
  exists b', wb_alloc fuel b n = Ok (apos s, b') /\
    wb_pos b' = apos s + n /\ apos s + n <= zlen (wb_cells b') /\ zlen (wb_cells b') < 4294967296 /\
    zlen (wb_cells b) <= zlen (wb_cells b') /\
    (wb_data b' = None <-> (wb_data b = None /\ n = 0)) /\
    (wb_data b' <> None -> 2 <= zlen (wb_cells b')) /\
    (forall i, i < apos s -> znth (wb_cells b') i = znth (wb_cells b) i) /\
    (forall i, apos s + n <= i -> i < zlen (wb_cells b) -> znth (wb_cells b') i = znth (wb_cells b) i).
Proof.
  intros fuel b s n Hf [Hp [Hp0 [Hhi [Hcap [Hnull0 [Hnull [Hcap2 Hk]]]]]]] Hn Hlim.
  pose proof (zlen_nonneg _ (wb_cells b)).
  unfold wb_alloc. rewrite Hp. destruct (apos s + n >? zlen (wb_cells b)) eqn:E.
  - assert (Hwp : u32 (apos s) = apos s) by (unfold u32; apply Z.mod_small; lia).
    assert (Hneed : u32 (apos s + n) = apos s + n) by (unfold u32; apply Z.mod_small; unfold limit in Hlim; lia).
    rewrite Hwp, Hneed.
    assert (Hstart : exists st, (match wb_data b with None => 32 | Some _ => u32 (zlen (wb_cells b)) end) = st
       /\ 2 <= st < 4294967296 /\ zlen (wb_cells b) <= st).
    { destruct (wb_data b) eqn:Ed.
      - assert (Hu : u32 (zlen (wb_cells b)) = zlen (wb_cells b)) by (unfold u32; apply Z.mod_small; lia).
        exists (zlen (wb_cells b)). split; [exact Hu|]. specialize (Hcap2 ltac:(discriminate)). lia.
      - exists 32. split; [reflexivity|]. unfold wb_cells. rewrite Ed. rewrite zlen_nil. lia. }
    destruct Hstart as [st [-> [Hst Hst2]]].
    destruct (grow_enough fuel (apos s + n) st Hf ltac:(lia) Hst) as [c' [Hg [H1 H2]]].
    rewrite Hg. cbn [obind]. destruct (Z.leb_spec (apos s) c'); [|lia].
    eexists. split; [reflexivity|]. cbn [wb_pos wb_data wb_cells].
    assert (Hfl : zlen (firstn (Z.to_nat (apos s)) (wb_cells b)) = apos s).
    { unfold zlen. rewrite firstn_length. unfold zlen in *. lia. }
    assert (Hlen : zlen (firstn (Z.to_nat (apos s)) (wb_cells b) ++ new_block (c' - apos s)) = c').
    { rewrite zlen_app, Hfl, zlen_new_block by lia. lia. }
    rewrite Hlen.
    split; [reflexivity|]. split; [lia|]. split; [lia|]. split; [lia|].
    split; [split; [discriminate|intros [Hd Hn0]; exfalso; specialize (Hnull0 Hd); unfold wb_cells in E; rewrite Hd, zlen_nil in E; lia]|].
    split; [intros _; lia|]. split.
    + intros i Hi. destruct (Z.ltb_spec i 0).
      * unfold znth. destruct (Z.ltb_spec i 0); [reflexivity|lia].
      * rewrite znth_app_l by lia. apply znth_firstn. lia.
    + intros i Hi Hi2. lia.
  - eexists. split; [reflexivity|]. cbn [wb_pos wb_data wb_cells].
    unfold wb_cells at 1 2 3 4 5 6. cbn [wb_data]. fold (wb_cells b).
    split; [reflexivity|]. split; [lia|]. split; [lia|]. split; [lia|].
    split; [|split; [exact Hcap2|split; intros; reflexivity]].
    split; [intros Hd; split; [exact Hd|]|intros [Hd _]; exact Hd].
    unfold wb_cells in E. rewrite Hd, zlen_nil in E. lia.
Qed.

Lemma store_ok : forall b off bs, wb_data b <> None -> 0 <= off -> off + zlen bs <= zlen (wb_cells b) ->
  exists b', wb_store b off bs = Ok b' /\ wb_pos b' = wb_pos b /\ wb_data b' <> None /\
    zlen (wb_cells b') = zlen (wb_cells b) /\
    (forall i, off <= i < off + zlen bs -> znth (wb_cells b') i = option_map Some (znth bs (i - off))) /\
    (forall i, i < off \/ off + zlen bs <= i -> znth (wb_cells b') i = znth (wb_cells b) i).
Proof.
  intros b off bs Hd H0 H1. unfold wb_store.
  replace ((0 <=? off) && (off + zlen bs <=? zlen (wb_cells b))) with true by lia.
  remember (wb_cells b) as d eqn:Hdd.
  eexists. split; [reflexivity|]. cbn [wb_pos wb_data wb_cells].
  assert (Hfl : zlen (firstn (Z.to_nat off) d) = off).
  { unfold zlen in *. rewrite firstn_length. lia. }
  assert (Hml : zlen (map Some bs) = zlen bs) by apply zlen_map.
  assert (Hsl : zlen (skipn (Z.to_nat off + length bs) d) = zlen d - off - zlen bs).
  { unfold zlen in *. rewrite skipn_length. lia. }
  split; [reflexivity|]. split; [discriminate|]. split; [rewrite !zlen_app, Hfl, Hml, Hsl; lia|]. split.
  - intros i Hi. rewrite znth_app_r by lia. rewrite Hfl. rewrite znth_app_l by lia. apply znth_map.
  - intros i [Hi|Hi].
    + destruct (Z.ltb_spec i 0); [unfold znth; destruct (Z.ltb_spec i 0); [reflexivity|lia]|].
      rewrite znth_app_l by lia. apply znth_firstn. exact Hi.
    + pose proof (zlen_nonneg _ bs). rewrite znth_app_r by lia. rewrite Hfl, znth_app_r by lia. rewrite Hml.
      unfold znth. destruct (Z.ltb_spec (i - off - zlen bs) 0); [lia|]. destruct (Z.ltb_spec i 0); [lia|].
      rewrite <- (firstn_skipn (Z.to_nat off + length bs) d) at 2.
      rewrite nth_error_app2; [f_equal|]; rewrite firstn_length; unfold zlen in *; lia.
Qed.

Lemma write_known : forall fuel b s d, (64 <= fuel)%nat -> R b s -> apos s + zlen d <= limit ->
  (anull s = true -> d <> []) ->
  exists b', wb_write fuel b d = Ok b' /\ R b' (a_write s d).
Proof.
  intros fuel b s d Hf HR Hlim Hnz. pose proof (zlen_nonneg _ d) as Hd0.
  destruct (alloc_ok fuel b s (zlen d) Hf HR Hd0 Hlim) as [b1 [Ha [Hp1 [Hroom [Hcap1 [Hle [Hnull1 [Hc2 [Hkeep1 Hkeep2]]]]]]]]].
  destruct HR as [Hp [Hp0 [Hhi [Hcap [Hnull0 [Hnull [Hcap2 Hk]]]]]]].
  assert (Hnn : wb_data b1 <> None).
  { intros Hc. apply Hnull1 in Hc. destruct Hc as [Hc1 Hc3]. apply zlen_0_nil in Hc3.
    apply Hnull in Hc1. exact (Hnz Hc1 Hc3). }
  destruct (store_ok b1 (apos s) d Hnn ltac:(lia) ltac:(lia)) as [b' [Hs [Hp2 [Hn2 [Hl2 [Hin Hout]]]]]].
  exists b'. split.
  - unfold wb_write. rewrite Ha. cbn [obind fst snd]. destruct (wb_data b1); [exact Hs|contradiction].
  - unfold R, a_write. cbn [apos ahigh anull known]. rewrite Hp2, Hp1, Hl2.
    split; [reflexivity|]. split; [lia|]. split; [lia|]. split; [lia|].
    split; [intros; contradiction|]. split.
    + split; [intros; contradiction|]. intros Hx. apply andb_true_iff in Hx. destruct Hx as [Hx1 Hx2].
      apply Z.eqb_eq in Hx2. apply zlen_0_nil in Hx2. exfalso. exact (Hnz Hx1 Hx2).
    + split; [intros _; auto|]. intros i v. destruct ((apos s <=? i) && (i <? apos s + zlen d)) eqn:Er.
      * intros Hv. rewrite Hin by lia. rewrite Hv. reflexivity.
      * intros Hv. rewrite Hout by lia. specialize (Hk i v Hv). pose proof (znth_range _ _ _ _ Hk).
        destruct (Z.ltb_spec i (apos s)); [rewrite Hkeep1 by lia; exact Hk|].
        rewrite Hkeep2 by lia. exact Hk.
Qed.

Lemma until_zero_c_text : forall m, In 0 m -> until_zero m = Ok (c_text m).
Proof.
  induction m as [|c m IH]; intros H; [destruct H|]. cbn [until_zero c_text].
  destruct (Z.eqb_spec c 0) as [->|Hc]; [reflexivity|]. destruct H as [->|H]; [contradiction|].
  rewrite IH by exact H. reflexivity.
Qed.

Lemma step_ok : forall fuel b s o, (64 <= fuel)%nat -> R b s -> a_ok s o ->
  exists b', wb_step fuel b o = Ok b' /\ R b' (a_step s o).
Proof.
  intros fuel b s o Hf HR Hok. destruct o as [d|m|c|n|d|]; cbn [wb_step a_step a_ok] in *.
  - apply write_known; tauto.
  - destruct Hok as [Hz [Hl Hn]]. unfold wb_write_str. rewrite until_zero_c_text by exact Hz. cbn [obind].
    assert (Hu : u32 (zlen (c_text m)) = zlen (c_text m)).
    { unfold u32. apply Z.mod_small. pose proof (zlen_nonneg _ (c_text m)). destruct HR as [_ [H1 _]]. unfold limit in Hl. lia. }
    rewrite Hu. replace (Z.to_nat (zlen (c_text m))) with (length (c_text m)) by (unfold zlen; lia).
    rewrite firstn_all. apply write_known; auto.
  - assert (H : exists b', wb_write fuel b [c] = Ok b' /\ R b' (a_write s [c])).
    { apply write_known; auto. intros _. discriminate. }
    destruct H as [b' [H1 H2]]. exists b'. split; [|exact H2].
    unfold wb_write in H1. unfold wb_write_char. change (zlen [c]) with 1 in H1.
    destruct (wb_alloc fuel b 1) as [[p b1]| | |]; cbn [obind fst snd] in *; try discriminate.
    destruct (wb_data b1); [exact H1|discriminate].
  - destruct Hok as [Hn Hl].
    destruct (alloc_ok fuel b s n Hf HR Hn Hl) as [b1 [Ha [Hp1 [Hroom [Hcap1 [Hle [Hnull1 [Hc2 [Hkeep1 Hkeep2]]]]]]]]].
    destruct HR as [Hp [Hp0 [Hhi [Hcap [Hnull0 [Hnull [Hcap2 Hk]]]]]]].
    rewrite Ha. cbn [obind snd]. exists b1. split; [reflexivity|].
    unfold R. cbn [apos ahigh anull known]. rewrite Hp1.
    split; [reflexivity|]. split; [lia|]. split; [lia|]. split; [lia|].
    split; [intros Hx; apply Hnull1 in Hx; destruct Hx as [Hx1 ->]; specialize (Hnull0 Hx1); lia|].
    split; [rewrite andb_true_iff, Z.eqb_eq, <- Hnull; exact Hnull1|].
    split; [exact Hc2|]. intros i v. destruct ((apos s <=? i) && (i <? apos s + n)) eqn:Er; [discriminate|].
    intros Hv. specialize (Hk i v Hv). pose proof (znth_range _ _ _ _ Hk).
    destruct (Z.ltb_spec i (apos s)); [rewrite Hkeep1 by lia; exact Hk|]. rewrite Hkeep2 by lia. exact Hk.
  - destruct HR as [Hp [Hp0 [Hhi [Hcap [Hnull0 [Hnull [Hcap2 Hk]]]]]]].
    unfold wb_seek_rel. rewrite Hp. replace (0 <=? apos s + d) with true by lia.
    replace (apos s + d <=? zlen (wb_cells b)) with true by lia. cbn [assert obind].
    eexists. split; [reflexivity|]. unfold R. cbn [apos ahigh anull known wb_pos].
    unfold wb_cells. cbn [wb_data]. fold (wb_cells b). tauto.
  - destruct HR as [Hp [Hp0 [Hhi [Hcap [Hnull0 [Hnull [Hcap2 Hk]]]]]]].
    eexists. split; [reflexivity|]. unfold wb_reset, R. cbn [apos ahigh anull known wb_pos].
    unfold wb_cells. cbn [wb_data]. fold (wb_cells b). repeat split; auto; try lia; tauto.
Qed.

Lemma run_ok : forall fuel l b s, (64 <= fuel)%nat -> R b s -> a_all_ok s l ->
  exists b', wb_run fuel b l = Ok b' /\ R b' (a_run s l).
Proof.
  intros fuel l. induction l as [|o l IH]; intros b s Hf HR Hok; cbn [wb_run a_all_ok] in *.
  - exists b. auto.
  - destruct Hok as [H1 H2]. destruct (step_ok fuel b s o Hf HR H1) as [b1 [Hs HR1]].
    rewrite Hs. cbn [obind]. exact (IH b1 (a_step s o) Hf HR1 H2).
Qed.

Lemma R_new : forall cap, 2 <= cap < 4294967296 -> R (wb_new cap) (a_new false).
Proof.
  intros cap Hc. unfold R, wb_new, a_new, wb_cells. cbn [wb_pos wb_data apos ahigh anull known].
  rewrite zlen_new_block by lia. repeat split; try lia; try discriminate.
Qed.
Lemma R_default : R wb_default (a_new true).
Proof.
  unfold R, wb_default, a_new, wb_cells. cbn [wb_pos wb_data apos ahigh anull known]. rewrite zlen_nil.
  repeat split; try lia; try discriminate; try contradiction.
Qed.

Lemma history_ok : forall fuel b0 null l, (64 <= fuel)%nat ->
  (null = true /\ b0 = wb_default) \/ (null = false /\ exists cap, 2 <= cap < 4294967296 /\ b0 = wb_new cap) ->
  a_all_ok (a_new null) l ->
  exists b, wb_run fuel b0 l = Ok b /\
    GetBytesWritten b = apos (a_run (a_new null) l) /\
    GetBytesWritten b <= GetBytesAllocated b /\
    (forall i v, known (a_run (a_new null) l) i = Some v -> znth (wb_cells b) i = Some (Some v)).
Proof.
  intros fuel b0 null l Hf Hb Hok.
  assert (HR : R b0 (a_new null)).
  { destruct Hb as [[-> ->]|[-> [cap [Hc ->]]]]; [apply R_default|apply R_new; exact Hc]. }
  destruct (run_ok fuel l b0 _ Hf HR Hok) as [b [Hr HRb]]. exists b. split; [exact Hr|].
  destruct HRb as [Hp [Hp0 [Hhi [Hcap [Hnull0 [Hnull [Hcap2 Hk]]]]]]].
  unfold GetBytesWritten, GetBytesAllocated, u32. rewrite Hp, !Z.mod_small by lia.
  split; [reflexivity|]. split; [lia|exact Hk].
Qed.

(* ---- plain histories ---- *)
Definition reps (s : abuf) (L : list Z) : Prop :=
  apos s = zlen L /\ forall i, 0 <= i < zlen L -> known s i = znth L i.

Lemma reps_write : forall s L d, reps s L -> reps (a_write s d) (L ++ d).
Proof.
  intros s L d [H1 H2]. pose proof (zlen_nonneg _ L). pose proof (zlen_nonneg _ d). split.
  - unfold a_write. cbn [apos]. rewrite zlen_app. lia.
  - intros i Hi. rewrite zlen_app in Hi. unfold a_write. cbn [known]. rewrite H1.
    destruct ((zlen L <=? i) && (i <? zlen L + zlen d)) eqn:E.
    + rewrite znth_app_r by lia. reflexivity.
    + rewrite znth_app_l by lia. apply H2. lia.
Qed.

Lemma reps_run : forall l s L, Forall plain l -> reps s L -> reps (a_run s l) (contents L l).
Proof.
  induction l as [|o l IH]; intros s L Hp Hr; [exact Hr|]. inversion Hp as [|o' l' Hpo Hpl]; subst.
  unfold a_run. cbn [fold_left]. fold (a_run (a_step s o) l).
  destruct o; cbn [a_step contents plain] in *; try contradiction; apply IH; auto using reps_write.
  split; [reflexivity|]. intros i Hi. rewrite zlen_nil in Hi. lia.
Qed.

Lemma op_size_nonneg : forall o, plain o -> 0 <= op_size o.
Proof. intros o H. destruct o; cbn in *; try contradiction; try lia; try apply zlen_nonneg. Qed.

Lemma plain_all_ok : forall l s L, Forall plain l -> reps s L -> anull s = false ->
  zlen L + total_size l <= limit -> a_all_ok s l.
Proof.
  induction l as [|o l IH]; intros s L Hp Hr Hn Hl; cbn [a_all_ok]; [exact I|].
  inversion Hp as [|o' l' Hpo Hpl]; subst. cbn [total_size fold_right] in Hl. fold (total_size l) in Hl.
  assert (Ht : 0 <= total_size l).
  { clear - Hpl. induction l as [|o l IH]; [cbn; lia|]. inversion Hpl; subst. cbn [total_size fold_right].
    fold (total_size l). pose proof (op_size_nonneg o ltac:(assumption)). specialize (IH ltac:(assumption)). lia. }
  pose proof (proj1 Hr) as Hpos. pose proof (zlen_nonneg _ L).
  assert (HW : forall d, reps s L -> zlen L + (zlen d + total_size l) <= limit -> a_all_ok (a_write s d) l).
  { intros d Hr2 Hb. apply (IH _ (L ++ d)); auto using reps_write.
    - unfold a_write. cbn [anull]. rewrite Hn. reflexivity.
    - rewrite zlen_app. lia. }
  destruct o; cbn [plain a_ok a_step op_size] in *; try contradiction.
  - split; [split; [lia|rewrite Hn; discriminate]|auto].
  - split; [split; [auto|split; [lia|rewrite Hn; discriminate]]|auto].
  - split; [lia|]. apply HW; auto.
  - split; [exact I|]. apply (IH _ []).
    + exact Hpl.
    + split; [reflexivity|]. intros i Hi. rewrite zlen_nil in Hi. lia.
    + exact Hn.
    + rewrite zlen_nil. lia.
Qed.

Lemma firstn_cells_eq : forall (cells : list cell) L,
  (forall i v, znth L i = Some v -> znth cells i = Some (Some v)) -> zlen L <= zlen cells ->
  firstn (length L) cells = map Some L.
Proof.
  induction cells as [|c cells IH]; intros L H Hl.
  - rewrite zlen_nil in Hl. pose proof (zlen_nonneg _ L). assert (L = []) by (apply zlen_0_nil; lia). subst. reflexivity.
  - destruct L as [|a L]; [reflexivity|]. rewrite !zlen_cons in Hl. cbn [length firstn map]. f_equal.
    + specialize (H 0 a (znth_0 _ _ _)). rewrite znth_0 in H. congruence.
    + apply IH; [|lia]. intros i v Hi. pose proof (znth_range _ _ _ _ Hi).
      specialize (H (i + 1) v). rewrite !znth_cons in H by lia. replace (i + 1 - 1) with i in H by lia. auto.
Qed.

Lemma plain_history : forall fuel cap l, (64 <= fuel)%nat -> 2 <= cap < 4294967296 ->
  Forall plain l -> total_size l <= limit ->
  exists b, wb_run fuel (wb_new cap) l = Ok b /\
    GetBytesWritten b = zlen (contents [] l) /\
    firstn (length (contents [] l)) (wb_cells b) = map Some (contents [] l) /\
    wb_pos b = zlen (contents [] l).
Proof.
  intros fuel cap l Hf Hc Hp Ht.
  assert (Hreps0 : reps (a_new false) []).
  { split; [reflexivity|]. intros i Hi. rewrite zlen_nil in Hi. lia. }
  pose proof (plain_all_ok l (a_new false) [] Hp Hreps0 eq_refl ltac:(rewrite zlen_nil; lia)) as Hok.
  pose proof (reps_run l (a_new false) [] Hp Hreps0) as [Hr1 Hr2].
  destruct (run_ok fuel l _ _ Hf (R_new cap Hc) Hok) as [b [Hrun HR]].
  destruct HR as [Hpos [Hp0 [Hhi [Hcap [Hnull0 [Hnull [Hcap2 Hk]]]]]]].
  exists b. split; [exact Hrun|]. split.
  - unfold GetBytesWritten, u32. rewrite Hpos, Z.mod_small by lia. exact Hr1.
  - split; [|lia]. apply firstn_cells_eq; [|lia].
    intros i v Hi. apply Hk. pose proof (znth_range _ _ _ _ Hi). rewrite Hr2 by lia. exact Hi.
Qed.

(* ---- reading ---- *)
Lemma read_all_ok : forall chunks pre post, 
  rb_read_all (mk_rbuf (pre ++ concat chunks ++ post) false (zlen pre)) (map (@zlen cell) chunks) =
    Ok (chunks, mk_rbuf (pre ++ concat chunks ++ post) false (zlen pre + zlen (concat chunks))).
Proof.
  induction chunks as [|c chunks IH]; intros pre post; cbn [map rb_read_all concat].
  - rewrite zlen_nil. do 3 f_equal. lia.
  - unfold rb_read. cbn [rb_pos rb_data rb_null orb]. pose proof (zlen_nonneg _ pre).
    replace (zlen pre + zlen c <=? zlen (pre ++ (c ++ concat chunks) ++ post)) with true
      by (rewrite !zlen_app; pose proof (zlen_nonneg _ (concat chunks)); pose proof (zlen_nonneg _ post); lia).
    cbn [assert obind]. destruct (Z.ltb_spec (zlen pre) 0); [lia|]. cbn [obind fst snd].
    replace (pre ++ (c ++ concat chunks) ++ post) with ((pre ++ c) ++ concat chunks ++ post) by (rewrite <- !app_assoc; reflexivity).
    replace (zlen pre + zlen c) with (zlen (pre ++ c)) by (rewrite zlen_app; lia).
    rewrite IH. cbn [obind fst snd].
    assert (Hs : slice ((pre ++ c) ++ concat chunks ++ post) (zlen pre) (zlen c) = c).
    { rewrite <- app_assoc. apply slice_app_exact. }
    rewrite Hs. do 3 f_equal. rewrite !zlen_app. lia.
Qed.

Lemma contents_writes : forall chunks acc,
  contents acc (map WWrite chunks) = acc ++ concat chunks.
Proof.
  induction chunks as [|c chunks IH]; intros acc; cbn [map contents concat]; [rewrite app_nil_r; reflexivity|].
  rewrite IH, app_assoc. reflexivity.
Qed.
Lemma total_writes : forall chunks, total_size (map WWrite chunks) = zlen (concat chunks).
Proof.
  induction chunks as [|c chunks IH]; cbn [map concat]; [reflexivity|]. cbn [total_size fold_right op_size].
  fold (total_size (map WWrite chunks)). rewrite IH, zlen_app. reflexivity.
Qed.

Lemma write_read_ok : forall fuel cap chunks, (64 <= fuel)%nat -> 2 <= cap < 4294967296 ->
  zlen (concat chunks) <= limit ->
  exists b r, wb_run fuel (wb_new cap) (map WWrite chunks) = Ok b /\
    rb_read_all (rb_of_wb b) (map (@zlen Z) chunks) = Ok (map (map Some) chunks, r) /\
    GetBytesRemaining r = 0.
Proof.
  intros fuel cap chunks Hf Hc Hl.
  destruct (plain_history fuel cap (map WWrite chunks) Hf Hc) as [b [Hr [Hw [Hcells Hpos]]]].
  - apply Forall_forall. intros o Ho. apply in_map_iff in Ho. destruct Ho as [c [<- _]]. exact I.
  - rewrite total_writes. exact Hl.
  - rewrite contents_writes in *. cbn [app] in *.
    exists b. assert (Hrb : rb_of_wb b = mk_rbuf ([] ++ concat (map (map Some) chunks) ++ []) false (zlen (@nil cell))).
    { unfold rb_of_wb. rewrite Hw. replace (Z.to_nat (zlen (concat chunks))) with (length (concat chunks)) by (unfold zlen; lia).
      rewrite Hcells, concat_map. cbn [app]. rewrite app_nil_r. f_equal.
      destruct (wb_data b) eqn:Ed; [reflexivity|]. exfalso.
      clear - Hr Ed Hc Hf Hl.
      assert (HR : exists b', wb_run fuel (wb_new cap) (map WWrite chunks) = Ok b' /\ R b' (a_run (a_new false) (map WWrite chunks))).
      { apply run_ok; [exact Hf|apply R_new; exact Hc|].
        apply (plain_all_ok _ _ []).
        - apply Forall_forall. intros o Ho. apply in_map_iff in Ho. destruct Ho as [c [<- _]]. exact I.
        - split; [reflexivity|]. intros i Hi. rewrite zlen_nil in Hi. lia.
        - reflexivity.
        - rewrite total_writes, zlen_nil. lia. }
      destruct HR as [b' [Hb' HR]]. assert (b' = b) by congruence. subst b'.
      destruct HR as [_ [_ [_ [_ [_ [Hn _]]]]]]. apply Hn in Ed.
      assert (Hgen : forall l s, anull s = false -> anull (a_run s (map WWrite l)) = false).
      { clear. induction l as [|c l IH]; intros s H; [exact H|]. unfold a_run. cbn [map fold_left].
        apply IH. unfold a_step, a_write. cbn [anull]. rewrite H. reflexivity. }
      rewrite Hgen in Ed by reflexivity. discriminate. }
    rewrite Hrb. pose proof (read_all_ok (map (map Some) chunks) [] []) as Hrd.
    rewrite map_map in Hrd. replace (map (fun x => zlen (map Some x)) chunks) with (map (@zlen Z) chunks) in Hrd
      by (apply map_ext; intros; symmetry; apply zlen_map).
    rewrite Hrd. eexists. split; [exact Hr|]. split; [reflexivity|].
    unfold GetBytesRemaining. cbn [rb_data rb_pos app]. rewrite app_nil_r, zlen_nil.
    replace (zlen (concat (map (map Some) chunks)) - (0 + zlen (concat (map (map Some) chunks)))) with 0 by lia. reflexivity.
Qed.

Lemma read_trap_iff : forall r n, 0 <= rb_pos r -> rb_null r = false -> 0 <= n ->
  (rb_read r n = Trap <-> zlen (rb_data r) < rb_pos r + n) /\ rb_read r n <> UB.
Proof.
  intros r n H0 Hn Hn0. unfold rb_read. rewrite Hn. cbn [orb].
  destruct (Z.leb_spec (rb_pos r + n) (zlen (rb_data r))); cbn [assert obind].
  - destruct (Z.ltb_spec (rb_pos r) 0); [lia|]. split; [split; [discriminate|lia]|discriminate].
  - split; [split; [lia|reflexivity]|discriminate].
Qed.
