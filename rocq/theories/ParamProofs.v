From Coq Require Import Permutation.
From Verif Require Import Base BaseProofs DatabaseModel BufferModel BufferSpec BufferProofs JsonObjModel ParamModel ParamSpec.

Lemma rd_mid : forall A (a : list A) x b, rd (a ++ x :: b) (zlen a) = Ok x.
Proof.
  intros A a x b. unfold rd, znth, zlen. destruct (Z.ltb_spec (Z.of_nat (length a)) 0); [lia|]. rewrite Nat2Z.id, nth_error_app2, Nat.sub_diag by lia. reflexivity.
Qed.
Lemma wr_mid : forall A (a : list A) x b y, wr (a ++ x :: b) (zlen a) y = Ok (a ++ y :: b).
Proof.
  intros A a x b y. unfold wr. rewrite zlen_app, zlen_cons. pose proof (zlen_nonneg _ a). pose proof (zlen_nonneg _ b).
  replace ((0 <=? zlen a) && (zlen a <? zlen a + (1 + zlen b))) with true by lia. unfold zlen. rewrite Nat2Z.id.
  f_equal. f_equal; [rewrite firstn_app, Nat.sub_diag, firstn_all; cbn; apply app_nil_r|]. f_equal.
  rewrite skipn_app, skipn_all2 by lia. replace (S (length a) - length a)%nat with 1%nat by lia. reflexivity.
Qed.

Section Proofs.
Variable fuel : nat.
Hypothesis Hfuel : (64 <= fuel)%nat.
Variable E : list rtype.
Variable ctor dtor : nat -> option (Z -> list Z -> list Z).
Variable at_ : nat -> Z.
Notation space := (space E).
Notation space_of := (space_of E).
Notation placed := (placed E).
Notation known_type := (known_type E).

Lemma space_ok : forall p, known_type p -> ParamAllocSize E p = Ok (space p) /\ 0 <= space p < 2 ^ 32.
Proof.
  intros p [t [Ht Hs]]. unfold ParamAllocSize, ParamSpec.space, get_type. rewrite Ht. cbn [obind]. assert (u32 (rt_size t) = rt_size t) by (unfold u32; apply Z.mod_small; lia).
  destruct (pr_op p); cbn [is_pointer]; split; try lia; congruence.
Qed.
Lemma space_of_nonneg : forall ps, Forall known_type ps -> 0 <= space_of ps.
Proof. induction 1 as [|p ps Hp H IH]; cbn; [lia|]. fold (space_of ps). pose proof (space_ok p Hp). lia. Qed.
Lemma total_ok : forall ps n, Forall known_type ps -> 0 <= n -> n + space_of ps < 2 ^ 32 -> total_size_of E ps n = Ok (n + space_of ps).
Proof.
  intros ps n H. revert n. induction H as [|p ps Hp H IH]; intros n Hn Hl; [cbn; f_equal; lia|]. cbn [total_size_of]. destruct (space_ok p Hp) as [-> Hs]. cbn [obind].
  change (space_of (p :: ps)) with (space p + space_of ps) in *. pose proof (space_of_nonneg ps H). replace (u32 (n + space p)) with (n + space p) by (symmetry; unfold u32; apply Z.mod_small; lia).
  rewrite IH by lia. f_equal. lia.
Qed.
Lemma space_perm : forall a b, Permutation a b -> space_of a = space_of b.
Proof. induction 1; unfold ParamSpec.space_of in *; cbn [fold_right] in *; lia. Qed.
Lemma space_app : forall a b, space_of (a ++ b) = space_of a + space_of b.
Proof. induction a as [|p a IH]; intros b; [reflexivity|]. change (space p + space_of (a ++ b) = space p + space_of a + space_of b). rewrite IH. lia. Qed.
Lemma placed_app : forall a b x, placed x (a ++ b) = placed x a ++ placed (x + space_of a) b.
Proof. induction a as [|p a IH]; intros b x; cbn; [rewrite Z.add_0_r; reflexivity|]. fold (space_of a). rewrite IH, Z.add_assoc. reflexivity. Qed.

(* ---- the buffer ---- *)
Definition is_none {A} (o : option A) : bool := match o with None => true | Some _ => false end.
Definition buffer_ok (b : wbuf) : Prop := R b (mk_abuf (fun _ => None) (wb_pos b) (wb_pos b) (is_none (wb_data b))).
Definition cap (w : pworld) : Z := zlen (wb_cells (pw_data w)).
Definition held (w : pworld) : option (nat * Z) := match wb_data (pw_data w) with None => None | Some _ => Some (pw_block w, cap w) end.
Lemma held_base : forall w, base_of at_ w = address_of at_ (held w).
Proof. intros w. unfold base_of, held, address_of. destruct (wb_data (pw_data w)); reflexivity. Qed.
Lemma held_room : forall w, room_in (held w) = cap w.
Proof. intros w. unfold held, cap, wb_cells. destruct (wb_data (pw_data w)); reflexivity. Qed.
Definition with_data (w : pworld) (b : wbuf) : pworld := mk_pw b (pw_block w) (pw_descs w) (pw_nb w) (pw_mem w) (pw_log w).
Lemma alloc_room : forall w n, buffer_ok (pw_data w) -> 0 <= n -> wb_pos (pw_data w) + n <= cap w ->
  data_alloc fuel at_ w n = Ok (address_of at_ (held w) + wb_pos (pw_data w), with_data w (mk_wbuf (wb_data (pw_data w)) (wb_pos (pw_data w) + n))) /\
  buffer_ok (mk_wbuf (wb_data (pw_data w)) (wb_pos (pw_data w) + n)).
Proof.
  intros w n HR Hn Hc. unfold cap in Hc. split.
  - unfold data_alloc, wb_alloc. replace (wb_pos (pw_data w) + n >? zlen (wb_cells (pw_data w))) with false by lia. cbn [obind fst snd]. rewrite held_base. reflexivity.
  - destruct HR as [_ [H2 [H3 [H4 [H5 [H6 [H7 H8]]]]]]]. cbn [apos ahigh anull known] in *. unfold buffer_ok, R. cbn [apos ahigh anull known wb_pos wb_data]. unfold wb_cells in *. cbn [wb_data].
    repeat split; try lia; try tauto; try discriminate.
    intros Hd. rewrite Hd, zlen_nil in Hc. lia.
Qed.
(* an empty buffer grows to what is asked for *)
Lemma alloc_grow : forall w n, buffer_ok (pw_data w) -> wb_pos (pw_data w) = 0 -> cap w < n <= limit ->
  exists b, data_alloc fuel at_ w n = Ok (at_ (S (pw_block w)), mk_pw b (S (pw_block w)) (pw_descs w) (pw_nb w) (pw_mem w)
      (pw_log w ++ Allocated (S (pw_block w)) (zlen (wb_cells b)) :: match wb_data (pw_data w) with None => [] | Some _ => [Freed (pw_block w)] end)) /\
    buffer_ok b /\ wb_data b <> None /\ n <= zlen (wb_cells b).
Proof.
  intros w n HR Hp Hc. pose proof (zlen_nonneg _ (wb_cells (pw_data w))). unfold cap in Hc.
  destruct (alloc_ok fuel (pw_data w) _ n Hfuel HR ltac:(lia) ltac:(cbn [apos]; lia)) as [b [HA [H1 [H2 [H3 [H4 [H5 [H6 _]]]]]]]]. cbn [apos] in *.
  exists b. split; [|split; [|split]].
  - unfold data_alloc. rewrite HA. cbn [obind]. replace (wb_pos (pw_data w) + n >? zlen (wb_cells (pw_data w))) with true by lia. rewrite Hp. cbn [Z.eqb obind fst snd]. rewrite Z.add_0_r. reflexivity.
  - unfold buffer_ok, R. cbn [apos ahigh anull known]. rewrite H1. repeat split; try lia; try tauto; try discriminate.
    + intros Hd. apply H5 in Hd. lia.
    + destruct (wb_data b); cbn; congruence.
    + destruct (wb_data b); cbn; congruence.
  - intros Hd. apply H5 in Hd. lia.
  - lia.
Qed.
Lemma reset_ok : forall b, buffer_ok b -> buffer_ok (wb_reset b).
Proof.
  intros b [_ [H2 [H3 [H4 [H5 [H6 [H7 H8]]]]]]]. cbn [apos ahigh anull known] in *. unfold buffer_ok, R, wb_reset. cbn [apos ahigh anull known wb_pos wb_data]. unfold wb_cells in *. cbn [wb_data].
  pose proof (zlen_nonneg _ (match wb_data b with Some d => d | None => [] end)). repeat split; try lia; try tauto; try discriminate; destruct (wb_data b); cbn; congruence.
Qed.

(* ---- the parameters ---- *)
Definition desc (x : param * Z) : pdesc := mk_pdesc (pr_type (fst x)) (pr_op (fst x)) (snd x).
(* the cache holds these parameters *)
Definition holds (w : pworld) (l : list (param * Z)) : Prop :=
  pw_nb w = zlen l /\ exists rest, pw_descs w = map (fun x => Some (desc x)) l ++ rest /\ (length l + length rest = 16)%nat.
Lemma holds_get : forall w a x b, holds w (a ++ x :: b) -> zlen (a ++ x :: b) <= 15 -> GetParameter w (zlen a) = Ok (desc x).
Proof.
  intros w a x b [Hn [rest [Hd Hl]]] H15. unfold GetParameter. rewrite Hn. unfold MAX_NB_FIELDS. replace (zlen (a ++ x :: b) <? 16) with true by lia. cbn [assert obind].
  rewrite Hd, map_app, <- app_assoc. cbn [map app]. rewrite <- (zlen_map _ _ (fun x => Some (desc x)) a), rd_mid. reflexivity.
Qed.
Definition same_but (w w' : pworld) (events : list event) : Prop :=
  pw_data w' = pw_data w /\ pw_block w' = pw_block w /\ pw_descs w' = pw_descs w /\ pw_nb w' = pw_nb w /\ pw_log w' = pw_log w ++ events.
Lemma delete_ok : forall b a w, holds w (a ++ b) -> zlen (a ++ b) <= 15 ->
  exists w', delete_from dtor (length b) (zlen a) w = Ok w' /\ same_but w w' (destructions (objects dtor b)).
Proof.
  induction b as [|x b IH]; intros a w H H15.
  - exists w. split; [reflexivity|]. unfold same_but, destructions. cbn. rewrite app_nil_r. auto.
  - cbn [length delete_from]. rewrite (holds_get w a x b H H15). cbn [obind]. cbn [desc pd_op pd_type pd_object].
    match goal with |- exists w', delete_from _ _ _ ?w1 = _ /\ _ => set (w1' := w1) end.
    assert (HS : same_but w w1' (destructions (objects dtor [x]))).
    { subst w1'. unfold objects, same_but. cbn [flat_map]. destruct (pr_op (fst x)); cbn [is_pointer]; destruct (dtor (pr_type (fst x))); cbn; repeat split; try (rewrite app_nil_r); reflexivity. }
    destruct HS as [S1 [S2 [S3 [S4 S5]]]]. assert (HH : holds w1' ((a ++ [x]) ++ b)).
    { rewrite <- app_assoc. cbn [app]. destruct H as [Hn Hd]. split; [congruence|]. rewrite S3. exact Hd. }
    destruct (IH (a ++ [x]) w1' HH ltac:(rewrite <- app_assoc; exact H15)) as [w' [HD [T1 [T2 [T3 [T4 T5]]]]]]. exists w'. split.
    + rewrite zlen_app, zlen_cons, zlen_nil in HD. exact HD.
    + unfold same_but. repeat split; try congruence. rewrite T5, S5, <- app_assoc. f_equal. unfold destructions, objects. cbn [flat_map]. rewrite app_nil_r, map_app. reflexivity.
Qed.
Lemma DeleteObjects_ok : forall w l, holds w l -> zlen l <= 15 -> exists w', DeleteObjects dtor w = Ok w' /\ same_but w w' (destructions (objects dtor l)).
Proof. intros w l H H15. unfold DeleteObjects, GetNbParameters. destruct H as [Hn Hd]. rewrite Hn. unfold zlen. rewrite Nat2Z.id. apply (delete_ok l [] w); [split; assumption|exact H15]. Qed.

(* an initialised cache: the parameters l are in a block with room for more *)
Definition ready (w : pworld) (ps : list param) : Prop :=
  buffer_ok (pw_data w) /\ wb_pos (pw_data w) = space_of ps /\ space_of ps <= cap w /\ holds w (placed (address_of at_ (held w)) ps) /\ Forall known_type ps.
Lemma zlen_placed : forall ps x, zlen (placed x ps) = zlen ps.
Proof. induction ps as [|p ps IH]; intros x; [reflexivity|]. cbn [ParamSpec.placed]. rewrite !zlen_cons, IH. reflexivity. Qed.
(* Init after parameters l: they are destroyed, a block of the right size is there *)
Lemma Init_ok : forall w l f, buffer_ok (pw_data w) -> holds w l -> zlen l <= 15 -> Forall known_type f -> space_of f <= 2 ^ 31 ->
  exists w', poc_Init fuel E dtor at_ w f = Ok w' /\ ready w' [] /\ space_of f <= cap w' /\
    ((held w' = held w /\ space_of f <= cap w /\ pw_block w' = pw_block w /\ pw_log w' = pw_log w ++ destructions (objects dtor l)) \/
     (exists n, held w' = Some (S (pw_block w), n) /\ pw_block w' = S (pw_block w) /\
        pw_log w' = pw_log w ++ destructions (objects dtor l) ++ Allocated (S (pw_block w)) n :: match held w with None => [] | Some _ => [Freed (pw_block w)] end)).
Proof.
  intros w l f HB HH H15 Hf Hs. unfold poc_Init. destruct (DeleteObjects_ok w l HH H15) as [w1 [-> [S1 [S2 [S3 [S4 S5]]]]]]. cbn [obind]. pose proof (space_of_nonneg f Hf) as Hs0.
  rewrite (total_ok f 0) by (auto; lia). cbn [obind]. rewrite Z.add_0_l.
  assert (HB1 : buffer_ok (pw_data (data_reset w1))) by (cbn; rewrite S1; apply reset_ok; exact HB).
  assert (Hcap : cap (data_reset w1) = cap w) by (unfold cap, wb_cells; cbn; rewrite S1; reflexivity).
  assert (Hempty : forall w2, buffer_ok (pw_data w2) -> length (pw_descs w2) = 16%nat -> ready (params_reset (data_reset w2)) []).
  { intros w2 HB2 HL. pose proof (zlen_nonneg _ (wb_cells (pw_data w2))). unfold ready. split; [apply reset_ok; exact HB2|]. split; [reflexivity|]. split; [unfold cap, wb_cells in *; cbn; lia|].
    split; [|constructor]. split; [reflexivity|]. exists (pw_descs w2). split; [reflexivity|exact HL]. }
  assert (HL : length (pw_descs w) = 16%nat). { destruct HH as [_ [rest [-> Hl]]]. rewrite app_length, map_length. exact Hl. }
  destruct (Z.le_gt_cases (space_of f) (cap w)) as [Hc|Hc].
  - destruct (alloc_room (data_reset w1) (space_of f) HB1 Hs0) as [HA HB2]; [cbn [data_reset pw_data wb_reset wb_pos]; lia|]. rewrite HA. cbn [obind snd]. eexists. split; [reflexivity|].
    split; [apply Hempty; [exact HB2|cbn; congruence]|]. split; [unfold cap, wb_cells in *; cbn in *; rewrite S1; lia|]. left.
    split; [unfold held, cap, wb_cells; cbn; rewrite S1, S2; reflexivity|]. split; [lia|]. split; [exact S2|]. cbn. exact S5.
  - destruct (alloc_grow (data_reset w1) (space_of f) HB1 eq_refl) as [b [HA [HB2 [Hd Hn]]]]; [unfold limit; rewrite Hcap; lia|]. rewrite HA. cbn [obind snd]. eexists. split; [reflexivity|].
    split; [apply Hempty; [exact HB2|cbn; congruence]|]. split; [unfold cap, wb_cells in *; cbn; exact Hn|]. right. exists (zlen (wb_cells b)).
    split; [unfold held, cap, wb_cells; cbn; destruct (wb_data b); [rewrite S2; reflexivity|contradiction]|]. split; [cbn; rewrite S2; reflexivity|]. cbn. rewrite S1, S2, S5, <- app_assoc. f_equal. f_equal. f_equal. unfold held. destruct (wb_data (pw_data w)); reflexivity.
Qed.
(* allocating one more parameter *)
Lemma Alloc_ok : forall w ps p, ready w ps -> known_type p -> space_of ps + space p <= cap w -> (length ps <= 15)%nat ->
  exists w', AllocParameter fuel E ctor at_ w p = Ok (address_of at_ (held w) + space_of ps, w') /\ ready w' (ps ++ [p]) /\ held w' = held w /\ cap w' = cap w /\ pw_block w' = pw_block w /\
    pw_log w' = pw_log w ++ constructions (objects ctor [(p, address_of at_ (held w) + space_of ps)]) /\
    pw_mem w' = match pr_op p, ctor (pr_type p) with POINTER, _ | _, None => pw_mem w | _, Some run => run (address_of at_ (held w) + space_of ps) (pw_mem w) end.
Proof.
  intros w ps p [HB [Hp [Hc [HH Hk]]]] Hkp Hroom Hlen. unfold AllocParameter. destruct (space_ok p Hkp) as [-> Hs]. cbn [obind].
  destruct (alloc_room w (space p) HB ltac:(lia) ltac:(lia)) as [HA HB2]. rewrite HA. cbn [obind fst snd]. rewrite Hp in *.
  set (a := address_of at_ (held w) + space_of ps). match goal with |- exists w', (do w0 <- PushParameter ?w1 _; _) = _ /\ _ => set (w1' := w1) end.
  assert (HW : pw_data w1' = mk_wbuf (wb_data (pw_data w)) (space_of ps + space p) /\ pw_block w1' = pw_block w /\ pw_descs w1' = pw_descs w /\ pw_nb w1' = pw_nb w /\
     pw_log w1' = pw_log w ++ constructions (objects ctor [(p, a)]) /\ pw_mem w1' = match pr_op p, ctor (pr_type p) with POINTER, _ | _, None => pw_mem w | _, Some run => run a (pw_mem w) end).
  { subst w1'. unfold objects. cbn [flat_map fst snd]. destruct (pr_op p); cbn [is_pointer]; destruct (ctor (pr_type p)); cbn; repeat split; try (rewrite app_nil_r); reflexivity. }
  destruct HW as [W1 [W2 [W3 [W4 [W5 W6]]]]]. destruct HH as [Hn [rest [Hd Hl]]]. rewrite zlen_placed in Hn.
  assert (Hpl : length (placed (address_of at_ (held w)) ps) = length ps). { pose proof (zlen_placed ps (address_of at_ (held w))) as Hz. unfold zlen in Hz. lia. }
  destruct rest as [|r0 rest]; [cbn in Hl; lia|]. unfold PushParameter. rewrite W4, Hn. unfold MAX_NB_FIELDS. replace (zlen ps <? 16) with true by (unfold zlen; lia). cbn [assert obind].
  rewrite W3, Hd. rewrite <- (zlen_placed ps (address_of at_ (held w))), <- (zlen_map _ _ (fun x => Some (desc x))), wr_mid. cbn [obind].
  assert (HHD : held (mk_pw (pw_data w1') (pw_block w1') (map (fun x => Some (desc x)) (placed (address_of at_ (held w)) ps) ++ Some (mk_pdesc (pr_type p) (pr_op p) a) :: rest) (u32 (zlen (map (fun x => Some (desc x)) (placed (address_of at_ (held w)) ps)) + 1)) (pw_mem w1') (pw_log w1')) = held w).
  { unfold held, cap, wb_cells. cbn [pw_data pw_block]. rewrite W1, W2. reflexivity. }
  eexists. split; [reflexivity|]. split; [|split; [exact HHD|split; [unfold cap, wb_cells; cbn [pw_data]; rewrite W1; reflexivity|split; [exact W2|split; [exact W5|exact W6]]]]].
  unfold ready. rewrite HHD. cbn [pw_data]. rewrite W1. split; [exact HB2|]. split; [rewrite space_app; cbn; lia|]. split; [unfold cap, wb_cells in *; cbn [pw_data wb_data]; rewrite space_app; cbn; lia|].
  split; [|apply Forall_app; split; [exact Hk|constructor; [exact Hkp|constructor]]]. split.
  - cbn [pw_nb]. rewrite zlen_map, !zlen_placed, zlen_app, zlen_cons, zlen_nil. unfold u32. rewrite Z.mod_small; [lia|]. unfold zlen. lia.
  - exists rest. cbn [pw_descs]. rewrite placed_app. cbn [ParamSpec.placed]. rewrite map_app, <- app_assoc. split; [reflexivity|]. rewrite app_length. cbn [length] in *. lia.
Qed.
Lemma objects_app : forall h a b, objects h (a ++ b) = objects h a ++ objects h b.
Proof. intros. unfold objects. apply flat_map_app. Qed.
Lemma alloc_all_ok : forall l w ps, ready w ps -> Forall known_type (map fst l) -> space_of ps + space_of (map fst l) <= cap w -> (length ps + length l <= 16)%nat ->
  exists w', alloc_all fuel E ctor at_ l w = Ok w' /\ ready w' (ps ++ map fst l) /\ held w' = held w /\ pw_block w' = pw_block w /\
    pw_log w' = pw_log w ++ constructions (objects ctor (placed (address_of at_ (held w) + space_of ps) (map fst l))).
Proof.
  induction l as [|[p g] l IH]; intros w ps HR Hk Hs Hl.
  - exists w. cbn. rewrite !app_nil_r. auto.
  - cbn [map fst] in *. inversion Hk as [|? ? Hkp Hkl]; subst. change (space_of (p :: map fst l)) with (space p + space_of (map fst l)) in Hs. pose proof (space_of_nonneg _ Hkl). cbn [length] in Hl.
    destruct (Alloc_ok w ps p HR Hkp ltac:(lia) ltac:(lia)) as [w1 [HA [HR1 [Hh [Hc [Hb [Hlog _]]]]]]]. cbn [alloc_all]. rewrite HA. cbn [obind snd].
    match goal with |- exists w', alloc_all _ _ _ _ _ ?w2 = _ /\ _ => set (w2' := w2) end.
    destruct (IH w2' (ps ++ [p])) as [w' [HA2 [HR2 [Hh2 [Hb2 Hlog2]]]]].
    { exact HR1. }
    { exact Hkl. }
    { change (cap w2') with (cap w1). rewrite space_app, Hc. cbn. lia. }
    { rewrite app_length. cbn [length]. lia. }
    exists w'. split; [exact HA2|]. rewrite <- app_assoc in HR2. split; [exact HR2|]. change (held w2') with (held w1) in *. split; [congruence|]. split; [rewrite Hb2; exact Hb|].
    rewrite Hlog2. change (pw_log w2') with (pw_log w1). rewrite Hlog, <- app_assoc, Hh, space_app. f_equal. cbn [ParamSpec.placed].
    replace (address_of at_ (held w) + (space_of ps + space_of [p])) with (address_of at_ (held w) + space_of ps + space p) by (cbn; lia).
    unfold constructions, objects. cbn [flat_map]. rewrite app_nil_r, map_app. reflexivity.
Qed.

Definition parameters_of (w : pworld) (l : list (param * Z)) : Prop := buffer_ok (pw_data w) /\ holds w l /\ zlen l <= 15 /\ (match held w with None => pw_block w = O | Some _ => True end).
Lemma rounds_ok : forall rounds w l, parameters_of w l -> Forall (round_ok E) rounds ->
  exists w', run_rounds fuel E ctor dtor at_ rounds w = Ok w' /\ (exists l', parameters_of w' l') /\
  exists w'' events, poc_destroy dtor w' = Ok w'' /\ history E ctor dtor at_ (held w) rounds events /\ pw_log w'' = pw_log w ++ destructions (objects dtor l) ++ events.
Proof.
  induction rounds as [|r rest IH]; intros w l [HB [HH [H15 Hnull]]] Hok.
  - exists w. split; [reflexivity|]. split; [exists l; unfold parameters_of; auto|]. unfold poc_destroy. destruct (DeleteObjects_ok w l HH H15) as [w1 [-> [S1 [S2 [S3 [S4 S5]]]]]]. cbn [obind]. rewrite S1. unfold held.
    destruct (wb_data (pw_data w)).
    + eexists. exists [Freed (pw_block w)]. split; [reflexivity|]. split; [apply hist_end|]. cbn. rewrite S5, S2, <- app_assoc. reflexivity.
    + exists w1, []. split; [reflexivity|]. split; [apply hist_none|]. rewrite S5, app_nil_r. reflexivity.
  - inversion Hok as [|? ? [Hk [Hs [[others HP] Hl]]] Hrest]; subst. cbn [run_rounds]. destruct (Init_ok w l (rd_function r) HB HH H15 Hk Hs) as [w1 [-> [HR1 [Hc1 Hcase]]]]. cbn [obind].
    assert (HkA : Forall known_type (map fst (rd_allocated r)) /\ Forall known_type others).
    { apply Forall_app. eapply Permutation_Forall; [apply Permutation_sym; exact HP|exact Hk]. }
    destruct HkA as [HkA HkO]. assert (HsA : space_of (map fst (rd_allocated r)) <= space_of (rd_function r)).
    { rewrite <- (space_perm _ _ HP), space_app. pose proof (space_of_nonneg _ HkO). lia. }
    destruct (alloc_all_ok (rd_allocated r) w1 [] HR1 HkA) as [w2 [-> [HR2 [Hh2 [Hb2 Hlog2]]]]]; [cbn; lia|cbn [length]; lia|]. cbn [obind]. cbn [app] in HR2.
    destruct HR2 as [R1 [R2 [R3 [R4 R5]]]]. rewrite Hh2 in R4. cbn [ParamSpec.space_of fold_right] in Hlog2. rewrite Z.add_0_r in Hlog2.
    destruct (IH w2 (placed (address_of at_ (held w1)) (map fst (rd_allocated r)))) as [w' [HRun [HPar [w'' [events [HD [HHist HLog]]]]]]].
    { split; [exact R1|]. split; [exact R4|]. split; [rewrite zlen_placed, zlen_map; unfold zlen; lia|]. rewrite Hh2, Hb2. destruct Hcase as [[C1 [C2 [C3 C4]]]|[n [C1 _]]]; [rewrite C1, C3; exact Hnull|rewrite C1; exact I]. }
    { exact Hrest. }
    exists w'. split; [exact HRun|]. split; [exact HPar|]. rewrite Hh2 in HHist. destruct Hcase as [[C1 [C2 [C3 C4]]]|[n [C1 [C3 C4]]]].
    + exists w'', (constructions (objects ctor (placed (address_of at_ (held w)) (map fst (rd_allocated r)))) ++ destructions (objects dtor (placed (address_of at_ (held w)) (map fst (rd_allocated r)))) ++ events).
      split; [exact HD|]. split; [apply hist_keep; [rewrite held_room; exact C2|rewrite <- C1; exact HHist]|]. rewrite HLog, Hlog2, C4, C1, <- !app_assoc. reflexivity.
    + exists w'', (Allocated (S (pw_block w)) n :: match held w with None => [] | Some (j, _) => [Freed j] end ++ constructions (objects ctor (placed (at_ (S (pw_block w))) (map fst (rd_allocated r)))) ++ destructions (objects dtor (placed (at_ (S (pw_block w))) (map fst (rd_allocated r)))) ++ events).
      split; [exact HD|]. split; [apply hist_grow; [|unfold held; destruct (wb_data (pw_data w)); [lia|exact I]|rewrite <- C1; exact HHist]|].
      * pose proof (held_room w1) as Hr. rewrite C1 in Hr. cbn in Hr. lia.
      * rewrite HLog, Hlog2, C4, C1. cbn [address_of]. rewrite <- !app_assoc. f_equal. f_equal. cbn [app]. f_equal. unfold held. destruct (wb_data (pw_data w)); reflexivity.
Qed.
Lemma new_ok : forall mem, parameters_of (poc_new mem) [].
Proof.
  intros mem. unfold parameters_of. split; [|split; [|split; [rewrite zlen_nil; lia|reflexivity]]].
  - cbn. unfold buffer_ok, R. cbn. repeat split; try lia; try discriminate; congruence.
  - split; [reflexivity|]. exists (repeat None (Z.to_nat MAX_NB_FIELDS)). split; reflexivity.
Qed.

(* ---- lifetimes ---- *)
Hypothesis Hpair : forall ty, ctor ty = None <-> dtor ty = None.
Lemma objects_same : forall l, objects ctor l = objects dtor l.
Proof.
  induction l as [|[p a] l IH]; [reflexivity|]. unfold objects in *. cbn [flat_map fst snd]. rewrite IH. f_equal. pose proof (Hpair (pr_type p)) as H.
  destruct (pr_op p); [|reflexivity|]; destruct (ctor (pr_type p)), (dtor (pr_type p)); try reflexivity; exfalso; destruct H as [H1 H2]; [specialize (H2 eq_refl)|specialize (H1 eq_refl)|specialize (H2 eq_refl)|specialize (H1 eq_refl)]; discriminate.
Qed.
Lemma placed_above : forall ps x p a, Forall (fun p => 0 < space p) ps -> In (p, a) (placed x ps) -> x <= a.
Proof.
  intros ps x p a H. revert x. induction H as [|q ps Hq H IH]; intros x Hi; [contradiction|]. destruct Hi as [He|Hi]; [injection He as _ ->; lia|]. specialize (IH _ Hi). lia.
Qed.
Lemma placed_nodup : forall ps x, Forall (fun p => 0 < space p) ps -> NoDup (objects dtor (placed x ps)).
Proof.
  intros ps x H. revert x. induction H as [|q ps Hq H IH]; intros x; [constructor|]. unfold objects in *. cbn [ParamSpec.placed flat_map fst snd].
  assert (HN : ~ In (pr_type q, x) (flat_map (fun x => match pr_op (fst x), dtor (pr_type (fst x)) with POINTER, _ | _, None => [] | _, Some _ => [(pr_type (fst x), snd x)] end) (placed (x + space q) ps))).
  { intros Hi. apply in_flat_map in Hi. destruct Hi as [[p a] [Hi Hx]]. pose proof (placed_above _ _ _ _ H Hi). cbn [fst snd] in Hx. destruct (pr_op p); [|contradiction|]; destruct (dtor (pr_type p)); try contradiction; destruct Hx as [He|[]]; injection He as _ ->; lia. }
  destruct (pr_op q); [|apply IH|]; destruct (dtor (pr_type q)); try apply IH; constructor; [exact HN|apply IH|exact HN|apply IH].
Qed.
Lemma life_destroy_all : forall l r, NoDup l -> lifetimes [] r -> lifetimes l (destructions l ++ r).
Proof. induction l as [|[ty a] l IH]; intros r HN H; [exact H|]. inversion HN; subst. cbn. apply (life_destroy [] l); [assumption|]. apply IH; assumption. Qed.
Lemma life_perm : forall live r, lifetimes live r -> forall live', Permutation live live' -> lifetimes live' r.
Proof.
  induction 1 as [|live ty a r Hn H IH|l1 l2 ty a r Hn H IH|k n r H IH|k r H IH]; intros live' HP.
  - apply Permutation_nil in HP. subst. constructor.
  - constructor; [intros Hi; apply Hn; eapply Permutation_in; [apply Permutation_sym; exact HP|exact Hi]|]. apply IH. constructor. exact HP.
  - assert (Hi : In (ty, a) live') by (eapply Permutation_in; [exact HP|apply in_or_app; right; left; reflexivity]). apply in_split in Hi. destruct Hi as [m1 [m2 ->]].
    assert (HP2 : Permutation (l1 ++ l2) (m1 ++ m2)) by (eapply Permutation_app_inv; exact HP). constructor; [|apply IH; exact HP2]. intros Hi. apply Hn. eapply Permutation_in; [apply Permutation_sym; exact HP2|exact Hi].
  - apply Permutation_nil in HP. subst. constructor. exact H.
  - apply Permutation_nil in HP. subst. constructor. exact H.
Qed.
Lemma life_construct_all : forall l live r, NoDup (l ++ live) -> lifetimes (l ++ live) r -> lifetimes live (constructions l ++ r).
Proof.
  induction l as [|[ty a] l IH]; intros live r HN H; [exact H|]. cbn [app constructions map fst snd] in *. inversion HN as [|? ? Hni HN2]; subst. constructor; [intros Hi; apply Hni; apply in_or_app; right; exact Hi|].
  apply IH; [|eapply life_perm; [exact H|apply Permutation_middle]]. eapply Permutation_NoDup; [apply Permutation_middle|]. exact HN.
Qed.
Lemma life_round : forall ps x r, Forall (fun p => 0 < space p) ps -> lifetimes [] r ->
  lifetimes [] (constructions (objects ctor (placed x ps)) ++ destructions (objects dtor (placed x ps)) ++ r).
Proof.
  intros ps x r H Hr. pose proof (placed_nodup ps x H) as HN. rewrite objects_same. apply life_construct_all; rewrite app_nil_r; [exact HN|]. apply life_destroy_all; assumption.
Qed.
Lemma history_lifetimes : forall h rounds events, history E ctor dtor at_ h rounds events -> Forall (fun r => Forall (fun p => 0 < space p) (map fst (rd_allocated r))) rounds -> lifetimes [] events.
Proof.
  induction 1 as [|k n|h r rest ev Hs objs H IH|h k n r rest ev Hs Hk objs H IH]; intros HF.
  - constructor.
  - constructor. constructor.
  - inversion HF; subst. apply life_round; auto.
  - inversion HF; subst. constructor. destruct h as [[j m]|]; cbn [app]; [constructor|]; apply life_round; auto.
Qed.
End Proofs.
