(* Specification and lemmas for HashModel.v *)
From Verif Require Import Base BaseProofs HashModel HashSpec.
Ltac Zify.zify_post_hook ::= Z.div_mod_to_equations.



(* ------------------------------------------------------------------ *)
Lemma u32_range : forall z, is_u32 (u32 z).
Proof. intros; unfold is_u32, u32; lia. Qed.
Lemma u32_small : forall z, is_u32 z -> u32 z = z.
Proof. intros; unfold is_u32, u32 in *; lia. Qed.

Lemma land_disjoint : forall a b n, 0 <= n -> 0 <= b < 2 ^ n -> a mod 2 ^ n = 0 -> Z.land a b = 0.
Proof.
  intros a b n Hn Hb Ha.
  apply Z.bits_inj'. intros i Hi. rewrite Z.land_spec, Z.bits_0.
  destruct (Z.ltb_spec i n).
  - rewrite <- (Z.mod_pow2_bits_low a n i) by lia. rewrite Ha, Z.bits_0. reflexivity.
  - replace (Z.testbit b i) with false; [apply andb_false_r|].
    symmetry. destruct (Z.eq_dec b 0) as [->|]; [apply Z.bits_0|].
    apply Z.bits_above_log2; [lia|]. apply Z.log2_lt_pow2; [lia|].
    apply Z.lt_le_trans with (2 ^ n); [lia|]. apply Z.pow_le_mono_r; lia.
Qed.
Lemma lor_disjoint_add : forall a b n, 0 <= n -> 0 <= b < 2 ^ n -> a mod 2 ^ n = 0 ->
  Z.lor a b = a + b.
Proof.
  intros a b n Hn Hb Ha.
  pose proof (land_disjoint a b n Hn Hb Ha) as Hl.
  rewrite <- Z.lxor_lor by exact Hl. symmetry. apply Z.add_nocarry_lxor. exact Hl.
Qed.

Lemma rotl_rol : forall v r, is_u32 v -> 0 < r < 32 -> rotl v r = rol v r.
Proof.
  intros v r Hv Hr. unfold rotl, rol, u32, W.
  rewrite Z.shiftl_mul_pow2, Z.shiftr_div_pow2 by lia.
  change (2 ^ 32) with 4294967296.
  apply lor_disjoint_add with (n := r); [lia| |].
  - unfold is_u32 in Hv.
    assert (0 < 2 ^ (32 - r)) by (apply Z.pow_pos_nonneg; lia).
    split; [apply Z.div_pos; lia|].
    apply Z.div_lt_upper_bound; [lia|]. rewrite <- Z.pow_add_r by lia.
    replace (32 - r + r) with 32 by lia. change (2^32) with 4294967296. lia.
  - change 4294967296 with (2 ^ 32). replace 32 with (r + (32 - r)) by lia.
    rewrite Z.pow_add_r by lia.
    assert (0 < 2 ^ r) by (apply Z.pow_pos_nonneg; lia).
    assert (0 < 2 ^ (32 - r)) by (apply Z.pow_pos_nonneg; lia).
    rewrite (Z.mul_comm v). rewrite Z.mul_mod_distr_l by lia.
    rewrite Z.mul_comm. apply Z.mod_mul. lia.
Qed.

Lemma rol_range : forall v r, is_u32 v -> 0 < r < 32 -> is_u32 (rol v r).
Proof.
  intros v r Hv Hr. rewrite <- rotl_rol by auto. unfold rotl, is_u32 in *.
  assert (0 < 2 ^ (32 - r)) by (apply Z.pow_pos_nonneg; lia).
  assert (Hs : 0 <= Z.shiftr v (32 - r) < 2 ^ 32).
  { rewrite Z.shiftr_div_pow2 by lia. split; [apply Z.div_pos; lia|].
    apply Z.div_lt_upper_bound; [lia|]. change (2^32) with 4294967296. nia. }
  assert (Hu : 0 <= u32 (Z.shiftl v r) < 2 ^ 32) by (change (2^32) with 4294967296; unfold u32; lia).
  split; [apply Z.lor_nonneg; lia|].
  change 4294967296 with (2 ^ 32).
  destruct (Z.eq_dec (Z.lor (u32 (Z.shiftl v r)) (Z.shiftr v (32 - r))) 0) as [->|Hne]; [lia|].
  assert (0 <= Z.lor (u32 (Z.shiftl v r)) (Z.shiftr v (32 - r))) by (apply Z.lor_nonneg; lia).
  apply Z.log2_lt_pow2; [lia|]. rewrite Z.log2_lor by lia.
  assert (Hl : forall x, 0 <= x < 2 ^ 32 -> Z.log2 x < 32).
  { intros x Hx. destruct (Z.eq_dec x 0) as [->|]; [cbn; lia|]. apply Z.log2_lt_pow2; lia. }
  pose proof (Hl _ Hs). pose proof (Hl _ Hu). lia.
Qed.

Lemma lxor_range : forall a b, is_u32 a -> is_u32 b -> is_u32 (Z.lxor a b).
Proof.
  intros a b Ha Hb. unfold is_u32 in *.
  assert (0 <= Z.lxor a b) by (apply Z.lxor_nonneg; lia).
  split; [lia|]. change 4294967296 with (2 ^ 32).
  destruct (Z.eq_dec (Z.lxor a b) 0) as [->|]; [lia|].
  apply Z.log2_lt_pow2; [lia|].
  assert (Hl : forall x, 0 <= x < 4294967296 -> Z.log2 x < 32).
  { intros x Hx. destruct (Z.eq_dec x 0) as [->|]; [cbn; lia|]. apply Z.log2_lt_pow2; [lia|exact (proj2 Hx)]. }
  pose proof (Z.log2_lxor a b ltac:(lia) ltac:(lia)). pose proof (Hl _ Ha). pose proof (Hl _ Hb). lia.
Qed.

Lemma lxor_disjoint_add : forall a b n, 0 <= n -> 0 <= b < 2 ^ n -> a mod 2 ^ n = 0 ->
  Z.lxor a b = a + b.
Proof.
  intros a b n Hn Hb Ha. symmetry. apply Z.add_nocarry_lxor. eapply land_disjoint; eauto.
Qed.

Lemma mul_range : forall a b, is_u32 (mul a b).
Proof. intros; unfold is_u32, mul, W; change (2^32) with 4294967296; lia. Qed.

Lemma scramble_range : forall k, is_u32 (scramble k).
Proof. intros; apply mul_range. Qed.

Lemma scramble_eq : forall k, u32 (rotl (u32 (k * c1)) 15 * c2) = scramble k.
Proof.
  intros k. unfold scramble. rewrite rotl_rol by (try apply u32_range; lia).
  reflexivity.
Qed.

Lemma tail_step_eq : forall h k, tail_step h k = Z.lxor h (scramble k).
Proof. intros. unfold tail_step. rewrite scramble_eq. reflexivity. Qed.

Lemma round_range : forall h k, is_u32 (round h k).
Proof. intros; unfold is_u32, round, W; change (2^32) with 4294967296; lia. Qed.

Lemma body_step_eq : forall h k, is_u32 h -> body_step h k = round h k.
Proof.
  intros h k Hh. unfold body_step. rewrite scramble_eq.
  unfold round. rewrite rotl_rol by (try apply lxor_range; auto using scramble_range; lia).
  reflexivity.
Qed.

Lemma fmix_final : forall h, fmix h = final h.
Proof.
  intros h. unfold fmix, final, xsh, mul, W. rewrite !Z.shiftr_div_pow2 by lia. reflexivity.
Qed.

Lemma div_u32 : forall h s, 0 <= s -> is_u32 h -> is_u32 (h / 2 ^ s).
Proof.
  intros h s Hs Hh. unfold is_u32 in *. assert (0 < 2 ^ s) by (apply Z.pow_pos_nonneg; lia).
  split; [apply Z.div_pos; lia|]. apply Z.div_lt_upper_bound; nia.
Qed.
Lemma xsh_range : forall s h, 0 <= s -> is_u32 h -> is_u32 (xsh s h).
Proof. intros. unfold xsh. apply lxor_range; auto. apply div_u32; auto. Qed.
Lemma final_range : forall h, is_u32 h -> is_u32 (final h).
Proof. intros. unfold final. apply xsh_range; [lia|]. apply mul_range. Qed.

(* recursion principle four bytes at a time *)
Lemma list4_ind : forall (A : Type) (P : list A -> Prop),
  P [] -> (forall a, P [a]) -> (forall a b, P [a; b]) -> (forall a b c, P [a; b; c]) ->
  (forall a b c d r, P r -> P (a :: b :: c :: d :: r)) -> forall l, P l.
Proof.
  intros A P H0 H1 H2 H3 H4.
  fix IH 1. intros [|a [|b [|c [|d r]]]]; [exact H0|apply H1|apply H2|apply H3|apply H4; apply IH].
Qed.

Lemma blocks_range : forall key h, is_u32 h -> is_u32 (blocks key h).
Proof.
  induction key using list4_ind; intros h Hh; cbn [blocks]; auto using lxor_range, scramble_range.
  apply IHkey. apply round_range.
Qed.

(* running the modelled body and tail over the block-aligned suffix *)
Lemma hash_suffix : forall key, Forall is_byte key -> forall data pre rest h,
  data = pre ++ key ++ rest -> zlen pre mod 4 = 0 -> is_u32 h ->
  (do h1 <- body data (zlen pre / 4 + zlen key / 4) (Z.to_nat (zlen key / 4)) h;
   tail data ((zlen pre / 4 + zlen key / 4) * 4) (zlen key mod 4) h1) = Ok (blocks key h).
Proof.
  induction key as [|b0|b0 b1|b0 b1 b2|b0 b1 b2 b3 r IH] using list4_ind;
    intros HF data pre rest h Hd Hp Hh.
  - cbn. reflexivity.
  - replace (zlen [b0] / 4) with 0 by reflexivity. change (Z.to_nat 0) with O. cbn [body obind].
    change (zlen [b0] mod 4) with 1. unfold tail. cbn [Z.eqb Pos.eqb].
    replace ((zlen pre / 4 + 0) * 4) with (zlen pre) by lia.
    unfold rd. rewrite Hd, znth_app_r by lia. rewrite Z.sub_diag. cbn [app]. rewrite znth_0. cbn [obind].
    rewrite tail_step_eq. cbn [blocks]. rewrite Z.lxor_0_l. reflexivity.
  - replace (zlen [b0;b1] / 4) with 0 by reflexivity. change (Z.to_nat 0) with O. cbn [body obind].
    change (zlen [b0;b1] mod 4) with 2. unfold tail. cbn [Z.eqb Pos.eqb].
    replace ((zlen pre / 4 + 0) * 4) with (zlen pre) by lia.
    unfold rd. rewrite Hd, !(znth_app_r _ pre) by lia. rewrite Z.sub_diag.
    replace (zlen pre + 1 - zlen pre) with 1 by lia. cbn [app].
    rewrite znth_cons by lia. change (1 - 1) with 0. rewrite !znth_0. cbn [obind].
    rewrite tail_step_eq. cbn [blocks]. rewrite Z.lxor_0_l.
    inversion HF as [|? ? B0 HF1]; subst. inversion HF1 as [|? ? B1 ?]; subst. unfold is_byte in *.
    rewrite Z.shiftl_mul_pow2 by lia.
    rewrite (lxor_disjoint_add (b1 * 2 ^ 8) b0 8) by (change (2^8) with 256; lia).
    do 3 f_equal. lia.
  - replace (zlen [b0;b1;b2] / 4) with 0 by reflexivity. change (Z.to_nat 0) with O. cbn [body obind].
    change (zlen [b0;b1;b2] mod 4) with 3. unfold tail. cbn [Z.eqb Pos.eqb].
    replace ((zlen pre / 4 + 0) * 4) with (zlen pre) by lia.
    unfold rd. rewrite Hd, !(znth_app_r _ pre) by lia. rewrite Z.sub_diag.
    replace (zlen pre + 1 - zlen pre) with 1 by lia. replace (zlen pre + 2 - zlen pre) with 2 by lia. cbn [app].
    change (znth (b0 :: b1 :: b2 :: rest) 2) with (Some b2). change (znth (b0 :: b1 :: b2 :: rest) 1) with (Some b1). rewrite !znth_0. cbn [obind].
    rewrite tail_step_eq. cbn [blocks]. rewrite Z.lxor_0_l.
    inversion HF as [|? ? B0 HF1]; subst. inversion HF1 as [|? ? B1 HF2]; subst. inversion HF2 as [|? ? B2 ?]; subst.
    unfold is_byte in *.
    rewrite !Z.shiftl_mul_pow2 by lia.
    rewrite (lxor_disjoint_add (b2 * 2 ^ 16) (b1 * 2 ^ 8) 16) by (change (2^8) with 256; change (2^16) with 65536; lia).
    rewrite (lxor_disjoint_add (b2 * 2 ^ 16 + b1 * 2 ^ 8) b0 8) by (change (2^8) with 256; change (2^16) with 65536; lia).
    do 3 f_equal. lia.
  - assert (Hz : zlen (b0 :: b1 :: b2 :: b3 :: r) = zlen r + 4) by (rewrite !zlen_cons; lia).
    pose proof (zlen_nonneg _ r) as Hr. pose proof (zlen_nonneg _ pre) as Hpre.
    rewrite Hz. replace ((zlen r + 4) / 4) with (zlen r / 4 + 1) by lia.
    replace ((zlen r + 4) mod 4) with (zlen r mod 4) by lia.
    replace (Z.to_nat (zlen r / 4 + 1)) with (S (Z.to_nat (zlen r / 4))) by lia.
    cbn [body]. unfold rd_block.
    rewrite Hd.
    change ((b0 :: b1 :: b2 :: b3 :: r) ++ rest) with ([b0;b1;b2;b3] ++ (r ++ rest)).
    rewrite (rd_bytes_app pre [b0;b1;b2;b3] (r ++ rest)); [|lia|reflexivity]. cbn [obind].
    rewrite body_step_eq by exact Hh.
    specialize (IH ltac:(inversion HF as [|? ? ? HF1]; inversion HF1 as [|? ? ? HF2]; inversion HF2 as [|? ? ? HF3]; inversion HF3; assumption)
      data (pre ++ [b0;b1;b2;b3]) rest (round h (b0 + b1 * 2^8 + b2 * 2^16 + b3 * 2^24))).
    rewrite zlen_app in IH. change (zlen [b0;b1;b2;b3]) with 4 in IH.
    specialize (IH ltac:(rewrite Hd, <- app_assoc; reflexivity) ltac:(lia) (round_range _ _)).
    replace ((zlen pre + 4) / 4 + zlen r / 4) with (zlen pre / 4 + (zlen r / 4 + 1)) in IH by lia.
    rewrite Hd in IH. cbn [blocks]. rewrite <- IH. 
    replace (le_val [b0; b1; b2; b3]) with (b0 + b1 * 2 ^ 8 + b2 * 2 ^ 16 + b3 * 2 ^ 24)
      by (cbn [le_val]; change (2^8) with 256; change (2^16) with 65536; change (2^24) with 16777216; lia).
    reflexivity.
Qed.

Lemma land3_mod : forall n, Z.land n 3 = n mod 4.
Proof. intros. change 3 with (Z.ones 2). rewrite Z.land_ones by lia. reflexivity. Qed.

Lemma murmur_correct : forall key rest seed, Forall is_byte key -> is_u32 seed ->
  MurmurHash3 (key ++ rest) (zlen key) seed = Ok (hash32 key seed).
Proof.
  intros key rest seed HF Hs. unfold MurmurHash3.
  rewrite land3_mod.
  pose proof (hash_suffix key HF (key ++ rest) [] rest seed eq_refl eq_refl Hs) as H.
  change (zlen (@nil Z) / 4) with 0 in H. rewrite !Z.add_0_l in H.
  destruct (body (key ++ rest) (zlen key / 4) (Z.to_nat (zlen key / 4)) seed) as [h1| | |]; cbn [obind] in *; try discriminate.
  rewrite H. cbn [obind]. rewrite fmix_final. reflexivity.
Qed.

Lemma strlen_correct : forall s rest, no_zero s -> strlen (s ++ 0 :: rest) = Ok (zlen s).
Proof.
  induction s as [|c s IH]; intros rest Hn; [reflexivity|].
  cbn [strlen app]. destruct (Z.eqb_spec c 0) as [->|].
  - exfalso. apply Hn. left. reflexivity.
  - rewrite IH by (intro; apply Hn; right; assumption). cbn [obind]. rewrite zlen_cons. f_equal. lia.
Qed.

Lemma hash_name_correct : forall s rest seed, Forall is_byte s -> no_zero s -> is_u32 seed ->
  HashNameString (s ++ 0 :: rest) seed = Ok (hash32 s seed).
Proof.
  intros s rest seed HF Hn Hs. unfold HashNameString. rewrite strlen_correct by auto. cbn [obind].
  apply (murmur_correct s (0 :: rest)); auto.
Qed.

Lemma hash32_range : forall key seed, is_u32 seed -> zlen key < 2 ^ 31 -> is_u32 (hash32 key seed).
Proof.
  intros key seed Hs Hl. unfold hash32. apply final_range. apply lxor_range; [apply blocks_range; auto|].
  change (Z.of_nat (length key)) with (zlen key). unfold is_u32. pose proof (zlen_nonneg _ key).
  change (2^31) with 2147483648 in Hl. lia.
Qed.

(* ------------------------------------------------------------------ *)
(* injectivity of every step *)
Lemma mul_inj : forall c ci a b, (c * ci) mod W = 1 -> is_u32 a -> is_u32 b -> mul a c = mul b c -> a = b.
Proof.
  intros c ci a b Hc Ha Hb H. unfold mul in H.
  assert (E : forall x, is_u32 x -> ((x * c) mod W * ci) mod W = x).
  { intros x Hx. rewrite Z.mul_mod_idemp_l by (unfold W; lia).
    rewrite <- Z.mul_assoc. rewrite <- Z.mul_mod_idemp_r by (unfold W; lia). rewrite Hc, Z.mul_1_r.
    apply Z.mod_small. exact Hx. }
  rewrite <- (E a Ha), <- (E b Hb), H. reflexivity.
Qed.
Lemma rol15_inj : forall a b, is_u32 a -> is_u32 b -> rol a 15 = rol b 15 -> a = b.
Proof.
  unfold rol, W, is_u32. change (2^32) with 4294967296. change (2^15) with 32768. change (2^(32-15)) with 131072. intros. lia.
Qed.
Lemma rol13_inj : forall a b, is_u32 a -> is_u32 b -> rol a 13 = rol b 13 -> a = b.
Proof.
  unfold rol, W, is_u32. change (2^32) with 4294967296. change (2^13) with 8192. change (2^(32-13)) with 524288. intros. lia.
Qed.
Lemma lxor_inj_r : forall a b c, Z.lxor a b = Z.lxor a c -> b = c.
Proof.
  intros a b c H. apply (f_equal (Z.lxor a)) in H.
  rewrite <- !Z.lxor_assoc, Z.lxor_nilpotent, !Z.lxor_0_l in H. exact H.
Qed.
Lemma lxor_inj_l : forall a b c, Z.lxor b a = Z.lxor c a -> b = c.
Proof. intros a b c H. rewrite !(Z.lxor_comm _ a) in H. eapply lxor_inj_r; eauto. Qed.

Lemma testbit_u32_high : forall x i, is_u32 x -> 32 <= i -> Z.testbit x i = false.
Proof.
  intros x i Hx Hi. unfold is_u32 in Hx. destruct (Z.eq_dec x 0) as [->|]; [apply Z.bits_0|].
  apply Z.bits_above_log2; [lia|].
  apply Z.lt_le_trans with 32; [|lia]. apply Z.log2_lt_pow2; [lia|]. exact (proj2 Hx).
Qed.
Lemma xsh_inj : forall s a b, 0 < s -> is_u32 a -> is_u32 b -> xsh s a = xsh s b -> a = b.
Proof.
  intros s a b Hs Ha Hb H. unfold xsh in H.
  apply Z.bits_inj'. 
  assert (G : forall n i, (Z.to_nat (32 - i) <= n)%nat -> 0 <= i -> Z.testbit a i = Z.testbit b i).
  { induction n as [|n IH]; intros i Hn Hi.
    - rewrite !testbit_u32_high by (auto; lia). reflexivity.
    - destruct (Z.leb_spec 32 i); [rewrite !testbit_u32_high by (auto; lia); reflexivity|].
      assert (E : Z.testbit (Z.lxor a (a / 2 ^ s)) i = Z.testbit (Z.lxor b (b / 2 ^ s)) i) by (rewrite H; reflexivity).
      rewrite !Z.lxor_spec, !Z.div_pow2_bits in E by lia.
      rewrite (IH (i + s)) in E by lia.
      destruct (Z.testbit a i), (Z.testbit b i), (Z.testbit b (i + s)); cbn in E; congruence. }
  intros i Hi. apply (G (Z.to_nat (32 - i)) i); [lia|exact Hi].
Qed.
Lemma scramble_inj : forall a b, is_u32 a -> is_u32 b -> scramble a = scramble b -> a = b.
Proof.
  intros a b Ha Hb H. unfold scramble in H.
  apply (mul_inj 0x1b873593 0x56ed309b) in H; [|reflexivity|apply rol_range; [apply mul_range|lia]|apply rol_range; [apply mul_range|lia]].
  apply rol15_inj in H; [|apply mul_range|apply mul_range].
  apply (mul_inj 0xcc9e2d51 0xdee13bb1) in H; auto.
Qed.
Lemma final_inj : forall a b, is_u32 a -> is_u32 b -> final a = final b -> a = b.
Proof.
  intros a b Ha Hb H. unfold final in H.
  apply xsh_inj in H; [|lia|apply mul_range|apply mul_range].
  apply (mul_inj 0xc2b2ae35 0x7ed1b41d) in H; [|reflexivity|apply xsh_range; [lia|apply mul_range]|apply xsh_range; [lia|apply mul_range]].
  apply xsh_inj in H; [|lia|apply mul_range|apply mul_range].
  apply (mul_inj 0x85ebca6b 0xa5cb9243) in H; [|reflexivity|apply xsh_range; [lia|auto]|apply xsh_range; [lia|auto]].
  apply xsh_inj in H; auto; lia.
Qed.
Lemma round_inj_pre : forall x y, is_u32 x -> is_u32 y ->
  (rol x 13 * 5 + 0xe6546b64) mod W = (rol y 13 * 5 + 0xe6546b64) mod W -> x = y.
Proof.
  intros x y Hx Hy H. apply rol13_inj; auto.
  pose proof (rol_range x 13 Hx ltac:(lia)) as R1. pose proof (rol_range y 13 Hy ltac:(lia)) as R2.
  unfold W, is_u32 in *. change (2^32) with 4294967296 in *. lia.
Qed.
Lemma round_inj_k : forall h a b, is_u32 h -> is_u32 a -> is_u32 b -> round h a = round h b -> a = b.
Proof.
  intros h a b Hh Ha Hb H. unfold round in H.
  apply round_inj_pre in H; try (apply lxor_range; auto using scramble_range).
  apply lxor_inj_r in H. apply scramble_inj; auto.
Qed.
Lemma round_inj_h : forall k a b, is_u32 a -> is_u32 b -> round a k = round b k -> a = b.
Proof.
  intros k a b Ha Hb H. unfold round in H.
  apply round_inj_pre in H; try (apply lxor_range; auto using scramble_range).
  apply lxor_inj_l in H. exact H.
Qed.
Lemma blocks_inj_h : forall key a b, is_u32 a -> is_u32 b -> blocks key a = blocks key b -> a = b.
Proof.
  induction key using list4_ind; intros x y Hx Hy H; cbn [blocks] in H; auto; try (eapply lxor_inj_l; exact H).
  apply IHkey in H; [|apply round_range|apply round_range]. eapply round_inj_h; eauto.
Qed.
Lemma hash32_inj_seed : forall key a b, zlen key < 2 ^ 31 -> is_u32 a -> is_u32 b -> hash32 key a = hash32 key b -> a = b.
Proof.
  intros key a b Hl Ha Hb H. unfold hash32 in H.
  assert (HL : is_u32 (Z.of_nat (length key))).
  { change (Z.of_nat (length key)) with (zlen key). unfold is_u32. pose proof (zlen_nonneg _ key). change (2^31) with 2147483648 in Hl. lia. }
  apply final_inj in H; [|apply lxor_range; auto using blocks_range|apply lxor_range; auto using blocks_range].
  apply lxor_inj_l in H. eapply blocks_inj_h; eauto.
Qed.

(* two keys that agree except inside one aligned word (or in the tail) *)
Lemma word_range : forall a b c d, is_byte a -> is_byte b -> is_byte c -> is_byte d ->
  is_u32 (a + b * 2 ^ 8 + c * 2 ^ 16 + d * 2 ^ 24).
Proof. unfold is_byte, is_u32. change (2^8) with 256; change (2^16) with 65536; change (2^24) with 16777216. intros. lia. Qed.

Lemma blocks_inj_word : forall pre w1 w2 post h,
  zlen pre mod 4 = 0 -> length w1 = length w2 ->
  (length w1 = 4%nat \/ ((length w1 <= 4)%nat /\ post = [])) ->
  Forall is_byte w1 -> Forall is_byte w2 -> is_u32 h ->
  blocks (pre ++ w1 ++ post) h = blocks (pre ++ w2 ++ post) h -> w1 = w2.
Proof.
  intros pre w1 w2 post h Hp Hl Hw F1 F2 Hh H.
  revert h Hh Hp H. induction pre as [|a|a b|a b c|a b c d r IH] using list4_ind; intros h Hh Hp H.
  - cbn [app] in H.
    destruct w1 as [|a1 [|b1 [|d1 [|e1 [|? ?]]]]], w2 as [|a2 [|b2 [|d2 [|e2 [|? ?]]]]]; cbn [length] in *;
      try lia; try reflexivity.
    + destruct Hw as [|[_ ->]]; [lia|]. cbn [app blocks] in H. apply lxor_inj_r in H.
      inversion F1; inversion F2; subst. unfold is_byte in *.
      apply scramble_inj in H; unfold is_u32; try lia. subst; reflexivity.
    + destruct Hw as [|[_ ->]]; [lia|]. cbn [app blocks] in H. apply lxor_inj_r in H.
      repeat match goal with h : Forall _ (_ :: _) |- _ => inversion h; clear h; subst end. unfold is_byte in *.
      change (2^8) with 256 in H.
      apply scramble_inj in H; unfold is_u32; try lia. f_equal; [lia|]. f_equal. lia.
    + destruct Hw as [|[_ ->]]; [lia|]. cbn [app blocks] in H. apply lxor_inj_r in H.
      repeat match goal with h : Forall _ (_ :: _) |- _ => inversion h; clear h; subst end. unfold is_byte in *.
      change (2^8) with 256 in H. change (2^16) with 65536 in H.
      apply scramble_inj in H; unfold is_u32; try lia. f_equal; [lia|]. f_equal; [lia|]. f_equal. lia.
    + cbn [app blocks] in H.
      repeat match goal with h : Forall _ (_ :: _) |- _ => inversion h; clear h; subst end.
      apply blocks_inj_h in H; try apply round_range.
      apply round_inj_k in H; auto using word_range. unfold is_byte in *.
      change (2^8) with 256 in H. change (2^16) with 65536 in H. change (2^24) with 16777216 in H.
      f_equal; [lia|]. f_equal; [lia|]. f_equal; [lia|]. f_equal. lia.
  - exfalso. unfold zlen in Hp. cbn in Hp. lia.
  - exfalso. unfold zlen in Hp. cbn in Hp. lia.
  - exfalso. unfold zlen in Hp. cbn in Hp. lia.
  - cbn [app blocks] in H. rewrite !zlen_cons in Hp. apply (IH (round h (a + b * 2 ^ 8 + c * 2 ^ 16 + d * 2 ^ 24))); [apply round_range|lia|exact H].
Qed.

Lemma hash32_inj_word : forall pre w1 w2 post seed,
  zlen pre mod 4 = 0 -> length w1 = length w2 ->
  (length w1 = 4%nat \/ ((length w1 <= 4)%nat /\ post = [])) ->
  Forall is_byte w1 -> Forall is_byte w2 -> is_u32 seed -> zlen (pre ++ w1 ++ post) < 2 ^ 31 ->
  hash32 (pre ++ w1 ++ post) seed = hash32 (pre ++ w2 ++ post) seed -> w1 = w2.
Proof.
  intros pre w1 w2 post seed Hp Hl Hw F1 F2 Hs Hz H. unfold hash32 in H.
  assert (E : length (pre ++ w2 ++ post) = length (pre ++ w1 ++ post)) by (rewrite !app_length; lia).
  rewrite E in H.
  assert (HL : is_u32 (Z.of_nat (length (pre ++ w1 ++ post)))).
  { unfold zlen in Hz. unfold is_u32. change (2^31) with 2147483648 in Hz. lia. }
  apply final_inj in H; try (apply lxor_range; auto using blocks_range).
  apply lxor_inj_l in H. exact (blocks_inj_word pre w1 w2 post seed Hp Hl Hw F1 F2 Hs H).
Qed.

(* statements at the level of the modelled functions *)
Lemma mixhashes_spec : forall a b, is_u32 a -> is_u32 b ->
  MixHashes a b = Ok (hash32 (le_bytes 4 b) a).
Proof.
  intros a b Ha Hb. unfold MixHashes.
  pose proof (murmur_correct (le_bytes 4 b) [] a (le_bytes_bytes 4 b) Ha) as H.
  rewrite app_nil_r in H. exact H.
Qed.
Lemma mixhashes_inj_b : forall a b b', is_u32 a -> is_u32 b -> is_u32 b' ->
  MixHashes a b = MixHashes a b' -> b = b'.
Proof.
  intros a b b' Ha Hb Hb' H. rewrite !mixhashes_spec in H by auto. inversion H as [H1].
  pose proof (hash32_inj_word [] (le_bytes 4 b) (le_bytes 4 b') [] a) as I. rewrite !app_nil_r in I. cbn [app] in I.
  apply I in H1; auto using le_bytes_bytes.
  - rewrite <- (le_val_bytes_small 4 b), <- (le_val_bytes_small 4 b'); [f_equal; exact H1|exact Hb'|exact Hb].
  - rewrite le_bytes_zlen. reflexivity.
Qed.
Lemma mixhashes_inj_a : forall a a' b, is_u32 a -> is_u32 a' -> is_u32 b ->
  MixHashes a b = MixHashes a' b -> a = a'.
Proof.
  intros a a' b Ha Ha' Hb H. rewrite !mixhashes_spec in H by auto. inversion H as [H1].
  apply (hash32_inj_seed (le_bytes 4 b) a a'); auto. rewrite le_bytes_zlen. reflexivity.
Qed.
Lemma names_word_inj : forall pre w1 w2 post rest1 rest2 seed,
  zlen pre mod 4 = 0 -> length w1 = length w2 ->
  (length w1 = 4%nat \/ ((length w1 <= 4)%nat /\ post = [])) ->
  Forall is_byte (pre ++ w1 ++ post) -> Forall is_byte (pre ++ w2 ++ post) ->
  no_zero (pre ++ w1 ++ post) -> no_zero (pre ++ w2 ++ post) ->
  is_u32 seed -> zlen (pre ++ w1 ++ post) < 2 ^ 31 ->
  HashNameString ((pre ++ w1 ++ post) ++ 0 :: rest1) seed = HashNameString ((pre ++ w2 ++ post) ++ 0 :: rest2) seed ->
  w1 = w2.
Proof.
  intros pre w1 w2 post rest1 rest2 seed Hp Hl Hw F1 F2 N1 N2 Hs Hz H.
  rewrite !hash_name_correct in H by auto. inversion H as [H1].
  apply hash32_inj_word in H1; auto.
  - apply Forall_app in F1. destruct F1 as [_ F1]. apply Forall_app in F1. tauto.
  - apply Forall_app in F2. destruct F2 as [_ F2]. apply Forall_app in F2. tauto.
Qed.
Lemma short_names_inj : forall a b rest1 rest2 seed,
  length a = length b -> (length a <= 4)%nat ->
  Forall is_byte a -> Forall is_byte b -> no_zero a -> no_zero b -> is_u32 seed ->
  HashNameString (a ++ 0 :: rest1) seed = HashNameString (b ++ 0 :: rest2) seed -> a = b.
Proof.
  intros a b r1 r2 seed Hl Hn Fa Fb Na Nb Hs H.
  pose proof (names_word_inj [] a b [] r1 r2 seed) as I. cbn [app] in I. rewrite !app_nil_r in I.
  apply I; auto. unfold zlen. change (2^31) with 2147483648. lia.
Qed.
Lemma mixhashes_defined : forall a b, is_u32 a -> is_u32 b ->
  exists h, MixHashes a b = Ok h /\ is_u32 h.
Proof.
  intros a b Ha Hb. eexists. split; [apply mixhashes_spec; auto|].
  apply hash32_range; auto. rewrite le_bytes_zlen. reflexivity.
Qed.
