(* Proofs about JSON numbers *)
From Verif Require Import Base BaseProofs Text HashModel FileUtilsSpec FileUtilsProofs JsonLexModel JsonLexSpec JsonLexProofs JsonNumModel JsonNumSpec.

(* ---- the digit loop ---- *)
Lemma number_snoc : forall dg radix ds v acc x d, number dg radix ds acc = Some v -> dg x = Some d -> number dg radix (ds ++ [x]) acc = Some (v * radix + d).
Proof.
  induction ds as [|y ds IH]; intros v acc x d H Hx; cbn [number app] in *.
  - rewrite Hx. congruence.
  - destruct (dg y) as [e|]; [|discriminate]. eapply IH; eassumption.
Qed.
Lemma snoc : forall (A : Type) (l : list A), l <> [] -> exists l' x, l = l' ++ [x].
Proof. intros A l H. destruct (exists_last H) as [l' [x E]]. exists l', x. exact E. Qed.
Lemma wr_snoc : forall (a b : list Z) y x, wr (a ++ y :: b) (zlen a) x = Ok (a ++ x :: b).
Proof.
  intros a b y x. unfold wr. pose proof (zlen_nonneg _ a). pose proof (zlen_nonneg _ b). rewrite zlen_app, zlen_cons.
  replace ((0 <=? zlen a) && (zlen a <? zlen a + (1 + zlen b))) with true by lia. unfold zlen. rewrite Nat2Z.id.
  rewrite firstn_app, firstn_all, Nat.sub_diag, app_nil_r. do 2 f_equal. f_equal.
  rewrite skipn_app. replace (S (length a) - length a)%nat with 1%nat by lia. rewrite skipn_all2 by lia. reflexivity.
Qed.
Section Digits.
Variables (radix : Z) (digit : Z -> Z) (dg : Z -> option Z).
Hypothesis Hradix : 2 <= radix.
Hypothesis Hdg : forall d, 0 <= d < radix -> dg (digit d) = Some d.
Hypothesis Hzero : forall d, 0 <= d < radix -> digit d = 48 -> d = 0.
Definition numeral (v : Z) (ds : list Z) : Prop :=
  ds <> [] /\ number dg radix ds 0 = Some v /\ (forall r, ds = 48 :: r -> r = [] /\ v = 0) /\ v < radix ^ zlen ds /\ (v = 0 /\ zlen ds = 1 \/ radix ^ (zlen ds - 1) <= v).
Lemma digits_ok : forall fuel pre suf v, 0 <= v < radix ^ Z.of_nat fuel -> (0 < fuel)%nat ->
  exists ds, numeral v ds /\ (length ds <= fuel)%nat /\
    digits_loop fuel radix digit (pre ++ suf) (zlen pre) v =
      if zlen ds <=? zlen pre then Ok (firstn (length pre - length ds) pre ++ ds ++ suf, zlen pre - zlen ds) else UB.
Proof.
  induction fuel as [|fuel IH]; intros pre suf v Hv Hf; [lia|]. cbn [digits_loop].
  assert (Hd : 0 <= v - v / radix * radix < radix). { pose proof (Z.mod_pos_bound v radix ltac:(lia)). pose proof (Z.div_mod v radix ltac:(lia)). lia. }
  set (x := digit (v - v / radix * radix)). assert (Hnext : 0 <= v / radix) by (apply Z.div_pos; lia).
  assert (Hlt : v / radix = 0 -> v < radix). { intros E. rewrite E in Hd. lia. }
  assert (HSP : pre = [] \/ exists pre0 y, pre = pre0 ++ [y]) by (destruct pre as [|z l]; [left; reflexivity|right; apply snoc; discriminate]).
  destruct (Z.eqb_spec (v / radix) 0) as [E0|N0].
  - exists [x]. split.
    { split; [discriminate|]. unfold x. rewrite E0, Z.mul_0_l, Z.sub_0_r in *. split; [cbn; rewrite Hdg by lia; f_equal; lia|].
      change (zlen [digit v]) with 1. rewrite Z.pow_1_r, Z.pow_0_r. split; [|lia]. intros r Hr. injection Hr as Hr <-. split; [reflexivity|]. apply Hzero; [lia|exact Hr]. }
    split; [cbn; lia|]. destruct HSP as [->|[pre0 [y ->]]].
    + cbn [app]. unfold wr. replace ((0 <=? zlen (@nil Z) - 1) && (zlen (@nil Z) - 1 <? zlen suf)) with false by (rewrite zlen_nil; lia). reflexivity.
    + rewrite <- app_assoc. cbn [app]. rewrite zlen_app. change (zlen [y]) with 1. replace (zlen pre0 + 1 - 1) with (zlen pre0) by lia. rewrite wr_snoc, bind_Ok.
      change (zlen [x]) with 1. pose proof (zlen_nonneg _ pre0). replace (1 <=? zlen pre0 + 1) with true by lia. rewrite app_length. cbn [length].
      replace (length pre0 + 1 - 1)%nat with (length pre0) by lia. rewrite firstn_app, Nat.sub_diag, firstn_all, firstn_O, app_nil_r. do 2 f_equal. lia.
  - assert (Hv2 : 0 <= v / radix < radix ^ Z.of_nat fuel). { split; [lia|]. apply Z.div_lt_upper_bound; [lia|]. rewrite <- Z.pow_succ_r by lia. replace (Z.succ (Z.of_nat fuel)) with (Z.of_nat (S fuel)) by lia. lia. }
    assert (Hf2 : (0 < fuel)%nat). { destruct fuel; [|lia]. cbn in Hv2. lia. }
    assert (HG : forall ds', numeral (v / radix) ds' -> numeral v (ds' ++ [x])).
    { intros ds' [H1 [H2 [H3 [H4 H5]]]]. split; [destruct ds'; discriminate|].
      split. { pose proof (number_snoc _ _ _ _ _ _ _ H2 (Hdg _ Hd)) as HX. fold x in HX. rewrite HX. f_equal. lia. }
      split. { intros r Hr. exfalso. destruct ds' as [|z ds']; [contradiction|]. cbn [app] in Hr. injection Hr as -> _. destruct (H3 ds' eq_refl) as [_ Hz]. lia. }
      rewrite zlen_app. change (zlen [x]) with 1. rewrite Z.add_simpl_r. pose proof (zlen_nonneg _ ds').
      split. { rewrite Z.pow_add_r by lia. nia. }
      right. destruct H5 as [[H5 _]|H5]; [contradiction|]. assert (zlen ds' <> 0) by (intros E; apply zlen_0_nil in E; contradiction).
      replace (zlen ds') with (zlen ds' - 1 + 1) by lia. rewrite Z.pow_add_r by lia. nia. }
    destruct HSP as [->|[pre0 [y ->]]].
    + destruct (IH [] (x :: suf) (v / radix) Hv2 Hf2) as [ds' [Hn [Hl _]]]. exists (ds' ++ [x]). split; [apply HG; exact Hn|]. split; [rewrite app_length; cbn; lia|].
      cbn [app]. unfold wr. replace ((0 <=? zlen (@nil Z) - 1) && (zlen (@nil Z) - 1 <? zlen suf)) with false by (rewrite zlen_nil; lia).
      rewrite zlen_app, zlen_nil. change (zlen [x]) with 1. pose proof (zlen_nonneg _ ds'). replace (zlen ds' + 1 <=? 0) with false by lia. reflexivity.
    + destruct (IH pre0 (x :: suf) (v / radix) Hv2 Hf2) as [ds' [Hn [Hl HE]]]. exists (ds' ++ [x]). split; [apply HG; exact Hn|]. split; [rewrite app_length; cbn; lia|].
      rewrite <- app_assoc. cbn [app]. rewrite zlen_app. change (zlen [y]) with 1. replace (zlen pre0 + 1 - 1) with (zlen pre0) by lia. rewrite wr_snoc, bind_Ok, HE.
      rewrite zlen_app. change (zlen [x]) with 1. destruct (Z.leb_spec (zlen ds') (zlen pre0)) as [Hle|Hgt].
      * replace (zlen ds' + 1 <=? zlen pre0 + 1) with true by lia. rewrite !app_length. cbn [length]. replace (length pre0 + 1 - (length ds' + 1))%nat with (length pre0 - length ds')%nat by lia.
        rewrite (firstn_app (length pre0 - length ds')). replace (length pre0 - length ds' - length pre0)%nat with 0%nat by lia. rewrite firstn_O, app_nil_r.
        rewrite <- app_assoc. cbn [app]. do 2 f_equal. lia.
      * replace (zlen ds' + 1 <=? zlen pre0 + 1) with false by lia. reflexivity.
Qed.
Lemma numeral_length : forall v ds n, numeral v ds -> 1 <= n -> (v < radix ^ n <-> zlen ds <= n).
Proof.
  clear Hdg Hzero digit. intros v ds n [_ [_ [_ [H1 H2]]]] Hn. split; intros H.
  - destruct H2 as [[_ H2]|H2]; [lia|]. destruct (Z.le_gt_cases (zlen ds) n) as [|Hgt]; [assumption|]. exfalso.
    assert (radix ^ n <= radix ^ (zlen ds - 1)) by (apply Z.pow_le_mono_r; lia). lia.
  - assert (radix ^ zlen ds <= radix ^ n) by (apply Z.pow_le_mono_r; lia). lia.
Qed.
Lemma numeral_plain : forall v ds, numeral v ds -> plain ds.
Proof. clear Hdg Hzero Hradix digit. intros v ds [H1 [_ [H2 _]]]. split; [exact H1|]. intros r Hr. apply (H2 r Hr). Qed.
End Digits.

Definition dec_numeral := numeral 10 dec_digit.
Definition hex_numeral := numeral 16 hex_digit.
Lemma dec_loop : forall fuel pre suf v, 0 <= v < 10 ^ Z.of_nat fuel -> (0 < fuel)%nat ->
  exists ds, dec_numeral v ds /\ (length ds <= fuel)%nat /\
    digits_loop fuel 10 dec_char (pre ++ suf) (zlen pre) v =
      if zlen ds <=? zlen pre then Ok (firstn (length pre - length ds) pre ++ ds ++ suf, zlen pre - zlen ds) else UB.
Proof.
  apply digits_ok; [lia| |].
  - intros d Hd. unfold dec_digit, dec_char. replace ((48 <=? 48 + d) && (48 + d <=? 57)) with true by lia. f_equal. lia.
  - intros d Hd. unfold dec_char. lia.
Qed.
Lemma hex_loop16 : forall fuel pre suf v, 0 <= v < 16 ^ Z.of_nat fuel -> (0 < fuel)%nat ->
  exists ds, hex_numeral v ds /\ (length ds <= fuel)%nat /\
    digits_loop fuel 16 hex_char (pre ++ suf) (zlen pre) v =
      if zlen ds <=? zlen pre then Ok (firstn (length pre - length ds) pre ++ ds ++ suf, zlen pre - zlen ds) else UB.
Proof.
  apply digits_ok; [lia| |].
  - intros d Hd. unfold hex_digit, hex_char. destruct (Z.ltb_spec d 10).
    + replace ((48 <=? 48 + d) && (48 + d <=? 57)) with true by lia. f_equal. lia.
    + replace ((48 <=? 97 + (d - 10)) && (97 + (d - 10) <=? 57)) with false by lia. replace ((97 <=? 97 + (d - 10)) && (97 + (d - 10) <=? 102)) with true by lia. f_equal. lia.
  - intros d Hd. unfold hex_char. destruct (Z.ltb_spec d 10); lia.
Qed.
Lemma slice_tail : forall (a ds suf : list Z) stop, stop = zlen a + zlen ds -> slice (a ++ ds ++ suf) (zlen a) (stop - zlen a) = ds.
Proof. intros a ds suf stop ->. replace (zlen a + zlen ds - zlen a) with (zlen ds) by lia. apply slice_app_exact. Qed.
Lemma zlen_firstn_sub : forall (pre ds : list Z), zlen ds <= zlen pre -> zlen (firstn (length pre - length ds) pre) = zlen pre - zlen ds.
Proof. intros. unfold zlen in *. rewrite firstn_length. lia. Qed.
Lemma save_dec : forall n m v, (0 < m)%nat -> n = Z.of_nat m -> 0 <= v < 10 ^ n ->
  exists ds, dec_numeral v ds /\
    digits_loop m 10 dec_char (text_buffer n) (n - 1) v =
      if zlen ds <=? n - 1 then Ok (repeat 0 (Z.to_nat (n - 1) - length ds) ++ ds ++ [0], n - 1 - zlen ds) else UB.
Proof.
  intros n m v Hm Hn Hv. assert (HT : text_buffer n = repeat 0 (Z.to_nat (n - 1)) ++ [0]).
  { unfold text_buffer. replace (Z.to_nat n) with (Z.to_nat (n - 1) + 1)%nat by lia. rewrite repeat_app. reflexivity. }
  assert (HL : zlen (repeat 0 (Z.to_nat (n - 1))) = n - 1) by (rewrite zlen_repeat; lia).
  destruct (dec_loop m (repeat 0 (Z.to_nat (n - 1))) [0] v) as [ds [H1 [_ H2]]]; [subst n; exact Hv|exact Hm|]. exists ds. split; [exact H1|].
  rewrite HL in H2. rewrite HT, H2. destruct (Z.leb_spec (zlen ds) (n - 1)); [|reflexivity]. do 3 f_equal. rewrite repeat_length.
  replace (Z.to_nat (n - 1)) with ((Z.to_nat (n - 1) - length ds) + length ds)%nat at 2 by (unfold zlen in *; lia). rewrite repeat_app.
  rewrite firstn_app, repeat_length, Nat.sub_diag, firstn_O, app_nil_r. rewrite <- (repeat_length 0 (Z.to_nat (n - 1) - length ds)) at 1. apply firstn_all.
Qed.
Lemma save_hex : forall n m v, (0 < m)%nat -> n = Z.of_nat m -> 0 <= v < 16 ^ n ->
  exists ds, hex_numeral v ds /\
    digits_loop m 16 hex_char (text_buffer n) (n - 1) v =
      if zlen ds <=? n - 1 then Ok (repeat 0 (Z.to_nat (n - 1) - length ds) ++ ds ++ [0], n - 1 - zlen ds) else UB.
Proof.
  intros n m v Hm Hn Hv. assert (HT : text_buffer n = repeat 0 (Z.to_nat (n - 1)) ++ [0]).
  { unfold text_buffer. replace (Z.to_nat n) with (Z.to_nat (n - 1) + 1)%nat by lia. rewrite repeat_app. reflexivity. }
  assert (HL : zlen (repeat 0 (Z.to_nat (n - 1))) = n - 1) by (rewrite zlen_repeat; lia).
  destruct (hex_loop16 m (repeat 0 (Z.to_nat (n - 1))) [0] v) as [ds [H1 [_ H2]]]; [subst n; exact Hv|exact Hm|]. exists ds. split; [exact H1|].
  rewrite HL in H2. rewrite HT, H2. destruct (Z.leb_spec (zlen ds) (n - 1)); [|reflexivity]. do 3 f_equal. rewrite repeat_length.
  replace (Z.to_nat (n - 1)) with ((Z.to_nat (n - 1) - length ds) + length ds)%nat at 2 by (unfold zlen in *; lia). rewrite repeat_app.
  rewrite firstn_app, repeat_length, Nat.sub_diag, firstn_O, app_nil_r. rewrite <- (repeat_length 0 (Z.to_nat (n - 1) - length ds)) at 1. apply firstn_all.
Qed.
Lemma tail_text : forall k (ds : list Z) stop, (length ds <= k)%nat -> stop = Z.of_nat k ->
  slice (repeat 0 (k - length ds) ++ ds ++ [0]) (stop - zlen ds) (stop - (stop - zlen ds)) = ds.
Proof.
  intros k ds stop Hk ->. assert (HL : zlen (repeat 0 (k - length ds)) = Z.of_nat k - zlen ds) by (rewrite zlen_repeat; unfold zlen; lia).
  rewrite <- HL. apply slice_tail. lia.
Qed.
Lemma save_integer_ok : forall i, - 10 ^ 18 < i < 2 ^ 63 ->
  exists ds, dec_numeral (Z.abs i) ds /\ SaveInteger i = Ok (if i <? 0 then 45 :: ds else ds).
Proof.
  intros i Hi. destruct (save_dec 20 20 (Z.abs i) ltac:(lia) eq_refl ltac:(lia)) as [ds [Hn HE]]. exists ds. split; [exact Hn|]. unfold SaveInteger.
  change (20 - 1) with 19 in *. pose proof (zlen_nonneg _ ds). destruct (Z.ltb_spec i 0) as [Hneg|Hpos].
  - replace (i =? - 2 ^ 63) with false by lia. rewrite bind_Ok. replace (- i) with (Z.abs i) by lia. rewrite HE.
    assert (Hlen : zlen ds <= 18) by (apply (numeral_length 10 dec_digit ltac:(lia) _ _ 18 Hn); lia). replace (zlen ds <=? 19) with true by lia. rewrite bind_Ok. cbn [fst snd].
    replace (repeat 0 (Z.to_nat 19 - length ds) ++ ds ++ [0]) with (repeat 0 (18 - length ds) ++ 0 :: ds ++ [0]).
    2:{ replace (Z.to_nat 19 - length ds)%nat with ((18 - length ds) + 1)%nat by (unfold zlen in *; lia). rewrite repeat_app, <- app_assoc. reflexivity. }
    replace (19 - zlen ds - 1) with (zlen (repeat 0 (18 - length ds))) by (rewrite zlen_repeat; unfold zlen in *; lia). rewrite wr_snoc, !bind_Ok. cbn [fst snd]. f_equal.
    apply (slice_tail (repeat 0 (18 - length ds)) (45 :: ds) [0] 19). rewrite zlen_repeat, zlen_cons. unfold zlen in *. lia.
  - rewrite bind_Ok. replace i with (Z.abs i) at 1 by lia. rewrite HE.
    assert (Hlen : zlen ds <= 19) by (apply (numeral_length 10 dec_digit ltac:(lia) _ _ 19 Hn); lia). replace (zlen ds <=? 19) with true by lia. rewrite !bind_Ok. cbn [fst snd]. f_equal.
    apply tail_text; [unfold zlen in *; lia|reflexivity].
Qed.
Lemma save_integer_overflow : forall i, - 2 ^ 63 <= i <= - 10 ^ 18 -> SaveInteger i = UB.
Proof.
  intros i Hi. unfold SaveInteger. change (20 - 1) with 19. replace (i <? 0) with true by lia. destruct (Z.eqb_spec i (- 2 ^ 63)) as [|N]; [reflexivity|]. rewrite bind_Ok.
  destruct (save_dec 20 20 (- i) ltac:(lia) eq_refl ltac:(lia)) as [ds [Hn HE]]. change (20 - 1) with 19 in HE. rewrite HE.
  assert (H19 : zlen ds <= 19) by (apply (numeral_length 10 dec_digit ltac:(lia) _ _ 19 Hn); lia).
  assert (H18 : ~ zlen ds <= 18) by (intros H; apply (numeral_length 10 dec_digit ltac:(lia) _ _ 18 Hn) in H; lia).
  replace (zlen ds <=? 19) with true by lia. rewrite bind_Ok. cbn [fst snd]. replace (19 - zlen ds - 1) with (-1) by lia. reflexivity.
Qed.
Lemma save_unsigned_ok : forall v, is_u64 v -> exists ds, dec_numeral v ds /\ SaveUnsignedInteger v = Ok ds.
Proof.
  intros v Hv. unfold is_u64 in Hv. destruct (save_dec 21 21 v ltac:(lia) eq_refl ltac:(lia)) as [ds [Hn HE]]. exists ds. split; [exact Hn|]. unfold SaveUnsignedInteger.
  change (21 - 1) with 20 in *. rewrite HE. assert (Hlen : zlen ds <= 20) by (apply (numeral_length 10 dec_digit ltac:(lia) _ _ 20 Hn); lia).
  replace (zlen ds <=? 20) with true by lia. rewrite bind_Ok. cbn [fst snd]. f_equal. apply tail_text; [unfold zlen in *; lia|reflexivity].
Qed.
Lemma save_hex_ok : forall v, is_u64 v -> exists ds, hex_numeral v ds /\ SaveHexInteger v = Ok ds.
Proof.
  intros v Hv. unfold is_u64 in Hv. destruct (save_hex 21 21 v ltac:(lia) eq_refl ltac:(lia)) as [ds [Hn HE]]. exists ds. split; [exact Hn|]. unfold SaveHexInteger.
  change (21 - 1) with 20 in *. rewrite HE. assert (Hlen : zlen ds <= 20) by (apply (numeral_length 16 hex_digit ltac:(lia) _ _ 20 Hn); lia).
  replace (zlen ds <=? 20) with true by lia. rewrite bind_Ok. cbn [fst snd]. f_equal. apply tail_text; [unfold zlen in *; lia|reflexivity].
Qed.
(* ---- what the texts spell ---- *)
Lemma dec_spells : forall sd v ds, dec_numeral (Z.abs v) ds -> spelled sd (SInteger (v mod 2 ^ 64)) (if v <? 0 then 45 :: ds else ds).
Proof.
  intros sd v ds [H1 [H2 _]]. destruct (Z.ltb_spec v 0).
  - replace v with (- Z.abs v) at 1 by lia. apply sp_neg; assumption.
  - replace v with (Z.abs v) at 1 by lia. apply sp_int; assumption.
Qed.
Lemma signed_spells : forall sd i text, - 2 ^ 63 <= i < 2 ^ 63 -> SaveInteger i = Ok text -> decimal_text i text /\ spelled sd (SInteger (i mod 2 ^ 64)) text.
Proof.
  intros sd i text Hi HE. destruct (Z.lt_ge_cases (- 10 ^ 18) i) as [H|H].
  - destruct (save_integer_ok i ltac:(lia)) as [ds [Hn HS]]. rewrite HE in HS. injection HS as ->. split; [|apply dec_spells; exact Hn].
    exists ds. split; [apply (numeral_plain _ _ _ _ Hn)|]. split; [apply Hn|reflexivity].
  - rewrite save_integer_overflow in HE by lia. discriminate.
Qed.
Lemma unsigned_spells : forall sd v text, is_u64 v -> SaveUnsignedInteger v = Ok text -> decimal_text v text /\ spelled sd (SInteger (v mod 2 ^ 64)) text.
Proof.
  intros sd v text Hv HE. destruct (save_unsigned_ok v Hv) as [ds [Hn HS]]. rewrite HE in HS. injection HS as ->. unfold is_u64 in Hv.
  assert (HA : v = Z.abs v) by lia. rewrite HA in Hn. split.
  - exists ds. split; [apply (numeral_plain _ _ _ _ Hn)|]. split; [apply Hn|]. replace (v <? 0) with false by lia. reflexivity.
  - pose proof (dec_spells sd v ds Hn) as H. replace (v <? 0) with false in H by lia. exact H.
Qed.
Lemma hex_spells : forall sd v text, is_u64 v -> SaveHexInteger v = Ok text ->
  hex_text v text /\ spelled sd (SInteger (v mod 2 ^ 64)) (str "0x" ++ text) /\ spelled sd (SDecimal (v mod 2 ^ 64)) (str "0d" ++ text).
Proof.
  intros sd v text Hv HE. destruct (save_hex_ok v Hv) as [ds [Hn HS]]. rewrite HE in HS. injection HS as ->.
  destruct Hn as [H1 [H2 H3]]. split; [split; [apply (numeral_plain 16 hex_digit v); split; auto|exact H2]|]. split; [apply sp_hex; assumption|apply sp_bits; assumption].
Qed.
Lemma lex_spelled : forall data sd k s pre rest c, small data -> data = pre ++ s ++ rest -> jc_pos c = zlen pre -> spelled sd k s -> may_follow k rest ->
  exists t c', LexerNextToken sd data c = Ok (t, c') /\ token_at (zlen pre) k t /\ jc_pos c' = zlen pre + zlen s /\ jc_err c' = jc_err c.
Proof.
  intros data sd k s pre rest c Hs HD Hc Hsp Hf. pose proof (at_start data pre (s ++ rest) HD c Hc) as H. unfold LexerNextToken.
  destruct (token_ok data Hs sd (length data) k s rest c Hsp Hf H) as [t [HE [Ht _]]]. exists t, (adv c (zlen s)). rewrite <- Hc. split; [exact HE|]. split; [exact Ht|]. cbn. split; reflexivity.
Qed.
(* ---- the dispatch table ---- *)
Definition the_lut : list (option basic) := Eval vm_compute in match SetupTypeDispatchLUT with Ok l => l | _ => [] end.
Lemma lut_ok : SetupTypeDispatchLUT = Ok the_lut.
Proof. vm_compute. reflexivity. Qed.
Definition basic_index (b : basic) : Z := Eval vm_compute in
  match b with
  | B_bool => 7 | B_char => 3 | B_wchar_t => 42 | B_uchar => 37 | B_short => 44 | B_ushort => 23 | B_int => 30 | B_uint => 13
  | B_long => 35 | B_ulong => 33 | B_llong => 36 | B_ullong => 28 | B_float => 21 | B_double => 10
  end.
Lemma basic_hash : forall b, exists h, type_hash b h /\ GetTypeDispatchIndex h = basic_index b.
Proof. intros b. destruct b; (eexists; split; [vm_compute; reflexivity|vm_compute; reflexivity]). Qed.
Lemma lut_basic : forall b h, type_hash b h -> rd the_lut (GetTypeDispatchIndex h) = Ok (Some b).
Proof.
  intros b h H. destruct (basic_hash b) as [h' [H1 H2]]. unfold type_hash in *. assert (h' = h) by congruence. subst h'. rewrite H2. destruct b; reflexivity.
Qed.
Lemma written_splice : forall mem off bytes mem', wr_bytes mem off bytes = Ok mem' -> written_at mem off bytes mem'.
Proof.
  intros mem off bytes mem' H. apply wr_bytes_ok in H. destruct H as [H1 [H2 ->]]. split; [apply splice_zlen; assumption|]. intros i. rewrite znth_splice by assumption. reflexivity.
Qed.
Lemma wr_bytes_in : forall mem off bytes, 0 <= off -> off + zlen bytes <= zlen mem -> exists mem', wr_bytes mem off bytes = Ok mem' /\ written_at mem off bytes mem'.
Proof.
  intros mem off bytes H1 H2. assert (HE : wr_bytes mem off bytes = Ok (splice mem off bytes)). { unfold wr_bytes. replace ((0 <=? off) && (off + zlen bytes <=? zlen mem)) with true by lia. reflexivity. }
  eexists. split; [exact HE|]. apply written_splice. exact HE.
Qed.
(* ---- from object to object ---- *)
Lemma le_bytes_eqm : forall n a b, a mod 256 ^ Z.of_nat n = b mod 256 ^ Z.of_nat n -> le_bytes n a = le_bytes n b.
Proof.
  intros n a b H. apply le_val_inj; [apply le_bytes_bytes|apply le_bytes_bytes|rewrite !le_bytes_length; reflexivity|]. rewrite !le_val_bytes. exact H.
Qed.
Lemma basic_size_ok : forall b, 1 <= basic_size b <= 8 /\ 2 ^ (8 * basic_size b) = 256 ^ basic_size b /\ exists k, 2 ^ 64 = k * 256 ^ basic_size b.
Proof. intros b. destruct b; (split; [cbn; lia|]; split; [reflexivity|]); solve [exists (2 ^ 56); reflexivity|exists (2 ^ 48); reflexivity|exists (2 ^ 32); reflexivity|exists 1; reflexivity]. Qed.
Lemma load_int_mod : forall b bytes, load_int b bytes mod 256 ^ basic_size b = le_val bytes mod 256 ^ basic_size b.
Proof.
  intros b bytes. destruct (basic_size_ok b) as [H1 [H2 _]]. unfold load_int, sign_extend. rewrite H2. destruct (basic_signed b); [|reflexivity]. destruct (_ <? _); [reflexivity|].
  rewrite <- (Z_mod_plus_full (le_val bytes - 256 ^ basic_size b) 1). f_equal. lia.
Qed.
Lemma load_int_range : forall b bytes, Forall is_byte bytes -> zlen bytes = basic_size b -> - 2 ^ 63 <= load_int b bytes < 2 ^ 64.
Proof.
  intros b bytes Hb Hl. pose proof (le_val_range bytes Hb) as HR. rewrite Hl in HR. unfold load_int, sign_extend. destruct b; cbn [basic_signed basic_size] in *; try destruct (_ <? _) eqn:E; lia.
Qed.
Lemma s64_mod : forall v b, s64 v mod 256 ^ basic_size b = v mod 256 ^ basic_size b.
Proof.
  intros v b. destruct (basic_size_ok b) as [_ [_ [k Hk]]]. unfold s64. change 18446744073709551616 with (2 ^ 64). rewrite Hk. pose proof (Z.div_mod (v + 9223372036854775808) (k * 256 ^ basic_size b) ltac:(lia)) as HD.
  rewrite <- (Z_mod_plus_full _ (k * ((v + 9223372036854775808) / (k * 256 ^ basic_size b)))). f_equal. lia.
Qed.
Lemma mod64_mod : forall v b, (v mod 2 ^ 64) mod 256 ^ basic_size b = v mod 256 ^ basic_size b.
Proof.
  intros v b. destruct (basic_size_ok b) as [H1 [_ [k Hk]]]. rewrite Hk. assert (0 < 256 ^ basic_size b) by lia. assert (0 < k) by nia. rewrite (Z.mul_comm k). rewrite Z.rem_mul_r by lia.
  rewrite Z.mul_comm, Z_mod_plus_full, Z.mod_mod by lia. reflexivity.
Qed.
Lemma mod64_sign : forall v, 0 <= v < 2 ^ 64 -> v mod 2 ^ 64 = v.
Proof. intros. apply Z.mod_small. lia. Qed.
Definition saves_as_integer (b : basic) : Prop := b <> B_float /\ b <> B_double.
Lemma save_number_spells : forall F sd b mem off flags bytes text, saves_as_integer b -> rd_bytes mem off (basic_size b) = Ok bytes -> Forall is_byte bytes ->
  save_number F b mem off flags = Ok text -> spelled sd (SInteger (load_int b bytes mod 2 ^ 64)) text.
Proof.
  intros F sd b mem off flags bytes text [Hb1 Hb2] HR HB HS. unfold save_number in HS. rewrite HR, bind_Ok in HS.
  assert (HL : zlen bytes = basic_size b). { apply rd_bytes_ok in HR. destruct HR as [R1 [R2 [R3 ->]]]. apply slice_length; assumption. }
  pose proof (le_val_range bytes HB) as HV. rewrite HL in HV.
  assert (Hsigned : forall k, SaveInteger (load_int b bytes) = Ok k -> load_int b bytes < 2 ^ 63 -> spelled sd (SInteger (load_int b bytes mod 2 ^ 64)) k).
  { intros k Hk Hlt. apply (signed_spells sd (load_int b bytes) k); [|exact Hk]. pose proof (load_int_range b bytes HB HL). lia. }
  assert (Huns : forall k, SaveUnsignedInteger (u64 (load_int b bytes)) = Ok k -> spelled sd (SInteger (load_int b bytes mod 2 ^ 64)) k).
  { intros k Hk. pose proof (Z.mod_pos_bound (load_int b bytes) 18446744073709551616 ltac:(lia)) as HP. destruct (unsigned_spells sd _ k HP Hk) as [_ H].
    unfold u64 in H. change 18446744073709551616 with (2 ^ 64) in H. rewrite Z.mod_mod in H by discriminate. exact H. }
  destruct b; try contradiction; cbn [basic_signed basic_size] in *;
    try (match type of HS with SaveUnsignedInteger _ = _ => apply Huns; exact HS end);
    try (match type of HS with SaveInteger _ = _ => apply Hsigned; [exact HS|unfold load_int, sign_extend; cbn [basic_signed basic_size]; try destruct (_ <? _) eqn:E; lia] end).
  - destruct (_ <? 2); [|discriminate]. apply Hsigned; [exact HS|]. unfold load_int. cbn. lia.
  - destruct (SaveHexInteger _) as [h| | |] eqn:EH; try discriminate. rewrite bind_Ok in HS. injection HS as <-.
    assert (HP : is_u64 (u64 (load_int B_ullong bytes))) by (apply Z.mod_pos_bound; reflexivity). destruct (hex_spells sd _ h HP EH) as [_ [H _]].
    unfold u64 in H. change 18446744073709551616 with (2 ^ 64) in H. rewrite Z.mod_mod in H by discriminate. exact H.
Qed.
Lemma load_integer_bytes : forall F b mem dest v, saves_as_integer b -> b <> B_bool -> load_integer F b mem dest v = wr_bytes mem dest (le_bytes (Z.to_nat (basic_size b)) v).
Proof. intros F b mem dest v [H1 H2] H3. destruct b; try contradiction; reflexivity. Qed.
Lemma save_bool : forall F mem off flags bytes text, rd_bytes mem off 1 = Ok bytes -> save_number F B_bool mem off flags = Ok text -> le_val bytes < 2.
Proof.
  intros F mem off flags bytes text HR HS. unfold save_number in HS. change (basic_size B_bool) with 1 in HS. rewrite HR, bind_Ok in HS. cbv zeta in HS.
  change (load_int B_bool bytes) with (le_val bytes) in HS. destruct (Z.ltb_spec (le_val bytes) 2); [assumption|discriminate].
Qed.
Lemma integer_round_trip : forall F b h mem off flags bytes text sd data pre rest c mem2 off2, saves_as_integer b -> type_hash b h ->
  rd_bytes mem off (basic_size b) = Ok bytes -> Forall is_byte bytes -> save_number F b mem off flags = Ok text ->
  small data -> data = pre ++ text ++ rest -> stands_alone rest -> jc_pos c = zlen pre ->
  0 <= off2 -> off2 + basic_size b <= zlen mem2 ->
  exists t c' mem', LexerNextToken sd data c = Ok (t, c') /\ jt_type t = T_INTEGER /\ jc_pos c' = zlen pre + zlen text /\ jc_err c' = jc_err c /\
    ParserInteger F the_lut t mem2 off2 (Some h) false = Ok mem' /\ written_at mem2 off2 bytes mem'.
Proof.
  intros F b h mem off flags bytes text sd data pre rest c mem2 off2 Hb Hh HR HB HS Hsm HD Hal Hc Ho1 Ho2.
  pose proof (save_number_spells F sd b mem off flags bytes text Hb HR HB HS) as Hsp.
  destruct (lex_spelled data sd _ text pre rest c Hsm HD Hc Hsp Hal) as [t [c' [HE [[Ht Hv] [Hp He]]]]].
  assert (HL : zlen bytes = basic_size b). { apply rd_bytes_ok in HR. destruct HR as [R1 [R2 [R3 ->]]]. apply slice_length; assumption. }
  destruct (wr_bytes_in mem2 off2 bytes Ho1 ltac:(lia)) as [mem' [HW Hat]].
  exists t, c', mem'. split; [exact HE|]. split; [exact Ht|]. split; [exact Hp|]. split; [exact He|]. split; [|exact Hat].
  unfold ParserInteger, IsValid. rewrite Ht. cbn [jtype_eqb negb LoadInteger]. unfold LoadInteger. rewrite (lut_basic b h Hh), bind_Ok, Hv. rewrite <- HW.
  assert (HC : s64 (load_int b bytes mod 2 ^ 64) mod 256 ^ basic_size b = le_val bytes mod 256 ^ basic_size b) by (rewrite s64_mod, mod64_mod; apply load_int_mod).
  destruct (basic_size_ok b) as [Hsz _].
  assert (Hcase : b = B_bool \/ b <> B_bool) by (destruct b; (left; reflexivity) || (right; discriminate)). destruct Hcase as [->|Hnb].
  - pose proof (save_bool _ _ _ _ _ _ HR HS) as H2. change (basic_size B_bool) with 1 in HL.
    destruct bytes as [|x [|y l]]; [rewrite zlen_nil in HL; lia| |rewrite !zlen_cons in HL; pose proof (zlen_nonneg _ l); lia].
    inversion HB as [|? ? HB1 _]; subst. unfold is_byte in HB1. cbn [le_val] in H2.
    assert (Hx : x = 0 \/ x = 1) by lia. destruct Hx as [->| ->]; reflexivity.
  - rewrite load_integer_bytes by assumption. f_equal. unfold zlen in HL. replace (Z.to_nat (basic_size b)) with (length bytes) by lia.
    transitivity (le_bytes (length bytes) (le_val bytes)); [|apply le_bytes_val; exact HB]. apply le_bytes_eqm. rewrite HL. exact HC.
Qed.
Lemma hex_float_round_trip : forall F b h mem off flags bytes text sd data pre rest c mem2 off2, b = B_double \/ (b = B_float /\ 0 <= f2d F (le_val bytes) < 2 ^ 64 /\ d2f F (f2d F (le_val bytes)) = le_val bytes) -> type_hash b h ->
  rd_bytes mem off (basic_size b) = Ok bytes -> Forall is_byte bytes -> save_number F b mem off flags = Ok text -> has_flag flags EMIT_HEX_FLOATS = true ->
  small data -> data = pre ++ text ++ rest -> stands_alone rest -> jc_pos c = zlen pre ->
  0 <= off2 -> off2 + basic_size b <= zlen mem2 ->
  exists t c' mem', LexerNextToken sd data c = Ok (t, c') /\ jt_type t = T_DECIMAL /\ jc_pos c' = zlen pre + zlen text /\ jc_err c' = jc_err c /\
    ParserDecimal F the_lut t mem2 off2 (Some h) = Ok mem' /\ written_at mem2 off2 bytes mem'.
Proof.
  intros F b h mem off flags bytes text sd data pre rest c mem2 off2 Hb Hh HR HB HS Hfl Hsm HD Hal Hc Ho1 Ho2.
  assert (HL : zlen bytes = basic_size b). { apply rd_bytes_ok in HR. destruct HR as [R1 [R2 [R3 ->]]]. apply slice_length; assumption. }
  pose proof (le_val_range bytes HB) as HV. rewrite HL in HV.
  set (bits := match b with B_float => f2d F (le_val bytes) | _ => le_val bytes end).
  assert (Hbits : is_u64 bits) by (unfold is_u64, bits; destruct Hb as [->|[-> [Hb1 _]]]; cbn [basic_size] in HV; lia).
  assert (HSD : SaveDecimal F bits flags = Ok text).
  { unfold save_number in HS. rewrite HR, bind_Ok in HS. unfold bits. destruct Hb as [->|[-> _]]; exact HS. }
  unfold SaveDecimal in HSD. rewrite Hfl in HSD. destruct (SaveHexInteger bits) as [hx| | |] eqn:EH; try discriminate. rewrite bind_Ok in HSD. injection HSD as <-.
  destruct (hex_spells sd bits hx Hbits EH) as [_ [_ Hsp]]. rewrite mod64_sign in Hsp by exact Hbits.
  destruct (lex_spelled data sd _ _ pre rest c Hsm HD Hc Hsp Hal) as [t [c' [HE [[Ht Hv] [Hp He]]]]].
  destruct (wr_bytes_in mem2 off2 bytes Ho1 ltac:(lia)) as [mem' [HW Hat]].
  exists t, c', mem'. split; [exact HE|]. split; [exact Ht|]. split; [exact Hp|]. split; [exact He|]. split; [|exact Hat].
  unfold ParserDecimal, IsValid. rewrite Ht. cbn [jtype_eqb negb]. rewrite (lut_basic b h Hh), bind_Ok, Hv. rewrite <- HW. unfold bits, zlen in *.
  destruct Hb as [->|[-> [Hb1 Hb2]]]; cbn [load_decimal basic_size] in *; f_equal.
  - replace 8%nat with (length bytes) by lia. apply le_bytes_val. exact HB.
  - rewrite Hb2. replace 4%nat with (length bytes) by lia. apply le_bytes_val. exact HB.
Qed.
