From Verif Require Import Base BaseProofs Text FileUtilsModel FileUtilsSpec.

Lemma wr_mid : forall A (a : list A) x b y, wr (a ++ x :: b) (zlen a) y = Ok (a ++ y :: b).
Proof.
  intros A a x b y. unfold wr. rewrite zlen_app, zlen_cons. pose proof (zlen_nonneg _ a). pose proof (zlen_nonneg _ b).
  replace ((0 <=? zlen a) && (zlen a <? zlen a + (1 + zlen b))) with true by lia.
  unfold zlen. rewrite Nat2Z.id. rewrite firstn_app, Nat.sub_diag, firstn_O, app_nil_r, firstn_all.
  replace (S (length a)) with (length (a ++ [x])) by (rewrite app_length; cbn; lia).
  replace (a ++ x :: b) with ((a ++ [x]) ++ b) by (rewrite <- app_assoc; reflexivity).
  rewrite skipn_app, Nat.sub_diag, skipn_all. reflexivity.
Qed.
Lemma wr_out : forall A (a : list A) i y, zlen a <= i -> wr a i y = UB.
Proof. intros A a i y H. unfold wr. replace (i <? zlen a) with false by lia. rewrite andb_false_r. reflexivity. Qed.

Lemma number_app : forall d r a b acc, number d r (a ++ b) acc =
  match number d r a acc with Some v => number d r b v | None => None end.
Proof. induction a as [|c a IH]; intros b acc; cbn; [reflexivity|]. destruct (d c); auto. Qed.

(* ---- itohex ---- *)
Definition lower_hex (c : Z) : Prop := 48 <= c <= 57 \/ 97 <= c <= 102.

Lemma hex_digits_rd : forall v, 0 <= v < 16 -> exists c, rd hex_digits v = Ok c /\ hex_digit c = Some v /\ lower_hex c.
Proof.
  intros v H. assert (Hc : v = 0 \/ v = 1 \/ v = 2 \/ v = 3 \/ v = 4 \/ v = 5 \/ v = 6 \/ v = 7 \/ v = 8 \/ v = 9 \/
    v = 10 \/ v = 11 \/ v = 12 \/ v = 13 \/ v = 14 \/ v = 15) by lia.
  repeat (destruct Hc as [->|Hc]; [eexists; split; [reflexivity|]; split; [reflexivity|unfold lower_hex; vm_compute; intuition discriminate]|]).
  subst v. eexists; split; [reflexivity|]; split; [reflexivity|unfold lower_hex; vm_compute; intuition discriminate].
Qed.

Lemma snoc_inv : forall A (l : list A), l <> [] -> exists a x, l = a ++ [x].
Proof. intros A l H. destruct (exists_last H) as [a [x E]]. eauto. Qed.

Lemma hex_loop_ok : forall fuel pre suf value, 0 <= value < 16 ^ zlen pre -> pre <> [] -> (length pre <= fuel)%nat ->
  exists pre' ds, hex_loop fuel (pre ++ suf) (zlen pre) value = Ok (pre' ++ ds ++ suf, zlen pre') /\
    zlen pre = zlen pre' + zlen ds /\ hex_number ds = Some value /\ Forall lower_hex ds.
Proof.
  induction fuel as [|fuel IH]; intros pre suf value Hv Hne Hf.
  - destruct pre; [contradiction|cbn in Hf; lia].
  - destruct (snoc_inv _ pre Hne) as [a [x ->]]. rewrite zlen_app in *. change (zlen [x]) with 1 in *.
    pose proof (zlen_nonneg _ a). cbn [hex_loop].
    replace (Z.land value 15) with (value mod 16) by (change 15 with (Z.ones 4); rewrite Z.land_ones by lia; reflexivity).
    destruct (hex_digits_rd (value mod 16)) as [c [Hc [Hd Hl]]]; [apply Z.mod_pos_bound; lia|].
    rewrite Hc. cbn [obind]. replace (zlen a + 1 - 1) with (zlen a) by lia.
    rewrite <- app_assoc. cbn [app]. rewrite wr_mid. cbn [obind].
    destruct (Z.eqb_spec (value / 16) 0) as [E|E].
    + exists a, [c]. split; [reflexivity|]. change (zlen [c]) with 1. split; [lia|]. split; [|constructor; auto].
      unfold hex_number. cbn [number]. rewrite Hd. f_equal. pose proof (Z.div_mod value 16). lia.
    + rewrite Z.pow_add_r in Hv by lia. change (16 ^ 1) with 16 in Hv.
      assert (Hna : a <> []).
      { intros ->. rewrite zlen_nil in Hv. apply E. apply Z.div_small. lia. }
      assert (Hv16 : 0 <= value / 16 < 16 ^ zlen a).
      { split; [apply Z.div_pos; lia|]. apply Z.div_lt_upper_bound; lia. }
      destruct (IH a (c :: suf) (value / 16) Hv16 Hna) as [pre' [ds [H1 [H2 [H3 H4]]]]].
      { rewrite app_length in Hf. cbn in Hf. lia. }
      exists pre', (ds ++ [c]). rewrite H1. rewrite <- app_assoc. cbn [app]. split; [reflexivity|].
      rewrite zlen_app. change (zlen [c]) with 1. split; [lia|]. split.
      * unfold hex_number in *. rewrite number_app, H3. cbn [number]. rewrite Hd. f_equal. pose proof (Z.div_mod value 16). lia.
      * apply Forall_app. split; [exact H4|constructor; auto].
Qed.

Lemma pad_loop_ok : forall fuel pre suf, (length pre < fuel)%nat ->
  pad_loop fuel (pre ++ suf) (zlen pre) = Ok (repeat 48 (length pre) ++ suf, 0).
Proof.
  induction fuel as [|fuel IH]; intros pre suf Hf; [lia|]. cbn [pad_loop].
  destruct pre as [|p pre'] eqn:E.
  - reflexivity.
  - rewrite <- E in *. assert (Hne : pre <> []) by (rewrite E; discriminate). clear E.
    destruct (snoc_inv _ pre Hne) as [a [x ->]]. rewrite zlen_app. change (zlen [x]) with 1. pose proof (zlen_nonneg _ a).
    replace (zlen a + 1 =? 0) with false by lia. replace (zlen a + 1 - 1) with (zlen a) by lia.
    rewrite <- app_assoc. cbn [app]. rewrite wr_mid. cbn [obind]. rewrite app_length in *. cbn [length] in *.
    rewrite IH by lia. f_equal. f_equal. rewrite repeat_app. cbn [repeat]. rewrite <- app_assoc. reflexivity.
Qed.

Lemma number_zeros : forall n s, number hex_digit 16 (repeat 48 n ++ s) 0 = number hex_digit 16 s 0.
Proof. induction n as [|n IH]; intros s; [reflexivity|]. cbn [repeat app number]. change (hex_digit 48) with (Some 0). change (0 * 16 + 0) with 0. apply IH. Qed.

Lemma itohex_ok : forall old v, length old = 9%nat -> is_u32 v ->
  exists s, itohex old v = Ok s /\ length s = 8%nat /\ Forall lower_hex s /\ hex_number s = Some v.
Proof.
  intros old v Hlen Hv. unfold itohex.
  destruct (snoc_inv _ old ltac:(intros ->; discriminate)) as [a [x ->]]. rewrite app_length in Hlen. cbn in Hlen.
  assert (Hz : zlen a = 8) by (unfold zlen; lia).
  replace (9 - 1) with (zlen a) by lia. rewrite wr_mid. cbn [obind].
  destruct (hex_loop_ok 9 a [0] v) as [pre' [ds [H1 [H2 [H3 H4]]]]].
  - rewrite Hz. exact Hv.
  - intros ->. rewrite zlen_nil in Hz. discriminate.
  - lia.
  - rewrite H1. cbn [obind fst snd]. rewrite pad_loop_ok by (unfold zlen in *; lia). cbn [obind fst snd].
    change (skipn (Z.to_nat 0) (repeat 48 (length pre') ++ ds ++ [0])) with (repeat 48 (length pre') ++ ds ++ [0]).
    assert (Hall : Forall lower_hex (repeat 48 (length pre') ++ ds)).
    { apply Forall_app. split; [|exact H4]. apply Forall_forall. intros y Hy. apply repeat_spec in Hy. subst y. left. lia. }
    exists (repeat 48 (length pre') ++ ds). rewrite app_assoc. rewrite c_str_app.
    + split; [reflexivity|]. split; [rewrite app_length, repeat_length; unfold zlen in *; lia|]. split; [exact Hall|].
      unfold hex_number. rewrite number_zeros. exact H3.
    + eapply Forall_impl; [|exact Hall]. unfold lower_hex. cbn. lia.
Qed.

(* ---- hextoi ---- *)
Lemma hex_char_ok : forall c d, hex_digit c = Some d -> hex_char c = d /\ 0 <= d < 16.
Proof.
  intros c d. unfold hex_digit, hex_char, to_lower, s8. 
  destruct ((48 <=? c) && (c <=? 57)) eqn:E1; [intros H; injection H as <-|
    destruct ((97 <=? c) && (c <=? 102)) eqn:E2; [intros H; injection H as <-|
    destruct ((65 <=? c) && (c <=? 70)) eqn:E3; [intros H; injection H as <-|discriminate]]];
  rewrite (Z.mod_small (c + 128) 256) by lia; replace (c + 128 - 128) with c by lia.
  - replace ((65 <=? c) && (c <=? 90)) with false by lia. replace (97 <=? c) with false by lia. lia.
  - replace ((65 <=? c) && (c <=? 90)) with false by lia. replace (97 <=? c) with true by lia. lia.
  - replace ((65 <=? c) && (c <=? 90)) with true by lia. replace (97 <=? c + 32) with true by lia. lia.
Qed.
Lemma hextoi_gen : forall s acc acc' v, number hex_digit 16 s acc = Some v -> acc' = u32 acc ->
  fold_left (fun val c => u32 (u32 (val * 16) + hex_char c)) s acc' = u32 v.
Proof.
  induction s as [|c s IH]; intros acc acc' v H E; cbn [number fold_left] in *.
  - congruence.
  - destruct (hex_digit c) as [d|] eqn:Ed; [|discriminate]. destruct (hex_char_ok c d Ed) as [Hc _].
    eapply IH; [exact H|]. rewrite Hc, E. unfold u32. rewrite Zplus_mod_idemp_l, Zplus_mod, Zmult_mod_idemp_l, <- Zplus_mod. reflexivity.
Qed.
Lemma hextoi_ok : forall s v, hex_number s = Some v -> hextoi s = v mod 2 ^ 32.
Proof. intros s v H. unfold hextoi. eapply hextoi_gen; [exact H|reflexivity]. Qed.
Lemma hextoi64_gen : forall s acc acc' v, number hex_digit 16 s acc = Some v -> acc' = u64 acc ->
  fold_left (fun val c => u64 (u64 (val * 16) + hex_char c)) s acc' = u64 v.
Proof.
  induction s as [|c s IH]; intros acc acc' v H E; cbn [number fold_left] in *.
  - congruence.
  - destruct (hex_digit c) as [d|] eqn:Ed; [|discriminate]. destruct (hex_char_ok c d Ed) as [Hc _].
    eapply IH; [exact H|]. rewrite Hc, E. unfold u64. rewrite Zplus_mod_idemp_l, Zplus_mod, Zmult_mod_idemp_l, <- Zplus_mod. reflexivity.
Qed.
Lemma hextoi64_ok : forall s v, hex_number s = Some v -> hextoi64 s = v mod 2 ^ 64.
Proof. intros s v H. unfold hextoi64. eapply hextoi64_gen; [exact H|reflexivity]. Qed.
Lemma hex_round : forall old v, length old = 9%nat -> is_u32 v ->
  exists s, itohex old v = Ok s /\ hextoi s = v.
Proof.
  intros old v Hl Hv. destruct (itohex_ok old v Hl Hv) as [s [H1 [H2 [H3 H4]]]]. exists s. split; [exact H1|].
  rewrite (hextoi_ok s v H4). apply Z.mod_small. exact Hv.
Qed.

(* ---- decimal ---- *)
Lemma dec_loop_ok : forall fuel v acc, 0 <= v < 10 ^ Z.of_nat fuel -> (0 < fuel)%nat ->
  exists ds, dec_loop fuel v acc = ds ++ acc /\ dec_number ds = Some v /\ Forall (fun c => 48 <= c <= 57) ds /\
    (forall k : nat, (0 < k)%nat -> v < 10 ^ Z.of_nat k -> (length ds <= k)%nat) /\
    (forall k : nat, 10 ^ Z.of_nat k <= v -> (k < length ds)%nat) /\ (1 <= length ds)%nat.
Proof.
  induction fuel as [|fuel IH]; intros v acc Hv Hf; [lia|]. cbn [dec_loop].
  pose proof (Z.mod_pos_bound v 10 ltac:(lia)) as Hm. pose proof (Z.div_mod v 10 ltac:(lia)) as Hdm.
  assert (Hd : dec_digit (48 + v mod 10) = Some (v mod 10)).
  { unfold dec_digit. replace ((48 <=? 48 + v mod 10) && (48 + v mod 10 <=? 57)) with true by lia. f_equal. lia. }
  destruct (Z.eqb_spec (v / 10) 0) as [E|E].
  - exists [48 + v mod 10]. split; [reflexivity|]. split; [|split; [|split; [|split]]].
    + unfold dec_number. cbn [number]. rewrite Hd. f_equal. lia.
    + constructor; [lia|constructor].
    + intros k Hk _. cbn. lia.
    + intros k Hk. cbn. destruct k; [lia|]. rewrite Nat2Z.inj_succ, Z.pow_succ_r in Hk by lia.
      pose proof (Z.pow_pos_nonneg 10 (Z.of_nat k)). lia.
    + cbn. lia.
  - assert (Hf0 : (0 < fuel)%nat). { destruct fuel; [|lia]. exfalso. apply E. apply Z.div_small. cbn in Hv. lia. }
    rewrite Nat2Z.inj_succ, Z.pow_succ_r in Hv by lia.
    destruct (IH (v / 10) ((48 + v mod 10) :: acc)) as [ds [H1 [H2 [H3 [H4 [H5 H6]]]]]].
    + split; [apply Z.div_pos; lia|]. apply Z.div_lt_upper_bound; lia.
    + exact Hf0.
    + exists (ds ++ [48 + v mod 10]). rewrite H1, <- app_assoc. split; [reflexivity|].
      rewrite app_length. cbn [length]. split; [|split; [|split; [|split]]].
      * unfold dec_number in *. rewrite number_app, H2. cbn [number]. rewrite Hd. f_equal. lia.
      * apply Forall_app. split; [exact H3|]. constructor; [lia|constructor].
      * intros k Hk Hvk. destruct k; [lia|]. rewrite Nat2Z.inj_succ, Z.pow_succ_r in Hvk by lia.
        assert (Hvk2 : v / 10 < 10 ^ Z.of_nat k) by (apply Z.div_lt_upper_bound; lia).
        destruct k as [|k].
        { exfalso. change (10 ^ Z.of_nat 0) with 1 in Hvk2. pose proof (Z.div_pos v 10). lia. }
        specialize (H4 (S k) ltac:(lia) Hvk2). lia.
      * intros k Hk. destruct k as [|k]; [lia|]. rewrite Nat2Z.inj_succ, Z.pow_succ_r in Hk by lia.
        assert (Hvk2 : 10 ^ Z.of_nat k <= v / 10) by (apply Z.div_le_lower_bound; lia).
        specialize (H5 k Hvk2). lia.
      * lia.
Qed.
Lemma fmt_u_ok : forall v, 0 <= v < 10 ^ 20 ->
  dec_number (fmt_u v) = Some v /\ Forall (fun c => 48 <= c <= 57) (fmt_u v) /\
    (forall k : nat, (0 < k)%nat -> v < 10 ^ Z.of_nat k -> (length (fmt_u v) <= k)%nat) /\
    (forall k : nat, 10 ^ Z.of_nat k <= v -> (k < length (fmt_u v))%nat) /\ (1 <= length (fmt_u v))%nat.
Proof.
  intros v Hv. unfold fmt_u. destruct (dec_loop_ok 20 v [] Hv ltac:(lia)) as [ds [H1 H2]]. rewrite H1, app_nil_r. exact H2.
Qed.
Lemma itoa_ok : forall v, 0 <= v < 10 ^ 9 -> dec_number (itoa v) = Some v /\ Forall (fun c => 48 <= c <= 57) (itoa v).
Proof.
  intros v Hv. unfold itoa. destruct (fmt_u_ok v ltac:(lia)) as [H1 [H2 [H3 _]]].
  rewrite firstn_all2 by (apply H3; lia). auto.
Qed.
(* number of a prefix of the digits is the number divided down *)
Lemma number_nonneg : forall s acc v, 0 <= acc -> number dec_digit 10 s acc = Some v -> acc * 10 ^ zlen s <= v < (acc + 1) * 10 ^ zlen s.
Proof.
  induction s as [|c s IH]; intros acc v Ha H; cbn [number] in H.
  - injection H as <-. rewrite zlen_nil. change (10 ^ 0) with 1. lia.
  - unfold dec_digit in H. destruct ((48 <=? c) && (c <=? 57)) eqn:E; [|discriminate].
    apply IH in H; [|lia]. rewrite zlen_cons. pose proof (zlen_nonneg _ s). rewrite Z.pow_add_r by lia. change (10 ^ 1) with 10.
    pose proof (Z.pow_pos_nonneg 10 (zlen s)). nia.
Qed.
Lemma itoa_wrong : forall v, 10 ^ 9 <= v < 2 ^ 32 -> dec_number (itoa v) = Some (v / 10).
Proof.
  intros v Hv. destruct (fmt_u_ok v ltac:(lia)) as [H1 [H2 [H3 [H4 _]]]].
  assert (Hl : length (fmt_u v) = 10%nat).
  { pose proof (H3 10%nat ltac:(lia) ltac:(change (10 ^ Z.of_nat 10) with 10000000000; lia)).
    pose proof (H4 9%nat ltac:(change (10 ^ Z.of_nat 9) with (10 ^ 9); lia)). lia. }
  unfold itoa. rewrite <- (firstn_skipn 9 (fmt_u v)) in H1. unfold dec_number in *. rewrite number_app in H1.
  destruct (number dec_digit 10 (firstn 9 (fmt_u v)) 0) as [w|] eqn:E; [|discriminate]. f_equal.
  assert (Hw : 0 <= w) by (apply number_nonneg in E; lia).
  assert (Hs : zlen (skipn 9 (fmt_u v)) = 1) by (unfold zlen; rewrite skipn_length; lia).
  apply number_nonneg in H1; [|exact Hw]. rewrite Hs in H1. change (10 ^ 1) with 10 in H1.
  apply Z.div_unique with (r := v - 10 * w); lia.
Qed.

(* ---- ReadLine ---- *)
Lemma read_line_ok : forall l r acc, ~ In 10 l ->
  read_line (l ++ 10 :: r) acc = (Some (rev acc ++ firstn (4095 - length acc) l), r).
Proof.
  induction l as [|c l IH]; intros r acc H; cbn [app read_line].
  - change (10 =? 10) with true. cbn iota. rewrite firstn_nil, app_nil_r. reflexivity.
  - replace (c =? 10) with false by (destruct (Z.eqb_spec c 10); [subst; exfalso; apply H; left; reflexivity|reflexivity]).
    rewrite IH by (intros Hin; apply H; right; exact Hin).
    destruct (Z.ltb_spec (zlen acc) (4096 - 1)) as [E|E]; unfold zlen in E.
    + replace (4095 - length acc)%nat with (S (4094 - length acc)) by lia. cbn [rev length firstn].
      replace (4095 - S (length acc))%nat with (4094 - length acc)%nat by lia. rewrite <- app_assoc. reflexivity.
    + replace (4095 - length acc)%nat with O by lia. rewrite !firstn_O. reflexivity.
Qed.
Lemma read_line_eof : forall l acc, ~ In 10 l -> read_line l acc = (None, []).
Proof.
  induction l as [|c l IH]; intros acc H; cbn [read_line]; [reflexivity|].
  replace (c =? 10) with false by (destruct (Z.eqb_spec c 10); [subst; exfalso; apply H; left; reflexivity|reflexivity]).
  apply IH. intros Hin. apply H. right. exact Hin.
Qed.
Lemma ReadLines_ok : forall f ls, lines f ls -> forall fuel, (length ls < fuel)%nat ->
  ReadLines fuel f = Ok (map (firstn 4095) ls).
Proof.
  intros f ls H. induction H as [f H|l r ls Hn H IH]; intros fuel Hf; (destruct fuel as [|fuel]; [cbn in Hf; lia|]); cbn [ReadLines ReadLine].
  - unfold ReadLine. rewrite read_line_eof by exact H. reflexivity.
  - unfold ReadLine. rewrite read_line_ok by exact Hn. cbn [rev app length]. rewrite IH by (cbn in Hf; lia). reflexivity.
Qed.
Lemma lines_total : forall f, exists ls, lines f ls.
Proof.
  intros f. remember (length f) as n eqn:E. assert (Hn : (length f <= n)%nat) by lia. clear E. revert f Hn.
  induction n as [|n IH]; intros f Hn.
  - destruct f; [|cbn in Hn; lia]. exists []. constructor. intros [].
  - destruct (in_dec Z.eq_dec 10 f) as [Hin|Hin]; [|exists []; constructor; exact Hin].
    assert (Hsp : exists l r, f = l ++ 10 :: r /\ ~ In 10 l).
    { clear -Hin. induction f as [|c f IH]; [destruct Hin|]. destruct (Z.eq_dec c 10) as [->|E].
      - exists [], f. split; [reflexivity|intros []].
      - destruct Hin as [Hin|Hin]; [contradiction|]. destruct (IH Hin) as [l [r [-> Hl]]].
        exists (c :: l), r. split; [reflexivity|]. intros [H|H]; [contradiction|auto]. }
    destruct Hsp as [l [r [-> Hl]]]. rewrite app_length in Hn. cbn in Hn. destruct (IH r ltac:(lia)) as [ls Hls].
    exists (l :: ls). constructor; assumption.
Qed.

(* ---- find, startswith ---- *)
Lemma find_from_ok : forall s pat pos,
  match find_from s pat pos with
  | Some j => exists a b, s = a ++ pat ++ b /\ j = (pos + length a)%nat /\
      (forall a' c' b', a = a' ++ c' -> c' <> [] -> c' ++ pat ++ b <> pat ++ b')
  | None => forall a b, s <> a ++ pat ++ b
  end.
Proof.
  induction s as [|c s IH]; intros pat pos; cbn [find_from].
  - destruct (is_prefix pat []) eqn:E.
    + apply is_prefix_spec in E. destruct E as [r Hr]. exists [], r. split; [exact Hr|]. split; [cbn; lia|].
      intros a' c' b' Ha Hc. destruct a', c'; try discriminate. contradiction.
    + intros a b H. destruct a; [|discriminate]. cbn in H.
      assert (is_prefix pat [] = true) by (apply is_prefix_spec; eauto). congruence.
  - destruct (is_prefix pat (c :: s)) eqn:E.
    + apply is_prefix_spec in E. destruct E as [r Hr]. exists [], r. split; [exact Hr|]. split; [cbn; lia|].
      intros a' c' b' Ha Hc. destruct a', c'; try discriminate. contradiction.
    + specialize (IH pat (S pos)). destruct (find_from s pat (S pos)) as [j|].
      * destruct IH as [a [b [H1 [H2 H3]]]]. exists (c :: a), b. split; [cbn; rewrite <- H1; reflexivity|]. split; [cbn; lia|].
        intros a' c' b' Ha Hc Heq. destruct a' as [|y a'].
        -- cbn in Ha. subst c'. cbn in Heq. rewrite <- H1 in Heq.
           assert (is_prefix pat (c :: s) = true) by (apply is_prefix_spec; exists b'; exact Heq). congruence.
        -- cbn in Ha. injection Ha as <- Ha. exact (H3 a' c' b' Ha Hc Heq).
      * intros a b H. destruct a as [|y a].
        -- cbn in H. assert (is_prefix pat (c :: s) = true) by (apply is_prefix_spec; eauto). congruence.
        -- cbn in H. injection H as -> H. exact (IH a b H).
Qed.
Lemma find_from_here : forall s pat pos, is_prefix pat s = true -> find_from s pat pos = Some pos.
Proof. intros s pat pos H. destruct s; cbn; rewrite H; reflexivity. Qed.
Lemma find_from_ge : forall s pat pos j, find_from s pat pos = Some j -> (pos <= j)%nat.
Proof.
  induction s as [|c s IH]; intros pat pos j H; cbn [find_from] in H; destruct (is_prefix pat _); try discriminate.
  - injection H as <-. lia.
  - injection H as <-. lia.
  - apply IH in H. lia.
Qed.
Lemma startswith_ok : forall text cmp, startswith text cmp = true <-> exists r, text = cmp ++ r.
Proof.
  intros text cmp. unfold startswith, string_find. cbn [Nat.ltb Nat.leb skipn]. rewrite <- is_prefix_spec.
  replace (length text <? 0)%nat with false by (symmetry; apply Nat.ltb_ge; lia).
  destruct text as [|c text]; cbn [find_from skipn].
  - destruct (is_prefix cmp []) eqn:E; split; intros; congruence.
  - destruct (is_prefix cmp (c :: text)) eqn:E; [split; auto|]. split; [|discriminate].
    destruct (find_from text cmp 1) as [j|] eqn:Ej; [|discriminate]. apply find_from_ge in Ej. destruct j; [lia|discriminate].
Qed.

(* ---- SkipWhitespace ---- *)
Lemma skip_ok : forall text, exists blanks, text = blanks ++ SkipWhitespace text /\
  Forall (fun c => c = 32 \/ c = 9) blanks /\ (forall c r, SkipWhitespace text = c :: r -> c <> 32 /\ c <> 9).
Proof.
  induction text as [|c text [bl [H1 [H2 H3]]]]; cbn [SkipWhitespace].
  - exists []. split; [reflexivity|]. split; [constructor|]. intros; discriminate.
  - destruct (Z.eqb_spec c 32) as [E|E]; [|destruct (Z.eqb_spec c 9) as [E'|E']]; cbn [orb].
    + exists (c :: bl). split; [cbn; rewrite <- H1; reflexivity|]. split; [constructor; auto|exact H3].
    + exists (c :: bl). split; [cbn; rewrite <- H1; reflexivity|]. split; [constructor; auto|exact H3].
    + exists []. split; [reflexivity|]. split; [constructor|]. intros c' r H. injection H as <- _. auto.
Qed.

(* ---- ConsumeToken ---- *)
Lemma consume_loop_ok : forall tok rest delim pre dest n,
  Forall (fun c => c <> delim) tok -> (forall c r, rest = c :: r -> c = delim) ->
  zlen pre + zlen tok <= n -> zlen tok <= zlen dest ->
  exists dest', consume_loop (tok ++ rest) delim (pre ++ dest) (zlen pre) n = Ok (rest, pre ++ tok ++ dest', zlen pre + zlen tok) /\
    zlen dest' = zlen dest - zlen tok.
Proof.
  induction tok as [|c tok IH]; intros rest delim pre dest n Ht Hr Hn Hd; cbn [app].
  - exists dest. rewrite zlen_nil. split; [|lia]. rewrite Z.add_0_r. destruct rest as [|c r]; cbn [consume_loop]; [reflexivity|].
    rewrite (Hr c r eq_refl), Z.eqb_refl. reflexivity.
  - rewrite zlen_cons in *. pose proof (zlen_nonneg _ tok). inversion Ht as [|a b Hc Ht2]; subst a b.
    destruct dest as [|x dest]; [rewrite zlen_nil in Hd; lia|]. rewrite zlen_cons in Hd.
    cbn [consume_loop]. replace (c =? delim) with false by lia. replace (zlen pre =? n) with false by lia. cbn [negb andb].
    rewrite wr_mid. cbn [obind].
    destruct (IH rest delim (pre ++ [c]) dest n Ht2 Hr) as [dest' [H1 H2]]; [rewrite zlen_app; change (zlen [c]) with 1; lia|lia|].
    exists dest'. rewrite zlen_app in H1. change (zlen [c]) with 1 in H1. rewrite <- !app_assoc in H1. cbn [app] in H1.
    rewrite H1. split; [|rewrite zlen_cons; lia]. f_equal. f_equal. lia.
Qed.
(* token shorter than the buffer: copied, terminated, rest returned *)
Lemma consume_ok : forall tok rest delim dest, Forall (fun c => c <> delim /\ c <> 0) tok ->
  (forall c r, rest = c :: r -> c = delim) -> zlen tok < zlen dest ->
  exists dest', ConsumeToken (tok ++ rest) delim dest (zlen dest) = Ok (rest, dest') /\ c_str dest' = Ok tok /\ zlen dest' = zlen dest.
Proof.
  intros tok rest delim dest Ht Hr Hl. unfold ConsumeToken. pose proof (zlen_nonneg _ tok).
  destruct (consume_loop_ok tok rest delim [] dest (zlen dest)) as [d' [H1 H2]].
  - eapply Forall_impl; [|exact Ht]. cbn. tauto.
  - exact Hr.
  - rewrite zlen_nil. lia.
  - lia.
  - rewrite zlen_nil in H1. cbn [app] in H1. rewrite H1. cbn [obind fst snd]. rewrite Z.add_0_l.
    destruct d' as [|x d']; [rewrite zlen_nil in H2; lia|]. rewrite wr_mid. cbn [obind].
    eexists. split; [reflexivity|]. split.
    + apply c_str_app. eapply Forall_impl; [|exact Ht]. cbn. tauto.
    + rewrite zlen_cons in H2. rewrite zlen_app, zlen_cons. lia.
Qed.
(* token at least as long as the buffer: the terminator lands one past the end *)
Lemma consume_loop_long : forall tok rest delim pre dest,
  Forall (fun c => c <> delim) tok -> zlen dest <= zlen tok ->
  exists rest' full, consume_loop (tok ++ rest) delim (pre ++ dest) (zlen pre) (zlen pre + zlen dest) =
     Ok (rest', full, zlen pre + zlen dest) /\ zlen full = zlen pre + zlen dest.
Proof.
  induction tok as [|c tok IH]; intros rest delim pre dest Ht Hd; cbn [app].
  - rewrite zlen_nil in Hd. pose proof (zlen_nonneg _ dest). assert (E : zlen dest = 0) by lia. apply zlen_0_nil in E. subst dest.
    rewrite app_nil_r, zlen_nil, Z.add_0_r. exists rest, pre. split; [|lia].
    destruct rest as [|c r]; cbn [consume_loop]; [reflexivity|]. rewrite Z.eqb_refl. cbn [negb]. rewrite andb_false_r. reflexivity.
  - inversion Ht as [|a b Hc Ht2]; subst a b. cbn [consume_loop]. destruct dest as [|x dest].
    + rewrite app_nil_r, zlen_nil, Z.add_0_r, Z.eqb_refl. cbn [negb]. rewrite andb_false_r.
      exists (c :: tok ++ rest), pre. split; [reflexivity|lia].
    + rewrite !zlen_cons in *. pose proof (zlen_nonneg _ dest).
      replace (c =? delim) with false by lia. replace (zlen pre =? zlen pre + (1 + zlen dest)) with false by lia. cbn [negb andb].
      rewrite wr_mid. cbn [obind].
      destruct (IH rest delim (pre ++ [c]) dest Ht2 ltac:(lia)) as [rest' [full [H1 H2]]].
      rewrite zlen_app in *. change (zlen [c]) with 1 in *. rewrite <- app_assoc in H1. cbn [app] in H1.
      exists rest', full. replace (zlen pre + (1 + zlen dest)) with (zlen pre + 1 + zlen dest) by lia. rewrite H1. split; [reflexivity|lia].
Qed.
Lemma consume_long : forall tok rest delim dest, Forall (fun c => c <> delim) tok -> zlen dest <= zlen tok ->
  ConsumeToken (tok ++ rest) delim dest (zlen dest) = UB.
Proof.
  intros tok rest delim dest Ht Hd. unfold ConsumeToken.
  destruct (consume_loop_long tok rest delim [] dest Ht Hd) as [r [full [H1 H2]]]. rewrite zlen_nil, !Z.add_0_l in *. cbn [app] in H1.
  rewrite H1. cbn [obind fst snd]. rewrite wr_out by lia. reflexivity.
Qed.

(* ---- StringReplace ---- *)
Lemma app_cancel_prefix : forall (p : list Z) a b, p ++ a = p ++ b -> a = b.
Proof. intros p a b H. apply app_inv_head in H. exact H. Qed.
Lemma replaced_skip : forall pat rep a s r,
  (forall a' c' b', a = a' ++ c' -> c' <> [] -> c' ++ s <> pat ++ b') -> replaced pat rep s r -> replaced pat rep (a ++ s) (a ++ r).
Proof.
  induction a as [|c a IH]; intros s r H Hr; [exact Hr|]. cbn [app]. apply rep_miss.
  - intros t Ht. exact (H [] (c :: a) t eq_refl ltac:(discriminate) Ht).
  - apply IH; [|exact Hr]. intros a' c' b' Ha Hc. exact (H (c :: a') c' b' ltac:(cbn; rewrite Ha; reflexivity) Hc).
Qed.
Lemma replaced_id : forall pat rep s, (forall a b, s <> a ++ pat ++ b) -> replaced pat rep s s.
Proof.
  induction s as [|c s IH]; intros H; [constructor|]. apply rep_miss.
  - intros t Ht. exact (H [] t Ht).
  - apply IH. intros a b Hs. apply (H (c :: a) b). cbn. rewrite Hs. reflexivity.
Qed.
Lemma replace_loop_ok : forall fuel pat rep done s, pat <> [] -> (length s < fuel)%nat ->
  exists r, replace_loop fuel (done ++ s) pat rep (length done) = Ok (done ++ r) /\ replaced pat rep s r.
Proof.
  induction fuel as [|fuel IH]; intros pat rep done s Hp Hf; [lia|]. cbn [replace_loop]. unfold string_find.
  replace (length (done ++ s) <? length done)%nat with false by (symmetry; apply Nat.ltb_ge; rewrite app_length; lia).
  rewrite skipn_app, Nat.sub_diag, skipn_all. cbn [app skipn].
  pose proof (find_from_ok s pat (length done)) as Hff. destruct (find_from s pat (length done)) as [j|].
  - destruct Hff as [a [b [H1 [H2 H3]]]]. subst s j.
    assert (E1 : firstn (length done + length a) (done ++ a ++ pat ++ b) = done ++ a).
    { rewrite app_assoc. rewrite <- app_length. rewrite firstn_app, Nat.sub_diag, firstn_O, app_nil_r, firstn_all. reflexivity. }
    assert (E2 : skipn (length done + length a + length pat) (done ++ a ++ pat ++ b) = b).
    { rewrite !app_assoc. rewrite <- !app_length. rewrite skipn_app, Nat.sub_diag, skipn_all. reflexivity. }
    rewrite E1, E2.
    destruct (IH pat rep ((done ++ a) ++ rep) b Hp) as [r [H4 H5]].
    { destruct pat; [contradiction|]. rewrite !app_length in Hf. cbn in Hf. lia. }
    rewrite <- app_assoc in H4 at 1. rewrite !app_length in H4. rewrite H4.
    exists (a ++ rep ++ r). split; [rewrite <- !app_assoc; reflexivity|].
    apply replaced_skip.
    + intros a' c' b' Ha Hc. exact (H3 a' c' b' Ha Hc).
    + apply rep_hit. exact H5.
  - exists s. split; [reflexivity|]. apply replaced_id. exact Hff.
Qed.
Lemma replace_ok : forall fuel pat rep s, pat <> [] -> (length s < fuel)%nat ->
  exists r, StringReplace fuel s pat rep = Ok r /\ replaced pat rep s r.
Proof. intros fuel pat rep s Hp Hf. exact (replace_loop_ok fuel pat rep [] s Hp Hf). Qed.
Lemma replaced_fun : forall pat rep s r, replaced pat rep s r -> pat <> [] -> forall r', replaced pat rep s r' -> r = r'.
Proof.
  intros pat rep s r H Hp. induction H as [|s r H IH|c s r Hn H IH]; intros r' H'.
  - inversion H' as [|s' r0 Hr E1 E2|]; [reflexivity|]. destruct pat; [contradiction|discriminate].
  - inversion H' as [E1 E2|s' r0 Hr E1 E2|c s' r0 Hn Hr E1 E2].
    + destruct pat; [contradiction|discriminate].
    + apply app_inv_head in E1. subst s'. f_equal. apply IH. exact Hr.
    + exfalso. exact (Hn s E1).
  - inversion H' as [|s' r0 Hr E1 E2|c' s' r0 Hn' Hr E1 E2].
    + exfalso. exact (Hn s' (eq_sym E1)).
    + f_equal. apply IH. exact Hr.
Qed.
Lemma replace_empty_loops : forall fuel s rep, StringReplace fuel s [] rep = Fuel.
Proof.
  intros fuel s rep. unfold StringReplace. assert (H : forall fuel s i, (i <= length s)%nat -> replace_loop fuel s [] rep i = Fuel).
  { clear. induction fuel as [|fuel IH]; intros s i Hi; [reflexivity|]. cbn [replace_loop]. unfold string_find.
    replace (length s <? i)%nat with false by (symmetry; apply Nat.ltb_ge; lia).
    rewrite find_from_here by reflexivity. apply IH. rewrite !app_length, firstn_length, skipn_length. cbn [length]. lia. }
  apply H. lia.
Qed.
