(* Proofs about JSON documents that are cut short *)
From Verif Require Import Base BaseProofs Text JsonLexModel JsonLexSpec JsonLexProofs JsonNumModel JsonNumProofs JsonObjModel JsonObjSpec JsonObjProofs.

(* ---- what the lexer reads without running out is read from any longer text ---- *)
Definition ext (a b : list Z) : Prop := exists x, b = a ++ x.
Lemma ext_rd : forall a b i x, ext a b -> rd a i = Ok x -> rd b i = Ok x.
Proof.
  intros a b i x [y ->] H. unfold rd in *. destruct (znth a i) as [z|] eqn:E; [|discriminate]. injection H as ->. unfold znth in *. destruct (i <? 0); [discriminate|].
  rewrite nth_error_app1; [rewrite E; reflexivity|]. apply nth_error_Some. congruence.
Qed.
Lemma ext_drop : forall a b n, ext a b -> ext (drop n a) (drop n b).
Proof. intros a b n [x ->]. unfold drop. rewrite skipn_app. eexists. reflexivity. Qed.
Lemma bind_ok : forall (A B : Type) (m : outcome A) (f : A -> outcome B) b, obind m f = Ok b -> exists a, m = Ok a /\ f a = Ok b.
Proof. intros A B [a| | |] f b H; try discriminate. exists a. auto. Qed.
Lemma ok_inj : forall (A : Type) (a b : A), Ok a = Ok b -> a = b.
Proof. congruence. Qed.
Ltac unbind H x Hx := apply bind_ok in H; destruct H as [x [Hx H]].

Lemma digits_span_ext : forall a n b, ext a b -> digits_span a = Ok n -> digits_span b = Ok n.
Proof.
  induction a as [|ch a IH]; intros n b [x ->] H; [discriminate|]. cbn [app digits_span] in *. destruct (isdigit ch); [|exact H]. unbind H k Hk. rewrite (IH k (a ++ x) ltac:(exists x; reflexivity) Hk), bind_Ok. exact H.
Qed.
Lemma exponent_span_ext : forall a n b, ext a b -> exponent_span a = Ok n -> exponent_span b = Ok n.
Proof.
  intros a n b HE H. unfold exponent_span in *. unbind H ch Hc. rewrite (ext_rd _ _ _ _ HE Hc), bind_Ok. destruct (_ || _); [|exact H]. unbind H s Hs. rewrite (ext_rd _ _ _ _ HE Hs), bind_Ok. unbind H k Hk. rewrite (digits_span_ext _ _ _ (ext_drop _ _ _ HE) Hk), bind_Ok. exact H.
Qed.
Lemma strtod_span_ext : forall a n b, ext a b -> strtod_span a = Ok n -> strtod_span b = Ok n.
Proof.
  intros a n b HE H. unfold strtod_span in *. unbind H s Hs. rewrite (ext_rd _ _ _ _ HE Hs), bind_Ok. unbind H k Hk. rewrite (digits_span_ext _ _ _ (ext_drop _ _ _ HE) Hk), bind_Ok. unbind H p Hp. rewrite (ext_rd _ _ _ _ HE Hp), bind_Ok. destruct (p =? 46).
  - unbind H f Hf. rewrite (digits_span_ext _ _ _ (ext_drop _ _ _ HE) Hf), bind_Ok. unbind H e He. rewrite (exponent_span_ext _ _ _ (ext_drop _ _ _ HE) He), bind_Ok. exact H.
  - unbind H e He. rewrite (exponent_span_ext _ _ _ (ext_drop _ _ _ HE) He), bind_Ok. exact H.
Qed.

Section Cut.
Variables cut full : list Z.
Hypothesis Hext : ext cut full.
Hypothesis Hsmall : small full.
Lemma cut_len : 0 <= zlen cut <= zlen full /\ zlen full < 2 ^ 31 /\ (length cut <= length full)%nat.
Proof. destruct Hext as [x Hx]. unfold small in Hsmall. rewrite Hx in *. rewrite zlen_app, app_length in *. pose proof (zlen_nonneg _ x). pose proof (zlen_nonneg _ cut). lia. Qed.
Lemma cut_u32 : u32 (zlen cut) = zlen cut /\ u32 (zlen full) = zlen full.
Proof. pose proof cut_len. unfold u32. rewrite !Z.mod_small by lia. auto. Qed.
Lemma over_cut : forall c n, overflows cut c n = false -> overflows full c n = false.
Proof. intros c n H. unfold overflows in *. destruct cut_u32 as [E1 E2]. rewrite E1 in H. rewrite E2. pose proof cut_len. lia. Qed.
Lemma consume_cut : forall c n c', ConsumeChars cut c n = Ok c' -> ConsumeChars full c n = Ok c'.
Proof. intros c n c' H. unfold ConsumeChars, assert in *. destruct (jc_pos c + n <=? zlen cut) eqn:E; [|discriminate]. pose proof cut_len. replace (jc_pos c + n <=? zlen full) with true by lia. exact H. Qed.
Lemma consume_pos : forall c n c', ConsumeChars cut c n = Ok c' -> jc_pos c' = jc_pos c + n /\ jc_pos c' <= zlen cut /\ jc_err c' = jc_err c.
Proof. intros c n c' H. unfold ConsumeChars, assert in *. destruct (jc_pos c + n <=? zlen cut) eqn:E; [|discriminate]. rewrite bind_Ok in H. injection H as <-. cbn. split; [reflexivity|]. split; [lia|reflexivity]. Qed.
Lemma peeks_cut : forall c p, PeekChars cut c = Ok p -> PeekChars full c = Ok p.
Proof. intros c p H. unfold PeekChars, assert in *. destruct (u32 (jc_pos c) <=? zlen cut) eqn:E; [|discriminate]. pose proof cut_len. replace (u32 (jc_pos c) <=? zlen full) with true by lia. exact H. Qed.
Lemma peek_cut : forall c x, PeekChar cut c = Ok x -> PeekChar full c = Ok x.
Proof. intros c x H. unfold PeekChar in *. unbind H p Hp. rewrite (peeks_cut _ _ Hp), bind_Ok. exact (ext_rd _ _ _ _ Hext H). Qed.
Lemma rd_cut : forall i x, rd cut i = Ok x -> rd full i = Ok x.
Proof. intros i x. apply ext_rd. exact Hext. Qed.

(* errors stay *)
Definition bad (c : jctx) : Prop := je_code (jc_err c) <> E_NONE.
Lemma bad_error : forall c e, e <> E_NONE -> bad (SetError c e).
Proof. intros c e H. apply SetError_code. exact H. Qed.
Lemma bad_consume : forall c n c', bad c -> ConsumeChars cut c n = Ok c' -> bad c'.
Proof. intros c n c' Hb H. unfold bad. rewrite (proj2 (proj2 (consume_pos _ _ _ H))). exact Hb. Qed.
Lemma bad_hex4 : forall c x c', bad c -> Lexer32bitHexDigits cut c = Ok (x, c') -> bad c'.
Proof.
  intros c x c' Hb H. unfold Lexer32bitHexDigits in H. unbind H c1 H1. pose proof (bad_consume _ _ _ Hb H1) as Hb1. destruct (overflows cut c1 4); [injection H as _ <-; apply bad_error; discriminate|].
  unbind H p Hp. unbind H d0 Hd. unbind H ok Hok. destruct ok; [|injection H as _ <-; apply bad_error; discriminate]. unbind H c2 H2. injection H as _ <-. exact (bad_consume _ _ _ Hb1 H2).
Qed.
Lemma bad_escape : forall c x c', bad c -> LexerEscapeSequence cut c = Ok (x, c') -> bad c'.
Proof.
  intros c x c' Hb H. unfold LexerEscapeSequence in H. unbind H c1 H1. pose proof (bad_consume _ _ _ Hb H1) as Hb1. destruct (overflows cut c1 0); [injection H as _ <-; apply bad_error; discriminate|].
  unbind H ch Hc. destruct (_ || _); [unbind H c2 H2; injection H as _ <-; exact (bad_consume _ _ _ Hb1 H2)|]. destruct (ch =? 117); [|injection H as _ <-; apply bad_error; discriminate].
  unbind H y Hy. injection H as _ <-. destruct y as [k c2]. exact (bad_hex4 _ _ _ Hb1 Hy).
Qed.
Lemma bad_string : forall fuel c start len t c', bad c -> string_loop fuel cut c start len = Ok (t, c') -> bad c'.
Proof.
  induction fuel as [|fuel IH]; intros c start len t c' Hb H; [discriminate|]. cbn [string_loop] in H. destruct (overflows cut c 0); [injection H as _ <-; apply bad_error; discriminate|].
  unbind H ch Hc. destruct (ch =? 34); [unbind H c2 H2; injection H as _ <-; exact (bad_consume _ _ _ Hb H2)|]. destruct (ch =? 92).
  - unbind H x Hx. destruct x as [k c2]. cbn [fst snd] in H. pose proof (bad_escape _ _ _ Hb Hx) as Hb2. destruct (k =? 0); [injection H as _ <-; exact Hb2|]. exact (IH _ _ _ _ _ Hb2 H).
  - unbind H c2 H2. exact (IH _ _ _ _ _ (bad_consume _ _ _ Hb H2) H).
Qed.

(* strings *)
Lemma hex4_cut : forall c x c', Lexer32bitHexDigits cut c = Ok (x, c') -> bad c' \/ Lexer32bitHexDigits full c = Ok (x, c').
Proof.
  intros c x c' H. unfold Lexer32bitHexDigits in *. unbind H c1 H1. unfold ConsumeChar in *. rewrite (consume_cut _ _ _ H1), bind_Ok. destruct (overflows cut c1 4) eqn:Eo; [left; injection H as _ <-; apply bad_error; discriminate|]. rewrite (over_cut _ _ Eo).
  unbind H p Hp. rewrite (peeks_cut _ _ Hp), bind_Ok. unbind H d0 Hd. rewrite (rd_cut _ _ Hd), bind_Ok. unbind H ok Hok. destruct ok; [|left; injection H as _ <-; apply bad_error; discriminate]. right.
  destruct (ishexdigit d0); [|discriminate]. unbind Hok d1 Hd1. rewrite (rd_cut _ _ Hd1), bind_Ok. destruct (ishexdigit d1); [|discriminate]. unbind Hok d2 Hd2. rewrite (rd_cut _ _ Hd2), bind_Ok. destruct (ishexdigit d2); [|discriminate].
  unbind Hok d3 Hd3. rewrite (rd_cut _ _ Hd3), bind_Ok, Hok, bind_Ok. unbind H c2 H2. rewrite (consume_cut _ _ _ H2), bind_Ok. exact H.
Qed.
Lemma escape_cut : forall c x c', LexerEscapeSequence cut c = Ok (x, c') -> bad c' \/ LexerEscapeSequence full c = Ok (x, c').
Proof.
  intros c x c' H. unfold LexerEscapeSequence in *. unbind H c1 H1. unfold ConsumeChar in *. rewrite (consume_cut _ _ _ H1), bind_Ok. destruct (overflows cut c1 0) eqn:Eo; [left; injection H as _ <-; apply bad_error; discriminate|]. rewrite (over_cut _ _ Eo).
  unbind H ch Hc. rewrite (peek_cut _ _ Hc), bind_Ok. destruct (_ || _); [right; unbind H c2 H2; rewrite (consume_cut _ _ _ H2), bind_Ok; exact H|]. destruct (ch =? 117); [|left; injection H as _ <-; apply bad_error; discriminate].
  unbind H y Hy. destruct y as [k c2]. destruct (hex4_cut _ _ _ Hy) as [Hb|HF]; [left; injection H as _ <-; exact Hb|right; rewrite HF, bind_Ok; exact H].
Qed.
Lemma string_cut : forall fuel fuel' c start len t c', (fuel <= fuel')%nat -> string_loop fuel cut c start len = Ok (t, c') -> IsValid t = true -> no_error c' -> string_loop fuel' full c start len = Ok (t, c').
Proof.
  induction fuel as [|fuel IH]; intros fuel' c start len t c' Hf H Hv Hn; [discriminate|]. destruct fuel' as [|fuel']; [lia|]. cbn [string_loop] in *. destruct (overflows cut c 0) eqn:Eo; [injection H as <- _; discriminate|]. rewrite (over_cut _ _ Eo).
  unbind H ch Hc. rewrite (peek_cut _ _ Hc), bind_Ok. destruct (ch =? 34); [unbind H c2 H2; unfold ConsumeChar in *; rewrite (consume_cut _ _ _ H2), bind_Ok; exact H|]. destruct (ch =? 92).
  - unbind H x Hx. destruct x as [k c2]. cbn [fst snd] in H. destruct (k =? 0) eqn:Ek; [injection H as <- _; discriminate|]. destruct (escape_cut _ _ _ Hx) as [Hb|HF]; [exfalso; exact (bad_string _ _ _ _ _ _ Hb H Hn)|]. rewrite HF, bind_Ok. cbn [fst snd]. rewrite Ek. apply IH; [lia|exact H|exact Hv|exact Hn].
  - unbind H c2 H2. unfold ConsumeChar in *. rewrite (consume_cut _ _ _ H2), bind_Ok. apply IH; [lia|exact H|exact Hv|exact Hn].
Qed.

(* numbers *)
Lemma integer_loop_cut : forall fuel fuel' c ch v w c', (fuel <= fuel')%nat -> 0 <= jc_pos c -> integer_loop fuel cut c ch v = Ok (Some w, c') -> integer_loop fuel' full c ch v = Ok (Some w, c') /\ inside cut c'.
Proof.
  induction fuel as [|fuel IH]; intros fuel' c ch v w c' Hf Hp H; [discriminate|]. destruct fuel' as [|fuel']; [lia|]. cbn [integer_loop] in *. unbind H c1 H1. unfold ConsumeChar in *. rewrite (consume_cut _ _ _ H1), bind_Ok. cbv zeta in *.
  pose proof (consume_pos _ _ _ H1) as [P1 [P2 _]]. destruct (overflows cut c1 0) eqn:Eo; [discriminate|]. rewrite (over_cut _ _ Eo). unbind H x Hx. rewrite (peek_cut _ _ Hx), bind_Ok. destruct (isdigit x); [apply IH; [lia|lia|exact H]|]. split; [exact H|]. injection H as _ <-. unfold inside. lia.
Qed.
Lemma integer_cut : forall c w c', 0 <= jc_pos c -> LexerInteger cut c = Ok (Some w, c') -> LexerInteger full c = Ok (Some w, c') /\ inside cut c'.
Proof.
  intros c w c' Hp H. unfold LexerInteger in *. destruct (overflows cut c 0) eqn:Eo; [discriminate|]. rewrite (over_cut _ _ Eo). unbind H x Hx. rewrite (peek_cut _ _ Hx), bind_Ok. destruct (isdigit x); cbn [negb] in *; [|discriminate].
  apply integer_loop_cut with (fuel := S (length cut)); [pose proof cut_len; lia|exact Hp|exact H].
Qed.
Lemma hex_loop_cut : forall fuel fuel' c ty ch v t c', (fuel <= fuel')%nat -> hex_loop fuel cut c ty ch v = Ok (t, c') -> IsValid t = true -> hex_loop fuel' full c ty ch v = Ok (t, c').
Proof.
  induction fuel as [|fuel IH]; intros fuel' c ty ch v t c' Hf H Hv; [discriminate|]. destruct fuel' as [|fuel']; [lia|]. cbn [hex_loop] in *. unbind H c1 H1. unfold ConsumeChar in *. rewrite (consume_cut _ _ _ H1), bind_Ok. cbv zeta in *.
  destruct (overflows cut c1 0) eqn:Eo; [injection H as <- _; discriminate|]. rewrite (over_cut _ _ Eo). unbind H x Hx. rewrite (peek_cut _ _ Hx), bind_Ok. destruct (ishexdigit x); [apply IH; [lia|exact H|exact Hv]|exact H].
Qed.
Lemma hex_cut : forall c ty t c', LexerHexInteger cut c ty = Ok (t, c') -> IsValid t = true -> LexerHexInteger full c ty = Ok (t, c').
Proof.
  intros c ty t c' H Hv. unfold LexerHexInteger in *. destruct (overflows cut c 0) eqn:Eo; [injection H as <- _; discriminate|]. rewrite (over_cut _ _ Eo). unbind H x Hx. rewrite (peek_cut _ _ Hx), bind_Ok. destruct (ishexdigit x); cbn [negb] in *; [|injection H as <- _; discriminate].
  apply hex_loop_cut with (fuel := S (length cut)); [pose proof cut_len; lia|exact H|exact Hv].
Qed.
Lemma verify_digits_cut : forall fuel fuel' d stop stop' e, (fuel <= fuel')%nat -> stop <= stop' -> VerifyDigits fuel cut d stop = Ok (Some e) -> VerifyDigits fuel' full d stop' = Ok (Some e).
Proof.
  induction fuel as [|fuel IH]; intros fuel' d stop stop' e Hf Hs H; [discriminate|]. destruct fuel' as [|fuel']; [lia|]. cbn [VerifyDigits] in *. destruct (d >=? stop) eqn:Ed; [discriminate|]. replace (d >=? stop') with false by lia.
  unbind H ch Hc. rewrite (rd_cut _ _ Hc), bind_Ok. destruct (isdigit ch); [apply IH with (stop := stop); [lia|lia|exact H]|exact H].
Qed.
Lemma verify_exponent_cut : forall c d stop stop' c', stop <= stop' -> VerifyExponent cut c d stop = Ok (true, c') -> VerifyExponent full c d stop' = Ok (true, c').
Proof.
  intros c d stop stop' c' Hs H. unfold VerifyExponent in *. unbind H ch Hc. rewrite (rd_cut _ _ Hc), bind_Ok. unbind H e He. destruct e as [e|]; [|discriminate]. rewrite (verify_digits_cut (S (length cut)) (S (length full)) _ stop stop' e); [rewrite bind_Ok; exact H|pose proof cut_len; lia|exact Hs|exact He].
Qed.
Lemma verify_decimal_cut : forall c d len len' c', len <= len' -> VerifyDecimal cut c d len = Ok (true, c') -> VerifyDecimal full c d len' = Ok (true, c').
Proof.
  intros c d len len' c' Hl H. unfold VerifyDecimal in *. destruct (len <? 2) eqn:El; [discriminate|]. replace (len' <? 2) with false by lia. cbv zeta in *. unbind H ch Hc. rewrite (rd_cut _ _ Hc), bind_Ok. destruct (ch =? 46).
  - unbind H e He. destruct e as [e|]; [|discriminate]. rewrite (verify_digits_cut (S (length cut)) (S (length full)) _ (d + len) (d + len') e); [|pose proof cut_len; lia|lia|exact He]. rewrite bind_Ok. unbind H x Hx. rewrite (rd_cut _ _ Hx), bind_Ok. destruct (_ && _); [exact H|]. eapply verify_exponent_cut; [|exact H]. lia.
  - eapply verify_exponent_cut; [|exact H]. lia.
Qed.
Lemma verify_same : forall c d len c', VerifyDecimal cut c d len = Ok (true, c') -> c' = c.
Proof.
  intros c d len c' H. unfold VerifyDecimal, VerifyExponent in H. destruct (len <? 2); [discriminate|]. unbind H ch Hc. destruct (ch =? 46).
  - unbind H e He. destruct e as [e|]; [|discriminate]. unbind H x Hx. destruct (_ && _); [injection H as ->; reflexivity|]. unbind H y Hy. unbind H z Hz. destruct z; [injection H as ->; reflexivity|discriminate].
  - unbind H y Hy. unbind H z Hz. destruct z; [injection H as ->; reflexivity|discriminate].
Qed.
Lemma digits_span_nonneg : forall a n, digits_span a = Ok n -> 0 <= n.
Proof. induction a as [|c a IH]; intros n H; [discriminate|]. cbn [digits_span] in H. destruct (isdigit c); [|apply ok_inj in H; lia]. unbind H k Hk. apply ok_inj in H; subst n. specialize (IH k Hk). lia. Qed.
Lemma strtod_span_nonneg : forall a n, strtod_span a = Ok n -> 0 <= n.
Proof.
  intros a n H. unfold strtod_span in H. unbind H s Hs. unbind H k Hk. unbind H p Hp. apply digits_span_nonneg in Hk.
  assert (HX : forall t e, exponent_span t = Ok e -> 0 <= e). { intros t e He. unfold exponent_span in He. unbind He x Hx. destruct (_ || _); [|apply ok_inj in He; lia]. unbind He y Hy. unbind He z Hz. apply digits_span_nonneg in Hz. destruct (z =? 0); apply ok_inj in He; subst e; [lia|]. destruct (_ || _); lia. }
  destruct (p =? 46).
  - unbind H f Hf. unbind H e He. apply digits_span_nonneg in Hf. apply HX in He. apply ok_inj in H; subst n. destruct (s =? 45); lia.
  - unbind H e He. apply HX in He. apply ok_inj in H; subst n. destruct (s =? 45); lia.
Qed.
Lemma slice_cut : forall off n, 0 <= off -> 0 <= n -> off + n <= zlen cut -> slice full off n = slice cut off n.
Proof.
  intros off n H1 H2 H3. destruct Hext as [x ->]. unfold slice. rewrite skipn_app, firstn_app. unfold zlen in H3. rewrite skipn_length. replace (Z.to_nat n - (length cut - Z.to_nat off))%nat with 0%nat by lia. cbn. apply app_nil_r.
Qed.
Lemma number_cut_short : forall sd c t c', inside cut c -> LexerNumber sd cut c = Ok (t, c') -> IsValid t = true -> LexerNumber sd full c = Ok (t, c').
Proof.
  intros sd c t c' [Hi1 Hi2] H Hv. unfold LexerNumber in *. unbind H ns Hns. rewrite (peeks_cut _ _ Hns), bind_Ok. unbind H ch Hch. rewrite (peek_cut _ _ Hch), bind_Ok. destruct ((ch =? 48) && overflows cut c 1) eqn:Eo; [injection H as <- _; discriminate|].
  assert (Eo' : (ch =? 48) && overflows full c 1 = false). { destruct (ch =? 48); [|reflexivity]. cbn [andb] in *. apply over_cut. exact Eo. } rewrite Eo'.
  unbind H pre Hpre. assert (Hpre' : (if ch =? 48 then do p <- Ok ns; do x <- rd full (p + 1); Ok x else Ok 0) = Ok pre).
  { destruct (ch =? 48); [|exact Hpre]. unbind Hpre p Hp. assert (p = ns) by congruence. subst p. rewrite bind_Ok. unbind Hpre x Hx. rewrite (rd_cut _ _ Hx), bind_Ok. exact Hpre. } rewrite Hpre', bind_Ok.
  destruct (pre =? 100); [unbind H c1 H1; rewrite (consume_cut _ _ _ H1), bind_Ok; apply hex_cut; assumption|]. destruct (pre =? 120); [unbind H c1 H1; rewrite (consume_cut _ _ _ H1), bind_Ok; apply hex_cut; assumption|].
  unbind H c1 H1. assert (H1' : (if ch =? 45 then ConsumeChar full c else Ok c) = Ok c1) by (destruct (ch =? 45); [exact (consume_cut _ _ _ H1)|exact H1]). rewrite H1', bind_Ok.
  assert (Hp1 : 0 <= jc_pos c1). { destruct (ch =? 45); [pose proof (consume_pos _ _ _ H1); lia|injection H1 as <-; lia]. }
  unbind H v Hv1. destruct v as [[w|] c2]; cbn [fst snd] in H; [|injection H as <- _; discriminate]. destruct (integer_cut _ _ _ Hp1 Hv1) as [HF Hin]. rewrite HF, bind_Ok. cbn [fst snd]. cbv zeta in *.
  unbind H ds Hds. rewrite (peeks_cut _ _ Hds), bind_Ok. unbind H e He. rewrite (rd_cut _ _ He), bind_Ok. destruct ((e =? 46) || (e =? 101) || (e =? 69)); [|exact H].
  unbind H ok Hok. destruct ok as [[|] c3]; cbn [fst snd] in H; [|injection H as <- _; discriminate].
  assert (HR : Remaining cut c2 <= Remaining full c2). { unfold Remaining, u32. destruct Hin as [Q1 Q2]. pose proof cut_len. rewrite !Z.mod_small by lia. lia. }
  rewrite (verify_decimal_cut _ _ _ _ _ HR Hok), bind_Ok. cbn [fst snd]. unbind H n Hn. rewrite (strtod_span_ext _ _ _ (ext_drop _ _ _ Hext) Hn), bind_Ok. unbind H c4 H4. rewrite (consume_cut _ _ _ H4), bind_Ok. rewrite <- H. f_equal. f_equal. f_equal. f_equal.
  apply verify_same in Hok. subst c3. pose proof (consume_pos _ _ _ H4) as [P1 [P2 _]]. pose proof (strtod_span_nonneg _ _ Hn) as Hn0.
  assert (Hu : forall x, inside cut x -> forall q, PeekChars cut x = Ok q -> q = jc_pos x). { intros x [X1 X2] q Hq. unfold PeekChars, assert in Hq. destruct (_ <=? _); [|discriminate]. injection Hq as <-. unfold u32. pose proof cut_len. apply Z.mod_small. lia. }
  pose proof (Hu c2 Hin ds Hds). pose proof (Hu c (conj Hi1 Hi2) ns Hns). apply slice_cut; lia.
Qed.
Lemma keyword_cut : forall kw c ty len t c', keyword_loop cut c ty len kw = Ok (t, c') -> IsValid t = true -> keyword_loop full c ty len kw = Ok (t, c').
Proof.
  induction kw as [|k kw IH]; intros c ty len t c' H Hv; [exact H|]. cbn [keyword_loop] in *. destruct (overflows cut c 0) eqn:Eo; [injection H as <- _; discriminate|]. rewrite (over_cut _ _ Eo). unbind H x Hx. rewrite (peek_cut _ _ Hx), bind_Ok. destruct (k =? x); [|injection H as <- _; discriminate].
  unbind H c2 H2. unfold ConsumeChar in *. rewrite (consume_cut _ _ _ H2), bind_Ok. apply IH; assumption.
Qed.
Lemma next_cut_short : forall sd fuel fuel' c t c', (fuel <= fuel')%nat -> inside cut c -> next_token fuel sd cut c = Ok (t, c') -> IsValid t = true -> no_error c' -> next_token fuel' sd full c = Ok (t, c').
Proof.
  intros sd. induction fuel as [|fuel IH]; intros fuel' c t c' Hf Hi H Hv Hn; [discriminate|]. destruct fuel' as [|fuel']; [lia|]. cbn [next_token] in *. destruct (overflows cut c 0) eqn:Eo; [injection H as <- _; discriminate|]. rewrite (over_cut _ _ Eo). unbind H ch Hc. rewrite (peek_cut _ _ Hc), bind_Ok.
  assert (Hin : forall c1 c2, jc_pos c1 = jc_pos c -> ConsumeChars cut c1 1 = Ok c2 -> inside cut c2). { intros c1 c2 Hp H2. pose proof (consume_pos _ _ _ H2). unfold inside in *. lia. }
  destruct (ch =? 10); [unbind H c2 H2; unfold ConsumeChar in *; rewrite (consume_cut _ _ _ H2), bind_Ok; apply IH; [lia|exact (Hin (IncLine c) c2 eq_refl H2)|exact H|exact Hv|exact Hn]|].
  destruct (_ || _); [unbind H c2 H2; unfold ConsumeChar in *; rewrite (consume_cut _ _ _ H2), bind_Ok; apply IH; [lia|exact (Hin c c2 eq_refl H2)|exact H|exact Hv|exact Hn]|].
  destruct (structural ch); [unbind H c2 H2; unfold ConsumeChar in *; rewrite (consume_cut _ _ _ H2), bind_Ok; exact H|].
  destruct (ch =? 34); [unfold LexerString in *; unbind H c2 H2; unfold ConsumeChar in *; rewrite (consume_cut _ _ _ H2), bind_Ok; unbind H p Hp; rewrite (peeks_cut _ _ Hp), bind_Ok; eapply string_cut; [|exact H|exact Hv|exact Hn]; pose proof cut_len; lia|].
  destruct (_ || _); [apply number_cut_short; assumption|].
  destruct (ch =? 116); [unfold LexerKeyword in *; unbind H c2 H2; unfold ConsumeChar in *; rewrite (consume_cut _ _ _ H2), bind_Ok; apply keyword_cut; assumption|].
  destruct (ch =? 102); [unfold LexerKeyword in *; unbind H c2 H2; unfold ConsumeChar in *; rewrite (consume_cut _ _ _ H2), bind_Ok; apply keyword_cut; assumption|].
  destruct (ch =? 110); [unfold LexerKeyword in *; unbind H c2 H2; unfold ConsumeChar in *; rewrite (consume_cut _ _ _ H2), bind_Ok; apply keyword_cut; assumption|].
  injection H as <- _. discriminate.
Qed.
Lemma lex_cut_short : forall sd c t c', inside cut c -> LexerNextToken sd cut c = Ok (t, c') -> IsValid t = true -> no_error c' -> LexerNextToken sd full c = Ok (t, c').
Proof. intros sd c t c' Hi H Hv Hn. unfold LexerNextToken in *. eapply next_cut_short; [|exact Hi|exact H|exact Hv|exact Hn]. pose proof cut_len. lia. Qed.
End Cut.

(* ---- the tokens of a value tell where it ends ---- *)
Definition decodes {X} (enc : X -> list stoken) (x : X) : Prop := forall y a b, enc x ++ a = enc y ++ b -> x = y /\ a = b.
Lemma commas_prefix : forall X (enc : X -> list stoken) (e : stoken), e <> SChar T_COMMA -> (forall x l, enc x = e :: l -> False) -> (forall x, enc x <> []) ->
  forall l, Forall (decodes enc) l -> l <> [] -> forall ms r b, commas (map enc l) ++ r = commas (map enc ms) ++ e :: b ->
  exists k, l = firstn k ms /\ (0 < k <= length ms)%nat /\ (((k < length ms)%nat /\ exists r', r = SChar T_COMMA :: r') \/ (k = length ms /\ r = e :: b)).
Proof.
  intros X enc e He Hs Hne l HF. induction HF as [|x l Hx HF IH]; intros Hl ms r b H; [contradiction|]. destruct ms as [|y ms].
  - exfalso. cbn [map commas app] in H. destruct (enc x) as [|z zs] eqn:Ez; [exact (Hne x Ez)|]. destruct l as [|x2 l]; cbn [map commas] in H; try rewrite Ez in H; cbn [app] in H; injection H as -> _; exact (Hs x zs Ez).
  - assert (HY : forall q, exists q', commas (map enc (y :: ms)) ++ q = enc y ++ q' /\ (ms = [] -> q' = q) /\ (ms <> [] -> q' = SChar T_COMMA :: commas (map enc ms) ++ q)).
    { intros q. destruct ms as [|z ms]; [exists q; cbn; split; [reflexivity|]; split; [reflexivity|congruence]|]. exists (SChar T_COMMA :: commas (map enc (z :: ms)) ++ q). split; [|split; [discriminate|reflexivity]]. cbn [map]. rewrite commas_cons by discriminate. rewrite <- app_assoc. reflexivity. }
    destruct (HY (e :: b)) as [q' [HQ [HQ1 HQ2]]]. rewrite HQ in H. destruct l as [|x2 l].
    + cbn [map commas] in H. destruct (Hx _ _ _ H) as [<- ->]. exists 1%nat. split; [reflexivity|]. split; [cbn; lia|]. destruct ms as [|z ms]; [right; split; [reflexivity|apply HQ1; reflexivity]|left; split; [cbn; lia|eexists; apply HQ2; discriminate]].
    + cbn [map] in H. rewrite commas_cons in H by discriminate. rewrite <- app_assoc in H. destruct (Hx _ _ _ H) as [<- HE]. cbn [app] in HE. destruct ms as [|z ms]; [rewrite (HQ1 eq_refl) in HE; injection HE as HE _; congruence|]. rewrite (HQ2 ltac:(discriminate)) in HE. injection HE as HE.
      destruct (IH ltac:(discriminate) (z :: ms) r b HE) as [k [Hk1 [Hk2 Hk3]]]. exists (S k). split; [cbn [firstn]; rewrite Hk1 at 1; reflexivity|]. split; [cbn [length] in *; lia|]. destruct Hk3 as [[Hk3 Hk4]|[Hk3 Hk4]]; [left; split; [cbn [length] in *; lia|exact Hk4]|right; split; [cbn [length] in *; lia|exact Hk4]].
Qed.
Lemma commas_exact : forall X (enc : X -> list stoken) (e : stoken), e <> SChar T_COMMA -> (forall x l, enc x = e :: l -> False) -> (forall x, enc x <> []) ->
  forall l, Forall (decodes enc) l -> forall ms a b, commas (map enc l) ++ e :: a = commas (map enc ms) ++ e :: b -> l = ms /\ a = b.
Proof.
  intros X enc e He Hs Hne l HF ms a b H. destruct l as [|x l].
  - destruct ms as [|y ms]; [cbn in H; injection H as ->; auto|]. exfalso. cbn [map] in H. destruct (enc y) as [|z zs] eqn:Ez; [exact (Hne y Ez)|]. destruct ms; cbn [map commas app] in H; injection H as <- _; exact (Hs y zs Ez).
  - destruct (commas_prefix X enc e He Hs Hne (x :: l) HF ltac:(discriminate) ms (e :: a) b H) as [k [Hk1 [Hk2 [[_ [r' Hr]]|[Hk3 Hk4]]]]]; [injection Hr as Hr _; congruence|]. split; [rewrite Hk1, Hk3; apply firstn_all|congruence].
Qed.
Lemma tokens_start : forall j, exists k r, tokens j = k :: r /\ k <> SChar T_RBRACKET /\ k <> SChar T_RBRACE.
Proof. intros j. destruct j; cbn [tokens]; eexists; eexists; (split; [reflexivity|]); split; discriminate. Qed.
Lemma pair_decodes : forall x : list Z * json, decodes tokens (snd x) -> decodes pair_tokens x.
Proof. intros [n j] H [n' j'] a b HE. unfold pair_tokens in HE. cbn [fst snd app] in *. injection HE as -> HE. destruct (H _ _ _ HE) as [-> ->]. auto. Qed.
Lemma tokens_decode : forall j, decodes tokens j.
Proof.
  induction j as [s|v|w| | | |l IH|l IH] using json_ind2; intros y a b H; destruct y as [s'|v'|w'| | | |l'|l']; cbn [tokens app] in H; try discriminate; try (injection H as H1 H2; subst; auto; fail); try (injection H as H2; subst; auto; fail); injection H as H; rewrite <- !app_assoc in H; cbn [app] in H.
  - destruct (commas_exact _ tokens (SChar T_RBRACKET) ltac:(discriminate)) with (l := l) (ms := l') (a := a) (b := b) as [-> ->]; auto.
    + intros x q Hq. destruct (tokens_start x) as [k [r [Hk [H1 H2]]]]. rewrite Hq in Hk. injection Hk as <- _. contradiction.
    + intros x Hq. destruct (tokens_start x) as [k [r [Hk _]]]. congruence.
  - destruct (commas_exact _ pair_tokens (SChar T_RBRACE) ltac:(discriminate)) with (l := l) (ms := l') (a := a) (b := b) as [-> ->]; auto.
    + intros x q Hq. discriminate.
    + discriminate.
    + eapply Forall_impl; [|exact IH]. intros x Hx. apply pair_decodes. exact Hx.
Qed.
Lemma members_prefix : forall l ms r, l <> [] -> commas (map pair_tokens l) ++ r = commas (map pair_tokens ms) ++ [SChar T_RBRACE] ->
  exists k, l = firstn k ms /\ (0 < k <= length ms)%nat /\ ((k < length ms)%nat -> exists r', r = SChar T_COMMA :: r').
Proof.
  intros l ms r Hl H. destruct (commas_prefix _ pair_tokens (SChar T_RBRACE)) with (l := l) (ms := ms) (r := r) (b := @nil stoken) as [k [H1 [H2 H3]]]; try discriminate; auto.
  - apply Forall_forall. intros x _. apply pair_decodes. apply tokens_decode.
  - exists k. split; [exact H1|]. split; [exact H2|]. intros Hk. destruct H3 as [[_ H3]|[H3 _]]; [exact H3|lia].
Qed.

(* ---- the tokens of a cut text begin those of the whole ---- *)
Lemma tok_kind_eq : forall data t k k', tok_is data t k -> tok_is data t k' -> kind_ok k -> kind_ok k' -> k = k'.
Proof.
  intros data t k k' Hk Hk' Hko Hko'. destruct k as [x|x|x|x|x], k' as [y|y|y|y|y]; cbn [tok_is kind_ok] in *; repeat match goal with H : _ /\ _ |- _ => destruct H | H : ex _ |- _ => destruct H end; try congruence;
    subst; repeat match goal with H : punct _ _ |- _ => inversion H; subst; clear H | H : word _ _ |- _ => inversion H; subst; clear H end; congruence.
Qed.
Lemma tok_valid : forall data t k, tok_is data t k -> kind_ok k -> IsValid t = true.
Proof. intros data t k Hk Hk0. unfold IsValid. destruct k as [x|x|x|x|x]; cbn [tok_is kind_ok] in *; [destruct Hk0 as [z Hz]; subst x; inversion Hz; reflexivity|destruct Hk0 as [z Hz]; subst x; inversion Hz; reflexivity|destruct Hk as [-> _]; reflexivity..]. Qed.
Section Both.
Variable F : floats.
Variables cut full : list Z.
Hypothesis Hext : ext cut full.
Hypothesis Hsmall : small full.
Notation sd := (str2d F).
Lemma cut_small : small cut.
Proof. destruct Hext as [x Hx]. unfold small in *. rewrite Hx, zlen_app in Hsmall. pose proof (zlen_nonneg _ x). lia. Qed.
Lemma tok_longer : forall t k, tok_is cut t k -> tok_is full t k.
Proof.
  intros t k H. destruct k as [x|x|x|x|x]; cbn [tok_is] in *; try exact H. destruct H as [H1 H2]. split; [exact H1|]. unfold rd_bytes in *. destruct ((0 <=? jt_val t) && (0 <=? jt_length t) && (jt_val t + jt_length t <=? zlen cut)) eqn:E; [|discriminate].
  pose proof (cut_len cut full Hext Hsmall) as HL. replace (jt_val t + jt_length t <=? zlen full) with true by lia. replace (0 <=? jt_val t) with true by lia. replace (0 <=? jt_length t) with true by lia. cbn [andb]. rewrite <- H2. f_equal. apply slice_cut; [exact Hext|exact Hsmall|lia..].
Qed.
Lemma reads_prefix : forall ks t c t' c', reads F cut t c ks t' c' -> Forall kind_ok ks -> forall c0, inside cut c0 -> LexerNextToken sd cut c0 = Ok (t, c) ->
  forall tf cf ks2 tn cn, LexerNextToken sd full c0 = Ok (tf, cf) -> reads F full tf cf ks2 tn cn -> jt_type tn = T_NONE -> Forall kind_ok ks2 ->
  exists r, ks2 = ks ++ r /\ (IsValid t' = true -> exists k r', r = k :: r' /\ tok_is full t' k /\ kind_ok k).
Proof.
  induction 1 as [t c Hn|t c k t1 c1 ks t' c' Hn Hk HL HR IH]; intros Hko c0 Hi HL0 tf cf ks2 tn cn HLf HRf Htn Hk2.
  - exists ks2. split; [reflexivity|]. intros Hv. rewrite (lex_cut_short cut full Hext Hsmall sd c0 t c Hi HL0 Hv Hn) in HLf. injection HLf as <- <-. inversion HRf; subst.
    + unfold IsValid in Hv. rewrite Htn in Hv. discriminate.
    + inversion Hk2; subst. eauto.
  - inversion Hko as [|? ? Hk0 Hks]; subst. pose proof (tok_valid _ _ _ Hk Hk0) as Hv. rewrite (lex_cut_short cut full Hext Hsmall sd c0 t c Hi HL0 Hv Hn) in HLf. injection HLf as <- <-. inversion HRf as [|? ? k2 ? ? ks3 ? ? Hn2 Hkk HL2 HR2]; subst.
    + exfalso. unfold IsValid in Hv. rewrite Htn in Hv. discriminate.
    + inversion Hk2 as [|? ? Hk20 Hk23]; subst. rewrite (tok_kind_eq full t k k2 (tok_longer _ _ Hk) Hkk Hk0 Hk20) in *.
      assert (HO : inside cut c). { destruct (next_any cut cut_small sd c0 Hi) as [[HX _]|[t9 [c9 [HL3 [[HO _] _]]]]]; [congruence|]. rewrite HL0 in HL3. injection HL3 as <- <-. exact HO. }
      destruct (IH Hks c HO HL _ _ ks3 tn cn HL2 HR2 Htn Hk23) as [r [-> Hr]]. exists r. auto.
Qed.
End Both.

(* LoadJSON of a text that begins a document *)
Lemma cut_load : forall E F cut suf ms fuel mem object ty tf err mem',
  wf_types E -> (ty < length E)%nat -> Forall is_byte (cut ++ suf) -> small (cut ++ suf) -> document (str2d F) (cut ++ suf) (J_object ms) ->
  LoadJSON fuel E F cut mem object ty tf = Ok (err, mem') -> je_code err = E_NONE ->
  exists lut k, SetupTypeDispatchLUT = Ok lut /\ (k <= length ms)%nat /\ (k = 0%nat -> ms = []) /\ store_members E F lut tf (firstn k ms) mem object ty = Ok mem' /\
    ((k < length ms)%nat -> exists text w, cut = text ++ w /\ Forall white w /\ begins (str2d F) text (SChar T_LBRACE :: member_tokens (firstn k ms))).
Proof.
  intros E F cut suf ms fuel mem object ty tf err mem' HE Hty Hby Hsm [pl [HLy HM]] H Hn. set (full := cut ++ suf) in *. assert (Hext : ext cut full) by (exists suf; reflexivity). pose proof (cut_small cut full Hext Hsm) as Hcs.
  assert (Hcb : Forall is_byte cut) by (apply Forall_app in Hby; apply Hby).
  unfold LoadJSON in H. unbind H lut Hlut. unbind H s Hs. unbind H s' Hs'. injection H as <- <-.
  destruct (load_reads E HE F lut cut Hcb Hcs tf fuel s mem object ty s' Hty Hs Hs' Hn) as [l [HL0 [Hnc [Hnil [HRD HST]]]]].
  destruct (at_begin cut) as [HB1 [HB2 HB3]]. destruct (at_begin full) as [HF1 [HF2 HF3]]. assert (HA : at_rest full (JSONContext 0) full) by (split; assumption).
  destruct (layout_reads F full Hsm 0 full pl HLy (JSONContext 0) HA eq_refl HF3) as [t1 [c1 [t' [c' [HLf [HRf HN]]]]]]. rewrite HM in HRf.
  assert (HK : Forall kind_ok (SChar T_LBRACE :: commas (map pair_tokens l))) by (constructor; [exists 123; constructor|apply members_kind]).
  destruct (reads_prefix F cut full Hext Hsm _ _ _ _ _ HRD HK (JSONContext 0) HB1 HL0 _ _ _ _ _ HLf HRf HN (tokens_kind _)) as [r [HT Hr]]. rewrite tokens_object in HT. cbn [app] in HT. injection HT as HT. symmetry in HT.
  exists lut. destruct l as [|x l].
  - specialize (Hnil eq_refl). destruct (Hr (valid_type _ _ Hnil ltac:(discriminate))) as [k [r' [-> [Hk Hkk]]]]. assert (ms = []). { destruct ms as [|m ms]; [reflexivity|]. exfalso. cbn [map] in HT. destruct ms; cbn in HT; injection HT as -> _; destruct Hk; congruence. }
    subst ms. exists 0%nat. split; [exact Hlut|]. split; [cbn; lia|]. split; [auto|]. split; [exact HST|]. cbn. lia.
  - destruct (members_prefix (x :: l) ms r ltac:(discriminate) HT) as [k [Hk1 [Hk2 Hk3]]]. exists k. split; [exact Hlut|]. split; [lia|]. split; [lia|]. split; [rewrite <- Hk1; exact HST|]. intros Hlt. destruct (Hk3 Hlt) as [r' ->].
    destruct (reads_text F cut Hcs _ _ _ _ _ HRD HK (JSONContext 0) HB1 HL0) as [text [cl [HBG [HU [Hil HLl]]]]]. rewrite HB2 in HU. exists text, (unread cut cl). split; [exact HU|]. split; [|rewrite <- Hk1; exact HBG].
    destruct (IsValid (ps_t s')) eqn:Hv.
    + exfalso. destruct (Hr eq_refl) as [k0 [r0 [Hr0 [Hk0 _]]]]. injection Hr0 as <- _. apply Hnc. exact Hk0.
    + destruct (next_any cut Hcs (str2d F) cl Hil) as [[HX _]|[t3 [c3 [HL3 [_ [_ [Hf _]]]]]]]; [congruence|]. rewrite HLl in HL3. injection HL3 as <- <-. destruct (Hf Hv) as [He|[Hw _]]; [contradiction|exact Hw].
Qed.
