(* Proofs about the JSON lexer *)
From Verif Require Import Base BaseProofs Text FileUtilsSpec FileUtilsProofs JsonLexModel JsonLexSpec.

Lemma bind_Ok : forall (A B : Type) (a : A) (f : A -> outcome B), obind (Ok a) f = f a.
Proof. reflexivity. Qed.

(* ---- contexts and what is left to read ---- *)
Definition small (data : list Z) : Prop := zlen data < 2 ^ 31.
Definition at_rest (data : list Z) (c : jctx) (r : list Z) : Prop := inside data c /\ unread data c = r.
Definition adv (c : jctx) (n : Z) : jctx := mk_jctx (jc_pos c + n) (jc_err c) (jc_line c) (jc_linepos c) (jc_stack c).
Lemma adv_adv : forall c a b, adv (adv c a) b = adv c (a + b).
Proof. intros [p e l lp s] a b. unfold adv. cbn. f_equal. lia. Qed.
Lemma adv_0 : forall c, adv c 0 = c.
Proof. intros [p e l lp s]. unfold adv. cbn. f_equal. lia. Qed.
Lemma SetError_pos : forall c e, jc_pos (SetError c e) = jc_pos c.
Proof. intros. unfold SetError. destruct (jcode_eqb _ _); reflexivity. Qed.
Lemma SetError_stack : forall c e, jc_stack (SetError c e) = jc_stack c.
Proof. intros. unfold SetError. destruct (jcode_eqb _ _); reflexivity. Qed.
Lemma SetError_code : forall c e, e <> E_NONE -> je_code (jc_err (SetError c e)) <> E_NONE.
Proof.
  intros c e H. unfold SetError. destruct (jcode_eqb (je_code (jc_err c)) E_NONE) eqn:E; cbn; [exact H|].
  intros H'. rewrite H' in E. discriminate.
Qed.
Lemma SetError_keeps : forall c e, je_code (jc_err c) <> E_NONE -> je_code (jc_err (SetError c e)) <> E_NONE.
Proof.
  intros c e H. unfold SetError. destruct (jcode_eqb (je_code (jc_err c)) E_NONE) eqn:E; cbn; [|exact H].
  destruct (je_code (jc_err c)); cbn in E; congruence.
Qed.
Lemma at_len : forall data c r, at_rest data c r -> jc_pos c + zlen r = zlen data.
Proof. intros data c r [[H1 H2] <-]. unfold unread. unfold zlen in *. rewrite skipn_length. lia. Qed.
Lemma skipn_app_n : forall (A : Type) (a b : list A) n, n = length a -> skipn n (a ++ b) = b.
Proof. intros A a b n ->. rewrite skipn_app, skipn_all, Nat.sub_diag. reflexivity. Qed.
Lemma skipn_plus : forall (A : Type) a b (l : list A), skipn (a + b) l = skipn b (skipn a l).
Proof. induction a as [|a IH]; intros b l; [reflexivity|]. destruct l as [|x l]; cbn; [rewrite skipn_nil; reflexivity|apply IH]. Qed.
Lemma at_adv : forall data c a r, at_rest data c (a ++ r) -> at_rest data (adv c (zlen a)) r.
Proof.
  intros data c a r H. pose proof (at_len _ _ _ H) as Hl. destruct H as [[H1 H2] H]. rewrite zlen_app in Hl.
  pose proof (zlen_nonneg _ a). pose proof (zlen_nonneg _ r). split; [split; cbn; lia|].
  unfold unread in *. cbn. rewrite Z2Nat.inj_add by lia. rewrite skipn_plus, H. apply skipn_app_n. unfold zlen. lia.
Qed.
Lemma at_next : forall data c x r, at_rest data c (x :: r) -> at_rest data (adv c 1) r.
Proof. intros data c x r H. exact (at_adv data c [x] r H). Qed.
Lemma at_start : forall data pre r, data = pre ++ r -> forall c, jc_pos c = zlen pre -> at_rest data c r.
Proof.
  intros data pre r -> c Hc. pose proof (zlen_nonneg _ pre). pose proof (zlen_nonneg _ r). split; [split; rewrite Hc, ?zlen_app; lia|].
  unfold unread. rewrite Hc. apply skipn_app_n. unfold zlen. lia.
Qed.
Lemma at_error : forall data c r e, at_rest data c r -> at_rest data (SetError c e) r.
Proof. intros data c r e [[H1 H2] H]. unfold at_rest, inside, unread in *. rewrite SetError_pos. auto. Qed.
Lemma at_inc : forall data c r, at_rest data c r -> at_rest data (IncLine c) r.
Proof. intros data c r H. exact H. Qed.
Lemma at_any : forall data c, inside data c -> at_rest data c (unread data c).
Proof. intros. split; [assumption|reflexivity]. Qed.
Lemma small_u32 : forall data p, small data -> 0 <= p <= zlen data -> u32 p = p.
Proof. intros data p Hs Hp. unfold u32, small in *. apply Z.mod_small. lia. Qed.

Section Data.
Variable data : list Z.
Hypothesis Hs : small data.

Lemma consume : forall c a r, at_rest data c (a ++ r) -> ConsumeChars data c (zlen a) = Ok (adv c (zlen a)).
Proof.
  intros c a r H. pose proof (at_len _ _ _ H) as Hl. rewrite zlen_app in Hl. pose proof (zlen_nonneg _ r). unfold ConsumeChars.
  replace (jc_pos c + zlen a <=? zlen data) with true by lia. reflexivity.
Qed.
Lemma consume1 : forall c x r, at_rest data c (x :: r) -> ConsumeChar data c = Ok (adv c 1).
Proof. intros c x r H. exact (consume c [x] r H). Qed.
Lemma over : forall c r n, at_rest data c r -> 0 <= n < 8 -> overflows data c n = (zlen r <=? n).
Proof.
  intros c r n H Hn. pose proof (at_len _ _ _ H) as Hl. destruct H as [[H1 H2] _]. unfold overflows. unfold small in *.
  rewrite (small_u32 data (jc_pos c)) by (assumption || lia). rewrite (small_u32 data (zlen data)) by (assumption || lia).
  unfold u32. rewrite Z.mod_small by lia. destruct (Z.leb_spec (zlen r) n), (Z.geb_spec (jc_pos c + n) (zlen data)); try reflexivity; lia.
Qed.
Lemma over_nil : forall c, at_rest data c [] -> overflows data c 0 = true.
Proof. intros c H. rewrite (over c [] 0 H) by lia. reflexivity. Qed.
Lemma over_cons : forall c x r, at_rest data c (x :: r) -> overflows data c 0 = false.
Proof. intros c x r H. rewrite (over c _ 0 H) by lia. rewrite zlen_cons. pose proof (zlen_nonneg _ r). lia. Qed.
Lemma peeks : forall c r, at_rest data c r -> PeekChars data c = Ok (jc_pos c).
Proof.
  intros c r H. pose proof (at_len _ _ _ H) as Hl. destruct H as [[H1 H2] _]. unfold PeekChars. rewrite (small_u32 data (jc_pos c)) by (assumption || lia).
  replace (jc_pos c <=? zlen data) with true by lia. reflexivity.
Qed.
Lemma rd_at : forall c r i, at_rest data c r -> 0 <= i -> rd data (jc_pos c + i) = rd r i.
Proof.
  intros c r i [[H1 H2] H] Hi. unfold rd. replace (znth data (jc_pos c + i)) with (znth r i); [reflexivity|].
  rewrite <- (firstn_skipn (Z.to_nat (jc_pos c)) data). unfold unread in H. rewrite H.
  assert (Hf : zlen (firstn (Z.to_nat (jc_pos c)) data) = jc_pos c). { unfold zlen in *. rewrite firstn_length. lia. }
  rewrite znth_app_r by lia. f_equal. lia.
Qed.
Lemma peek1 : forall c x r, at_rest data c (x :: r) -> PeekChar data c = Ok x.
Proof.
  intros c x r H. unfold PeekChar. rewrite (peeks _ _ H), bind_Ok. rewrite <- (Z.add_0_r (jc_pos c)), (rd_at _ _ _ H) by lia. reflexivity.
Qed.
Lemma rd_cons : forall x (r : list Z), rd (x :: r) 0 = Ok x.
Proof. reflexivity. Qed.

(* ---- character classes ---- *)
Lemma isdigit_spec : forall c, isdigit c = true <-> digit c.
Proof. intros c. unfold isdigit, digit. lia. Qed.
Lemma isdigit_false : forall c, isdigit c = false <-> ~ digit c.
Proof. intros c. unfold isdigit, digit. lia. Qed.
Lemma ishexdigit_spec : forall c, ishexdigit c = true <-> hexdigit c.
Proof. intros c. unfold ishexdigit, hexdigit, digit. lia. Qed.
Lemma ishexdigit_false : forall c, ishexdigit c = false <-> ~ hexdigit c.
Proof. intros c. unfold ishexdigit, hexdigit, digit. lia. Qed.

(* ---- strings ---- *)
Definition plain_escape (c : Z) : bool :=
  (c =? 34) || (c =? 92) || (c =? 47) || (c =? 98) || (c =? 110) || (c =? 102) || (c =? 114) || (c =? 116).
Lemma plain_escape_spec : forall c, plain_escape c = true <-> In c (str "\/bnfrt" ++ [34]).
Proof. intros c. unfold plain_escape. cbn. lia. Qed.
Lemma escape_plain : forall c e r, at_rest data c (92 :: e :: r) -> plain_escape e = true -> LexerEscapeSequence data c = Ok (1, adv c 2).
Proof.
  intros c e r H He. unfold LexerEscapeSequence. rewrite (consume1 _ _ _ H), bind_Ok. pose proof (at_next _ _ _ _ H) as H1.
  rewrite (over_cons _ _ _ H1), (peek1 _ _ _ H1), bind_Ok. fold (plain_escape e). rewrite He, (consume1 _ _ _ H1), bind_Ok, adv_adv. reflexivity.
Qed.
(* every case: at least the u is taken *)
Lemma hex4_eq : forall c x r, at_rest data c (x :: r) -> Lexer32bitHexDigits data c =
  if zlen r <=? 4 then Ok (0, SetError (adv c 1) E_END) else
  match r with
  | a :: b :: d :: e :: _ => if ishexdigit a && ishexdigit b && ishexdigit d && ishexdigit e then Ok (4, adv c 5) else Ok (0, SetError (adv c 1) E_HEX_DIGIT)
  | _ => Fuel
  end.
Proof.
  intros c x r H. pose proof (at_next _ _ _ _ H) as H1. unfold Lexer32bitHexDigits. rewrite (consume1 _ _ _ H), bind_Ok. rewrite (over _ _ 4 H1) by lia.
  destruct (zlen r <=? 4) eqn:El; [reflexivity|].
  destruct r as [|a [|b [|d [|e r]]]]; try (cbv in El; discriminate). rewrite (peeks _ _ H1), bind_Ok.
  rewrite <- (Z.add_0_r (jc_pos (adv c 1))) at 1. rewrite !(rd_at _ _ _ H1) by lia.
  change (rd (a :: b :: d :: e :: r) 0) with (Ok a). change (rd (a :: b :: d :: e :: r) 1) with (Ok b).
  change (rd (a :: b :: d :: e :: r) 2) with (Ok d). change (rd (a :: b :: d :: e :: r) 3) with (Ok e). rewrite !bind_Ok.
  destruct (ishexdigit a); [destruct (ishexdigit b); [destruct (ishexdigit d); [destruct (ishexdigit e)|]|]|]; rewrite bind_Ok; try reflexivity.
  change 4 with (zlen [a; b; d; e]) at 1. rewrite (consume _ [a; b; d; e] r) by exact H1. rewrite bind_Ok, adv_adv. reflexivity.
Qed.
Lemma hex4_ok : forall c x a b d e r, at_rest data c (x :: a :: b :: d :: e :: r) -> r <> [] ->
  hexdigit a -> hexdigit b -> hexdigit d -> hexdigit e -> Lexer32bitHexDigits data c = Ok (4, adv c 5).
Proof.
  intros c x a b d e r H Hr Ha Hb Hd He. rewrite (hex4_eq _ _ _ H). destruct r as [|z r]; [contradiction|]. rewrite !zlen_cons. pose proof (zlen_nonneg _ r).
  replace (1 + (1 + (1 + (1 + (1 + zlen r)))) <=? 4) with false by lia. apply ishexdigit_spec in Ha, Hb, Hd, He. rewrite Ha, Hb, Hd, He. reflexivity.
Qed.
Lemma hex4_any : forall c x r, at_rest data c (x :: r) ->
  (exists a b d e r', r = a :: b :: d :: e :: r' /\ hexdigit a /\ hexdigit b /\ hexdigit d /\ hexdigit e /\ Lexer32bitHexDigits data c = Ok (4, adv c 5)) \/
  (exists c', Lexer32bitHexDigits data c = Ok (0, c') /\ at_rest data c' r /\ jc_stack c' = jc_stack c /\ je_code (jc_err c') <> E_NONE).
Proof.
  intros c x r H. pose proof (at_next _ _ _ _ H) as H1. rewrite (hex4_eq c x r H). destruct (zlen r <=? 4) eqn:El.
  { right. eexists. split; [reflexivity|]. split; [apply at_error; exact H1|]. split; [rewrite SetError_stack; reflexivity|]. apply SetError_code. discriminate. }
  destruct r as [|a [|b [|d [|e r]]]]; try (cbv in El; discriminate).
  destruct (ishexdigit a && ishexdigit b && ishexdigit d && ishexdigit e) eqn:E;
    [|right; eexists; split; [reflexivity|]; split; [apply at_error; exact H1|]; split; [rewrite SetError_stack; reflexivity|]; apply SetError_code; discriminate].
  left. rewrite !andb_true_iff, !ishexdigit_spec in E. destruct E as [[[Ea Eb] Ed] Ee]. exists a, b, d, e, r. repeat (split; [assumption || reflexivity|]). reflexivity.
Qed.
Lemma string_ok : forall s, string_chars s -> forall fuel c rest start len, (length s < fuel)%nat -> at_rest data c (s ++ 34 :: rest) ->
  string_loop fuel data c start len = Ok (mk_jtok T_STRING (len + zlen s) start, adv c (zlen s + 1)).
Proof.
  induction 1 as [|x r H34 H92 _ IH|x r Hx _ IH|a b d e r Ha Hb Hd He _ IH]; intros fuel c rest start len Hf H; (destruct fuel as [|fuel]; [cbn in Hf; lia|]);
    cbn [string_loop].
  - cbn [app] in H. rewrite (over_cons _ _ _ H), (peek1 _ _ _ H), bind_Ok. cbn [Z.eqb Pos.eqb]. rewrite (consume1 _ _ _ H), bind_Ok. rewrite zlen_nil, Z.add_0_r. reflexivity.
  - cbn [app] in H. rewrite (over_cons _ _ _ H), (peek1 _ _ _ H), bind_Ok. replace (x =? 34) with false by lia. replace (x =? 92) with false by lia.
    rewrite (consume1 _ _ _ H), bind_Ok. rewrite (IH fuel (adv c 1) rest) by (cbn in Hf; lia || exact (at_next _ _ _ _ H)).
    rewrite adv_adv, zlen_cons. do 3 f_equal; lia.
  - cbn [app] in H. rewrite (over_cons _ _ _ H), (peek1 _ _ _ H), bind_Ok. cbn [Z.eqb Pos.eqb].
    rewrite (escape_plain _ _ _ H) by (apply plain_escape_spec; exact Hx). rewrite bind_Ok. cbn [fst snd Z.eqb].
    rewrite (IH fuel (adv c 2) rest) by (cbn in Hf; lia || exact (at_adv _ _ [92; x] _ H)).
    rewrite adv_adv, !zlen_cons. do 3 f_equal; lia.
  - change (str "\u") with [92; 117] in *. cbn [app] in H. rewrite (over_cons _ _ _ H), (peek1 _ _ _ H), bind_Ok. cbn [Z.eqb Pos.eqb].
    assert (HE : LexerEscapeSequence data c = Ok (5, adv c 6)).
    { unfold LexerEscapeSequence. rewrite (consume1 _ _ _ H), bind_Ok. pose proof (at_next _ _ _ _ H) as H1.
      rewrite (over_cons _ _ _ H1), (peek1 _ _ _ H1), bind_Ok. cbn [Z.eqb Pos.eqb orb].
      rewrite (hex4_ok _ _ _ _ _ _ _ H1) by (assumption || (destruct r; discriminate)). rewrite bind_Ok, adv_adv. reflexivity. }
    rewrite HE, bind_Ok. cbn [fst snd Z.eqb].
    rewrite (IH fuel (adv c 6) rest) by (cbn in Hf; lia || exact (at_adv _ _ [92; 117; a; b; d; e] _ H)).
    rewrite adv_adv. cbn [app]. rewrite !zlen_cons. do 3 f_equal; lia.
Qed.
Lemma sc_app : forall a b, string_chars a -> string_chars b -> string_chars (a ++ b).
Proof. induction 1; intros Hb; cbn [app]; [exact Hb|apply sc_plain; auto|apply sc_escape; auto|]. change (string_chars (str "\u" ++ a :: b0 :: c :: d :: (r ++ b))). apply sc_unicode; auto. Qed.
(* a result of the lexer: inside the data, further on, errors kept *)
Definition onward (c c' : jctx) : Prop :=
  inside data c' /\ jc_pos c <= jc_pos c' /\ jc_stack c' = jc_stack c /\ (je_code (jc_err c) <> E_NONE -> je_code (jc_err c') <> E_NONE).
Lemma onward_adv : forall c a r, at_rest data c (a ++ r) -> onward c (adv c (zlen a)).
Proof. intros c a r H. pose proof (at_adv _ _ _ _ H) as [H1 _]. pose proof (zlen_nonneg _ a). split; [exact H1|]. cbn. split; [lia|auto]. Qed.
Lemma onward_refl : forall c, inside data c -> onward c c.
Proof. intros c H. split; [exact H|]. split; [lia|auto]. Qed.
Lemma onward_trans : forall a b c, onward a b -> onward b c -> onward a c.
Proof. intros a b c [H1 [H2 [H3 H4]]] [H5 [H6 [H7 H8]]]. split; [exact H5|]. split; [lia|]. split; [congruence|auto]. Qed.
Lemma onward_error : forall c e, inside data c -> onward c (SetError c e).
Proof.
  intros c e H. unfold onward, inside in *. rewrite SetError_pos, SetError_stack. split; [exact H|]. split; [lia|]. split; [reflexivity|]. apply SetError_keeps.
Qed.
Lemma string_any : forall fuel c r start len, (length r < fuel)%nat -> at_rest data c r ->
  exists t c', string_loop fuel data c start len = Ok (t, c') /\ onward c c' /\
    (je_code (jc_err c') <> E_NONE \/
     exists s rest, r = s ++ 34 :: rest /\ string_chars s /\ t = mk_jtok T_STRING (len + zlen s) start /\ c' = adv c (zlen s + 1)).
Proof.
  induction fuel as [|fuel IH]; intros c r start len Hf H; [lia|]. cbn [string_loop]. destruct r as [|x r].
  { rewrite (over_nil _ H). do 2 eexists. split; [reflexivity|]. split; [apply onward_error; apply H|]. left. apply SetError_code. discriminate. }
  rewrite (over_cons _ _ _ H), (peek1 _ _ _ H), bind_Ok. pose proof (at_next _ _ _ _ H) as H1. pose proof (onward_adv c [x] r H) as O1. change (zlen [x]) with 1 in O1.
  destruct (Z.eqb_spec x 34) as [->|N34].
  { rewrite (consume1 _ _ _ H), bind_Ok. do 2 eexists. split; [reflexivity|]. split; [exact O1|]. right. exists [], r.
    split; [reflexivity|]. split; [constructor|]. rewrite zlen_nil, Z.add_0_r. split; reflexivity. }
  destruct (Z.eqb_spec x 92) as [->|N92].
  2:{ rewrite (consume1 _ _ _ H), bind_Ok. destruct (IH (adv c 1) r start (len + 1) ltac:(cbn in Hf; lia) H1) as [t [c' [HE [HO HR]]]].
      exists t, c'. split; [exact HE|]. split; [eapply onward_trans; eassumption|]. destruct HR as [HR|[s [rest [-> [Hc [-> ->]]]]]]; [left; exact HR|right].
      exists (x :: s), rest. split; [reflexivity|]. split; [apply sc_plain; assumption|]. rewrite zlen_cons, adv_adv. split; f_equal; lia. }
  unfold LexerEscapeSequence. rewrite (consume1 _ _ _ H), bind_Ok. destruct r as [|e r].
  { rewrite (over_nil _ H1), bind_Ok. cbn [fst snd Z.eqb]. do 2 eexists. split; [reflexivity|].
    split; [eapply onward_trans; [exact O1|apply onward_error; apply H1]|]. left. apply SetError_code. discriminate. }
  rewrite (over_cons _ _ _ H1), (peek1 _ _ _ H1), bind_Ok. fold (plain_escape e). pose proof (at_next _ _ _ _ H1) as H2. rewrite adv_adv in H2.
  pose proof (onward_adv c [92; e] r H) as O2. change (zlen [92; e]) with 2 in O2.
  destruct (plain_escape e) eqn:Ee.
  { rewrite (consume1 _ _ _ H1), !bind_Ok, adv_adv. cbn [fst snd Z.eqb].
    destruct (IH (adv c 2) r start (len + 1 + 1) ltac:(cbn in Hf; lia) H2) as [t [c' [HE [HO HR]]]].
    exists t, c'. split; [exact HE|]. split; [eapply onward_trans; eassumption|]. destruct HR as [HR|[s [rest [-> [Hc [-> ->]]]]]]; [left; exact HR|right].
    exists (92 :: e :: s), rest. split; [reflexivity|]. split; [apply sc_escape; [apply plain_escape_spec|]; assumption|]. rewrite !zlen_cons, adv_adv. split; f_equal; lia. }
  destruct (Z.eqb_spec e 117) as [->|N117].
  2:{ rewrite bind_Ok. cbn [fst snd Z.eqb]. do 2 eexists. split; [reflexivity|].
      split; [eapply onward_trans; [exact O1|apply onward_error; apply H1]|]. left. apply SetError_code. discriminate. }
  destruct (hex4_any _ _ _ H1) as [[a [b [d [g [r' [-> [Ha [Hb [Hd [Hg HX]]]]]]]]]]|[c1 [HX [Hc1 [Hst Her]]]]]; rewrite HX, !bind_Ok; cbn [fst snd].
  - change (1 + 4 =? 0) with false. cbv iota. rewrite adv_adv. pose proof (at_adv _ c [92; 117; a; b; d; g] r' H) as H6. change (zlen [92; 117; a; b; d; g]) with 6 in H6.
    pose proof (onward_adv c [92; 117; a; b; d; g] r' H) as O6. change (zlen [92; 117; a; b; d; g]) with 6 in O6.
    destruct (IH (adv c (1 + 5)) r' start (len + 1 + (1 + 4)) ltac:(cbn in Hf; lia) H6) as [t [c' [HE [HO HR]]]].
    exists t, c'. split; [exact HE|]. split; [eapply onward_trans; eassumption|]. destruct HR as [HR|[s [rest [-> [Hc [-> ->]]]]]]; [left; exact HR|right].
    exists (92 :: 117 :: a :: b :: d :: g :: s), rest. split; [reflexivity|]. split; [apply (sc_unicode a b d g s); assumption|].
    rewrite !zlen_cons, adv_adv. split; f_equal; lia.
  - change (1 + 0 =? 0) with false. cbv iota. assert (O3 : onward c c1).
    { pose proof (at_len _ _ _ Hc1). pose proof (at_len _ _ _ H). rewrite !zlen_cons in *. split; [apply Hc1|]. split; [lia|]. split; [rewrite Hst; reflexivity|auto]. }
    destruct (IH c1 r start (len + 1 + (1 + 0)) ltac:(cbn in Hf; lia) Hc1) as [t [c' [HE [HO HR]]]].
    exists t, c'. split; [exact HE|]. split; [eapply onward_trans; eassumption|]. left. apply HO. exact Her.
Qed.

(* ---- numbers ---- *)
Definition ends (P : Z -> Prop) (r : list Z) : Prop := match r with [] => True | c :: _ => ~ P c end.
Lemma span : forall (P : Z -> Prop) (f : Z -> bool), (forall c, f c = true <-> P c) ->
  forall r, exists ds r', r = ds ++ r' /\ Forall P ds /\ ends P r'.
Proof.
  intros P f Hf. induction r as [|c r IH].
  - exists [], []. split; [reflexivity|]. split; [constructor|exact I].
  - destruct (f c) eqn:E.
    + destruct IH as [ds [r' [-> [H1 H2]]]]. exists (c :: ds), r'. split; [reflexivity|]. split; [constructor; [apply Hf; exact E|exact H1]|exact H2].
    + exists [], (c :: r). split; [reflexivity|]. split; [constructor|]. cbn. rewrite <- Hf. congruence.
Qed.
Definition digit_span := span digit isdigit isdigit_spec.
Definition hexdigit_span := span hexdigit ishexdigit ishexdigit_spec.
Lemma u64_step : forall v r d, u64 (u64 v * r + d) = u64 (v * r + d).
Proof. intros v r d. unfold u64. rewrite <- Z.add_mod_idemp_l, Z.mul_mod_idemp_l, Z.add_mod_idemp_l by lia. reflexivity. Qed.
Definition dec_val (v : Z) (ds : list Z) : Z := fold_left (fun v d => v * 10 + (d - 48)) ds v.
Lemma dec_val_number : forall ds v, Forall digit ds -> number dec_digit 10 ds v = Some (dec_val v ds).
Proof.
  induction ds as [|d ds IH]; intros v H; [reflexivity|]. inversion H as [|? ? Hd Hds]; subst. cbn [number]. unfold dec_digit, digit in *.
  replace ((48 <=? d) && (d <=? 57)) with true by lia. rewrite IH by assumption. reflexivity.
Qed.
Lemma dec_val_u64 : forall ds v, u64 (dec_val (u64 v) ds) = u64 (dec_val v ds).
Proof.
  induction ds as [|d ds IH]; intros v.
  - cbn. unfold u64. apply Z.mod_mod. lia.
  - change (u64 (dec_val (u64 v * 10 + (d - 48)) ds) = u64 (dec_val (v * 10 + (d - 48)) ds)).
    rewrite <- (IH (u64 v * 10 + (d - 48))), u64_step, IH. reflexivity.
Qed.
Lemma dec_digits : forall ds v n, number dec_digit 10 ds v = Some n -> Forall digit ds.
Proof.
  induction ds as [|d ds IH]; intros v n H; [constructor|]. cbn [number] in H. unfold dec_digit in H.
  destruct ((48 <=? d) && (d <=? 57)) eqn:E; [|discriminate]. constructor; [unfold digit; lia|]. eapply IH. exact H.
Qed.
Lemma integer_run : forall ds fuel c ch v r, (length ds < fuel)%nat -> at_rest data c (ch :: ds ++ r) -> Forall digit ds -> ends digit r ->
  integer_loop fuel data c ch v =
    match r with
    | [] => Ok (None, SetError (adv c (1 + zlen ds)) E_END)
    | _ => Ok (Some (u64 (dec_val v (ch :: ds))), adv c (1 + zlen ds))
    end.
Proof.
  induction ds as [|d ds IH]; intros fuel c ch v r Hf H Hd Hr; (destruct fuel as [|fuel]; [cbn in Hf; lia|]); cbn [integer_loop];
    rewrite (consume1 _ _ _ H), bind_Ok; pose proof (at_next _ _ _ _ H) as H1; cbn [app] in H1.
  - rewrite zlen_nil, Z.add_0_r. destruct r as [|x r].
    + rewrite (over_nil _ H1). reflexivity.
    + rewrite (over_cons _ _ _ H1), (peek1 _ _ _ H1), bind_Ok. cbn in Hr. apply isdigit_false in Hr. rewrite Hr. reflexivity.
  - inversion Hd as [|? ? Hd1 Hd2]; subst. rewrite (over_cons _ _ _ H1), (peek1 _ _ _ H1), bind_Ok. rewrite (proj2 (isdigit_spec d) Hd1).
    rewrite (IH fuel (adv c 1) d _ r) by (cbn in Hf; lia || assumption). rewrite adv_adv, zlen_cons. destruct r; [reflexivity|].
    change (dec_val (u64 (v * 10 + (ch - 48))) (d :: ds)) with (dec_val (u64 (dec_val v [ch])) (d :: ds)).
    rewrite dec_val_u64. reflexivity.
Qed.
Lemma at_length : forall c r, at_rest data c r -> (length r <= length data)%nat.
Proof. intros c r H. pose proof (at_len _ _ _ H). destruct H as [[H1 H2] _]. unfold zlen in *. lia. Qed.
Lemma integer_eq : forall ds c r, at_rest data c (ds ++ r) -> Forall digit ds -> ends digit r ->
  LexerInteger data c =
    match ds, r with
    | [], [] => Ok (None, SetError c E_END)
    | [], _ => Ok (None, SetError c E_DIGIT)
    | _, [] => Ok (None, SetError (adv c (zlen ds)) E_END)
    | _, _ => Ok (Some (u64 (dec_val 0 ds)), adv c (zlen ds))
    end.
Proof.
  intros ds c r H Hd Hr. unfold LexerInteger. destruct ds as [|d ds].
  - cbn [app] in H. destruct r as [|x r]; [rewrite (over_nil _ H); reflexivity|].
    rewrite (over_cons _ _ _ H), (peek1 _ _ _ H), bind_Ok. cbn in Hr. rewrite (proj2 (isdigit_false x) Hr). reflexivity.
  - inversion Hd as [|? ? Hd1 Hd2]; subst. cbn [app] in H. rewrite (over_cons _ _ _ H), (peek1 _ _ _ H), bind_Ok. rewrite (proj2 (isdigit_spec d) Hd1). cbn [negb].
    pose proof (at_length _ _ H). rewrite (integer_run ds _ _ _ 0 r) by (assumption || (cbn [length] in *; rewrite app_length in *; lia)).
    rewrite zlen_cons. destruct r; reflexivity.
Qed.
Definition hex_val (v : Z) (ds : list Z) : Z := fold_left (fun v d => v * 16 + hex_digit_value d) ds v.
Lemma hex_digit_value_ok : forall d, hexdigit d -> hex_digit d = Some (hex_digit_value d).
Proof.
  intros d [H|[H|H]]; unfold digit in *; unfold hex_digit, hex_digit_value.
  - replace ((48 <=? d) && (d <=? 57)) with true by lia. replace (d <? 65) with true by lia. reflexivity.
  - replace ((48 <=? d) && (d <=? 57)) with false by lia. replace ((97 <=? d) && (d <=? 102)) with false by lia.
    replace ((65 <=? d) && (d <=? 70)) with true by lia. replace (d <? 65) with false by lia.
    assert (E : Z.lor d 32 = d + 32).
    { assert (Hc : d = 65 \/ d = 66 \/ d = 67 \/ d = 68 \/ d = 69 \/ d = 70) by lia. destruct Hc as [->|[->|[->|[->|[->| ->]]]]]; reflexivity. }
    rewrite E. f_equal. lia.
  - replace ((48 <=? d) && (d <=? 57)) with false by lia. replace ((97 <=? d) && (d <=? 102)) with true by lia. replace (d <? 65) with false by lia.
    assert (E : Z.lor d 32 = d).
    { assert (Hc : d = 97 \/ d = 98 \/ d = 99 \/ d = 100 \/ d = 101 \/ d = 102) by lia. destruct Hc as [->|[->|[->|[->|[->| ->]]]]]; reflexivity. }
    rewrite E. f_equal. lia.
Qed.
Lemma hex_val_number : forall ds v, Forall hexdigit ds -> number hex_digit 16 ds v = Some (hex_val v ds).
Proof.
  induction ds as [|d ds IH]; intros v H; [reflexivity|]. inversion H as [|? ? Hd Hds]; subst. cbn [number]. rewrite (hex_digit_value_ok d Hd).
  rewrite IH by assumption. reflexivity.
Qed.
Lemma hex_val_u64 : forall ds v, u64 (hex_val (u64 v) ds) = u64 (hex_val v ds).
Proof.
  induction ds as [|d ds IH]; intros v.
  - cbn. unfold u64. apply Z.mod_mod. lia.
  - change (u64 (hex_val (u64 v * 16 + hex_digit_value d) ds) = u64 (hex_val (v * 16 + hex_digit_value d) ds)).
    rewrite <- (IH (u64 v * 16 + hex_digit_value d)), u64_step, IH. reflexivity.
Qed.
Lemma hex_digits : forall ds v n, number hex_digit 16 ds v = Some n -> Forall hexdigit ds.
Proof.
  induction ds as [|d ds IH]; intros v n H; [constructor|]. cbn [number] in H. unfold hex_digit in H.
  destruct ((48 <=? d) && (d <=? 57)) eqn:E1.
  { constructor; [unfold hexdigit, digit; lia|]. eapply IH. exact H. }
  destruct ((97 <=? d) && (d <=? 102)) eqn:E2.
  { constructor; [unfold hexdigit, digit; lia|]. eapply IH. exact H. }
  destruct ((65 <=? d) && (d <=? 70)) eqn:E3; [|discriminate]. constructor; [unfold hexdigit, digit; lia|]. eapply IH. exact H.
Qed.
Lemma hex_run : forall ds fuel c type ch v r, (length ds < fuel)%nat -> at_rest data c (ch :: ds ++ r) -> Forall hexdigit ds -> ends hexdigit r ->
  hex_loop fuel data c type ch v =
    match r with
    | [] => Ok (no_token, SetError (adv c (1 + zlen ds)) E_END)
    | _ => Ok (mk_jtok type 0 (u64 (hex_val v (ch :: ds))), adv c (1 + zlen ds))
    end.
Proof.
  induction ds as [|d ds IH]; intros fuel c type ch v r Hf H Hd Hr; (destruct fuel as [|fuel]; [cbn in Hf; lia|]); cbn [hex_loop];
    rewrite (consume1 _ _ _ H), bind_Ok; pose proof (at_next _ _ _ _ H) as H1; cbn [app] in H1.
  - rewrite zlen_nil, Z.add_0_r. destruct r as [|x r].
    + rewrite (over_nil _ H1). reflexivity.
    + rewrite (over_cons _ _ _ H1), (peek1 _ _ _ H1), bind_Ok. cbn in Hr. apply ishexdigit_false in Hr. rewrite Hr. reflexivity.
  - inversion Hd as [|? ? Hd1 Hd2]; subst. rewrite (over_cons _ _ _ H1), (peek1 _ _ _ H1), bind_Ok. rewrite (proj2 (ishexdigit_spec d) Hd1).
    rewrite (IH fuel (adv c 1) type d _ r) by (cbn in Hf; lia || assumption). rewrite adv_adv, zlen_cons. destruct r; [reflexivity|].
    change (hex_val (u64 (v * 16 + hex_digit_value ch)) (d :: ds)) with (hex_val (u64 (hex_val v [ch])) (d :: ds)).
    rewrite hex_val_u64. reflexivity.
Qed.
Lemma hex_eq : forall ds c type r, at_rest data c (ds ++ r) -> Forall hexdigit ds -> ends hexdigit r ->
  LexerHexInteger data c type =
    match ds, r with
    | [], [] => Ok (no_token, SetError c E_END)
    | [], _ => Ok (no_token, SetError c E_HEX_DIGIT)
    | _, [] => Ok (no_token, SetError (adv c (zlen ds)) E_END)
    | _, _ => Ok (mk_jtok type 0 (u64 (hex_val 0 ds)), adv c (zlen ds))
    end.
Proof.
  intros ds c type r H Hd Hr. unfold LexerHexInteger. destruct ds as [|d ds].
  - cbn [app] in H. destruct r as [|x r]; [rewrite (over_nil _ H); reflexivity|].
    rewrite (over_cons _ _ _ H), (peek1 _ _ _ H), bind_Ok. cbn in Hr. rewrite (proj2 (ishexdigit_false x) Hr). reflexivity.
  - inversion Hd as [|? ? Hd1 Hd2]; subst. cbn [app] in H. rewrite (over_cons _ _ _ H), (peek1 _ _ _ H), bind_Ok. rewrite (proj2 (ishexdigit_spec d) Hd1). cbn [negb].
    pose proof (at_length _ _ H). rewrite (hex_run ds _ _ type _ 0 r) by (assumption || (cbn [length] in *; rewrite app_length in *; lia)).
    rewrite zlen_cons. destruct r; reflexivity.
Qed.

(* ---- decimals ---- *)
Lemma verify_run : forall ds fuel c r, (length ds < fuel)%nat -> at_rest data c (ds ++ r) -> Forall digit ds -> ends digit r ->
  VerifyDigits fuel data (jc_pos c) (zlen data) = match r with [] => Ok None | _ => Ok (Some (jc_pos c + zlen ds)) end.
Proof.
  induction ds as [|d ds IH]; intros fuel c r Hf H Hd Hr; (destruct fuel as [|fuel]; [cbn in Hf; lia|]); cbn [VerifyDigits]; pose proof (at_len _ _ _ H) as Hl.
  - cbn [app] in *. rewrite zlen_nil, Z.add_0_r. destruct r as [|x r].
    + rewrite zlen_nil in Hl. replace (jc_pos c >=? zlen data) with true by lia. reflexivity.
    + rewrite zlen_cons in Hl. pose proof (zlen_nonneg _ r). replace (jc_pos c >=? zlen data) with false by lia.
      rewrite <- (Z.add_0_r (jc_pos c)) at 1. rewrite (rd_at _ _ 0 H) by lia. rewrite rd_cons, bind_Ok. cbn in Hr. rewrite (proj2 (isdigit_false x) Hr). reflexivity.
  - inversion Hd as [|? ? Hd1 Hd2]; subst. cbn [app] in *. rewrite zlen_cons in Hl. pose proof (zlen_nonneg _ (ds ++ r)). replace (jc_pos c >=? zlen data) with false by lia.
    rewrite <- (Z.add_0_r (jc_pos c)) at 1. rewrite (rd_at _ _ 0 H) by lia. rewrite rd_cons, bind_Ok. rewrite (proj2 (isdigit_spec d) Hd1).
    pose proof (at_next _ _ _ _ H) as H1. pose proof (IH fuel (adv c 1) r ltac:(cbn in Hf; lia) H1 Hd2 Hr) as HI. cbn [adv jc_pos] in HI. rewrite HI.
    rewrite zlen_cons. destruct r; [reflexivity|]. do 2 f_equal. lia.
Qed.
Definition sign_chars (s : list Z) : Prop := s = [] \/ s = [45] \/ s = [43].
(* an exponent's sign and digits *)
Lemma exp_split : forall r, exists sg es r', r = sg ++ es ++ r' /\ sign_chars sg /\ Forall digit es /\ ends digit r' /\
  (sg = [] -> match es ++ r' with c :: _ => (c =? 45) || (c =? 43) = false | [] => True end).
Proof.
  intros r. unfold sign_chars. destruct r as [|c r].
  - exists [], [], []. repeat split; auto.
  - destruct ((c =? 45) || (c =? 43)) eqn:E.
    + destruct (digit_span r) as [es [r' [-> [H1 H2]]]]. exists [c], es, r'. split; [reflexivity|].
      split; [right; destruct (Z.eqb_spec c 45); [left; subst; reflexivity|right; f_equal; lia]|]. repeat split; auto. discriminate.
    + destruct (digit_span (c :: r)) as [es [r' [Hr [H1 H2]]]]. exists [], es, r'. split; [exact Hr|]. split; [left; reflexivity|]. split; [exact H1|]. split; [exact H2|].
      intros _. rewrite <- Hr. exact E.
Qed.
Lemma exponent_verified : forall c c0 sg es r, at_rest data c (sg ++ es ++ r) -> sign_chars sg -> Forall digit es -> ends digit r ->
  (sg = [] -> match es ++ r with c :: _ => (c =? 45) || (c =? 43) = false | [] => True end) ->
  VerifyExponent data c0 (jc_pos c) (zlen data) =
    match sg ++ es ++ r, r with
    | [], _ => UB
    | _, [] => Ok (false, SetError c0 E_END)
    | _, _ => Ok (true, c0)
    end.
Proof.
  intros c c0 sg es r H Hsg Hes Hr Hn. unfold VerifyExponent. rewrite <- (Z.add_0_r (jc_pos c)) at 1. rewrite (rd_at _ _ 0 H) by lia.
  destruct (sg ++ es ++ r) as [|x l] eqn:E; [reflexivity|]. rewrite rd_cons, bind_Ok.
  assert (HV : VerifyDigits (S (length data)) data (if (x =? 45) || (x =? 43) then jc_pos c + 1 else jc_pos c) (zlen data) =
               match r with [] => Ok None | _ => Ok (Some (jc_pos c + zlen sg + zlen es)) end).
  { destruct Hsg as [->|Hsg].
    - cbn [app] in E. specialize (Hn eq_refl). rewrite E in Hn. rewrite Hn. rewrite <- E in H. pose proof (at_length _ _ H). rewrite app_length in *.
      rewrite (verify_run es _ c r) by (assumption || lia). rewrite zlen_nil, Z.add_0_r. reflexivity.
    - assert (Hx : (x =? 45) || (x =? 43) = true /\ l = es ++ r /\ sg = [x]).
      { destruct Hsg as [->| ->]; cbn [app] in E; injection E as <- <-; auto. }
      destruct Hx as [Hx [-> ->]]. rewrite Hx. pose proof (at_next _ _ _ _ H) as H1. pose proof (at_length _ _ H1). rewrite app_length in *.
      pose proof (verify_run es (S (length data)) (adv c 1) r ltac:(lia) H1 Hes Hr) as HI. cbn [adv jc_pos] in HI. rewrite HI. reflexivity. }
  rewrite HV. destruct r; reflexivity.
Qed.
Lemma digits_span_eq : forall ds r, Forall digit ds -> ends digit r -> digits_span (ds ++ r) = match r with [] => UB | _ => Ok (zlen ds) end.
Proof.
  induction ds as [|d ds IH]; intros r Hd Hr; cbn [app digits_span].
  - destruct r as [|x r]; [reflexivity|]. cbn. cbn in Hr. rewrite (proj2 (isdigit_false x) Hr). reflexivity.
  - inversion Hd as [|? ? Hd1 Hd2]; subst. rewrite (proj2 (isdigit_spec d) Hd1), IH by assumption. destruct r; [reflexivity|]. rewrite bind_Ok, zlen_cons. reflexivity.
Qed.
Lemma drop_app : forall a b, drop (zlen a) (a ++ b) = b.
Proof. intros. unfold drop. apply skipn_app_n. unfold zlen. lia. Qed.
Lemma exponent_span_eq : forall e sg es r, e = 101 \/ e = 69 -> sign_chars sg -> Forall digit es -> ends digit r -> r <> [] ->
  (sg = [] -> match es ++ r with c :: _ => (c =? 45) || (c =? 43) = false | [] => True end) ->
  exponent_span (e :: sg ++ es ++ r) = Ok (match es with [] => 0 | _ => zlen (e :: sg ++ es) end).
Proof.
  intros e sg es r He Hsg Hes Hr Hne Hn. unfold exponent_span. rewrite rd_cons, bind_Ok. replace ((e =? 101) || (e =? 69)) with true by lia.
  assert (HS : exists x l, sg ++ es ++ r = x :: l /\ (if (x =? 45) || (x =? 43) then 2 else 1) = 1 + zlen sg).
  { destruct Hsg as [->|Hsg].
    - specialize (Hn eq_refl). cbn [app] in *. destruct (es ++ r) as [|x l] eqn:E; [destruct es; [contradiction|discriminate]|]. exists x, l.
      split; [reflexivity|]. rewrite Hn. reflexivity.
    - destruct Hsg as [->| ->]; cbn [app]; do 2 eexists; split; reflexivity. }
  destruct HS as [x [l [HE HK]]]. replace (rd (e :: sg ++ es ++ r) 1) with (Ok x) by (rewrite HE; reflexivity). rewrite bind_Ok, HK.
  change (e :: sg ++ es ++ r) with ([e] ++ (sg ++ (es ++ r))). rewrite app_assoc. replace (1 + zlen sg) with (zlen ([e] ++ sg)) by (rewrite zlen_app; reflexivity).
  rewrite drop_app, digits_span_eq by assumption. destruct r as [|y r]; [contradiction|]. rewrite bind_Ok.
  destruct es as [|d es]; [reflexivity|]. rewrite zlen_cons. pose proof (zlen_nonneg _ es). replace (1 + zlen es =? 0) with false by lia.
  f_equal. rewrite !zlen_app, !zlen_cons, zlen_nil, zlen_app, zlen_cons. lia.
Qed.
Definition is_e (x : Z) : bool := (x =? 101) || (x =? 69).
Lemma remaining : forall c r, at_rest data c r -> Remaining data c = zlen r.
Proof.
  intros c r H. pose proof (at_len _ _ _ H). pose proof (zlen_nonneg _ r). destruct H as [[Ha Hb] _]. unfold Remaining. unfold small in Hs. unfold u32.
  rewrite Z.mod_small by lia. lia.
Qed.
Lemma snoc_app : forall (A : Type) (a : list A) x b, a ++ x :: b = (a ++ [x]) ++ b.
Proof. intros. rewrite <- app_assoc. reflexivity. Qed.
(* the point and the digits after it *)
Lemma point_verified : forall c fs r, at_rest data c (46 :: fs ++ r) -> Forall digit fs -> ends digit r ->
  VerifyDecimal data c (jc_pos c) (zlen (46 :: fs ++ r)) =
    match r with
    | [] => Ok (false, SetError c E_END)
    | y :: _ => if is_e y then VerifyExponent data c (jc_pos c + zlen (46 :: fs ++ [y])) (zlen data) else Ok (true, c)
    end.
Proof.
  intros c fs r H Hf Hr. unfold VerifyDecimal. pose proof (at_len _ _ _ H) as Hl.
  destruct (zlen (46 :: fs ++ r) <? 2) eqn:E2.
  { destruct r; [reflexivity|]. rewrite zlen_cons, zlen_app, zlen_cons in E2. pose proof (zlen_nonneg _ fs). pose proof (zlen_nonneg _ r). lia. }
  rewrite Hl. rewrite <- (Z.add_0_r (jc_pos c)) at 1. rewrite (rd_at _ _ 0 H) by lia. rewrite rd_cons, bind_Ok. cbn [Z.eqb Pos.eqb].
  pose proof (at_next _ _ _ _ H) as H1. pose proof (at_length _ _ H1) as HL. rewrite app_length in HL.
  pose proof (verify_run fs (S (length data)) (adv c 1) r ltac:(lia) H1 Hf Hr) as HV. cbn [adv jc_pos] in HV. rewrite HV.
  destruct r as [|y r]; rewrite bind_Ok; [reflexivity|].
  pose proof (at_adv _ _ _ _ H1) as H2. replace (jc_pos c + 1 + zlen fs) with (jc_pos (adv (adv c 1) (zlen fs)) + 0) by (cbn; lia). rewrite (rd_at _ _ 0 H2) by lia.
  rewrite rd_cons, bind_Ok. unfold is_e. rewrite <- negb_orb. destruct ((y =? 101) || (y =? 69)); [cbn [negb]|reflexivity].
  replace (jc_pos (adv (adv c 1) (zlen fs)) + 0 + 1) with (jc_pos c + zlen (46 :: fs ++ [y])) by (cbn [adv jc_pos]; rewrite zlen_cons, zlen_app, zlen_cons, zlen_nil; lia).
  reflexivity.
Qed.
Lemma number_prelude : forall sd c sign ds x r, at_rest data c (sign ++ ds ++ x :: r) -> sign = [] \/ sign = [45] -> ds <> [] -> Forall digit ds -> ~ digit x ->
  (sign = [] -> ds = [48] -> x <> 100 /\ x <> 120) ->
  LexerNumber sd data c =
    if (x =? 46) || is_e x then
      do ok <- VerifyDecimal data (adv c (zlen (sign ++ ds))) (jc_pos c + zlen (sign ++ ds)) (zlen (x :: r));
      if fst ok : bool then
        do n <- strtod_span (sign ++ ds ++ x :: r);
        do c2 <- ConsumeChars data (snd ok) (n - zlen (sign ++ ds));
        Ok (mk_jtok T_DECIMAL 0 (sd (firstn (Z.to_nat n) (sign ++ ds ++ x :: r))), c2)
      else Ok (no_token, snd ok)
    else Ok (mk_jtok T_INTEGER 0 (match sign with [] => u64 (dec_val 0 ds) | _ => u64 (- dec_val 0 ds) end), adv c (zlen (sign ++ ds))).
Proof.
  intros sd c sign ds x r H Hsign Hne Hd Hx Hp. unfold LexerNumber. rewrite (peeks _ _ H), bind_Ok.
  assert (HH : exists ch l, sign ++ ds ++ x :: r = ch :: l /\ (ch =? 45) = (match sign with [] => false | _ => true end) /\
                 (ch = 48 -> exists y l', l = y :: l' /\ y <> 100 /\ y <> 120)).
  { destruct Hsign as [->| ->]; cbn [app].
    - destruct ds as [|d ds]; [contradiction|]. inversion Hd as [|? ? Hd1 Hd2]; subst. unfold digit in Hd1. exists d, (ds ++ x :: r). split; [reflexivity|]. split; [lia|].
      intros ->. destruct ds as [|d' ds]; cbn [app].
      + exists x, r. split; [reflexivity|]. apply Hp; reflexivity.
      + inversion Hd2 as [|? ? Hd3 _]; subst. unfold digit in Hd3. do 2 eexists. split; [reflexivity|]. lia.
    - do 2 eexists. split; [reflexivity|]. split; [reflexivity|discriminate]. }
  destruct HH as [ch [l [HE [H45 H48]]]]. assert (Hch : at_rest data c (ch :: l)) by (rewrite <- HE; exact H).
  rewrite (peek1 _ _ _ Hch), bind_Ok. set (k := match sign with [] => false | _ => true end) in *.
  assert (Hpre : (if (ch =? 48) && overflows data c 1 then true else false) = false /\
    exists y, (if ch =? 48 then do p <- Ok (jc_pos c); do z <- rd data (p + 1); Ok z else Ok 0) = Ok y /\ y <> 100 /\ y <> 120).
  { destruct (Z.eqb_spec ch 48) as [E|_]; [|split; [reflexivity|exists 0; split; [reflexivity|lia]]]. destruct (H48 E) as [y [l' [-> Hy]]].
    split. { rewrite (over _ _ 1 Hch) by lia. rewrite !zlen_cons. pose proof (zlen_nonneg _ l'). cbn [andb]. replace (1 + (1 + zlen l') <=? 1) with false by lia. reflexivity. }
    exists y. split; [|exact Hy]. rewrite bind_Ok. rewrite (rd_at _ _ 1 Hch) by lia. reflexivity. }
  destruct Hpre as [Hov [y [Hy [Hy1 Hy2]]]]. destruct ((ch =? 48) && overflows data c 1); [discriminate|]. rewrite Hy, bind_Ok.
  replace (y =? 100) with false by lia. replace (y =? 120) with false by lia.
  assert (Hc1 : (if ch =? 45 then ConsumeChar data c else Ok c) = Ok (adv c (zlen sign))).
  { rewrite H45. unfold k. destruct Hsign as [->| ->]; [rewrite zlen_nil, adv_0; reflexivity|]. rewrite (consume1 _ _ _ Hch). reflexivity. }
  rewrite Hc1, bind_Ok. pose proof (at_adv _ _ _ _ H) as H1. rewrite (integer_eq ds _ (x :: r) H1 Hd Hx).
  destruct ds as [|d ds]; [contradiction|]. rewrite bind_Ok. cbn [fst snd]. rewrite adv_adv, <- zlen_app.
  assert (H2 : at_rest data (adv c (zlen (sign ++ d :: ds))) (x :: r)). { apply at_adv. rewrite <- app_assoc. exact H. }
  rewrite (peeks _ _ H2), bind_Ok. rewrite <- (Z.add_0_r (jc_pos (adv _ _))) at 1. rewrite (rd_at _ _ 0 H2) by lia. rewrite rd_cons, bind_Ok.
  unfold is_e. rewrite <- orb_assoc. destruct ((x =? 46) || ((x =? 101) || (x =? 69))).
  - rewrite (remaining _ _ H2). change (jc_pos (adv c (zlen (sign ++ d :: ds)))) with (jc_pos c + zlen (sign ++ d :: ds)).
    destruct (VerifyDecimal _ _ _ _) as [[ok c']| | |]; [rewrite !bind_Ok|reflexivity|reflexivity|reflexivity]. cbn [fst snd]. destruct ok; [|reflexivity].
    unfold drop. assert (Hu : skipn (Z.to_nat (jc_pos c)) data = sign ++ (d :: ds) ++ x :: r) by (apply H). rewrite Hu.
    destruct (strtod_span _) as [n| | |]; [rewrite !bind_Ok|reflexivity|reflexivity|reflexivity]. unfold slice. rewrite Hu.
    replace (jc_pos c + n - (jc_pos c + zlen (sign ++ d :: ds))) with (n - zlen (sign ++ d :: ds)) by lia. reflexivity.
  - rewrite H45. unfold k. destruct Hsign as [->| ->]; [reflexivity|]. do 3 f_equal. unfold u64. rewrite Zminus_mod_idemp_r. reflexivity.
Qed.
Lemma rd_app : forall (a : list Z) x b, rd (a ++ x :: b) (zlen a) = Ok x.
Proof. intros. unfold rd. rewrite znth_app_r by lia. rewrite Z.sub_diag, znth_0. reflexivity. Qed.
Lemma strtod_head : forall sign ds x r, sign = [] \/ sign = [45] -> ds <> [] -> Forall digit ds -> ~ digit x ->
  strtod_span (sign ++ ds ++ x :: r) =
    if x =? 46 then
      do f <- digits_span r; do e <- exponent_span (drop f r); Ok (zlen (sign ++ ds) + 1 + f + e)
    else do e <- exponent_span (x :: r); Ok (zlen (sign ++ ds) + e).
Proof.
  intros sign ds x r Hsign Hne Hd Hx. unfold strtod_span.
  assert (HH : exists ch l, sign ++ ds ++ x :: r = ch :: l /\ (if ch =? 45 then 1 else 0) = zlen sign).
  { destruct Hsign as [->| ->]; cbn [app].
    - destruct ds as [|d ds]; [contradiction|]. inversion Hd as [|? ? Hd1 Hd2]; subst. unfold digit in Hd1. do 2 eexists. split; [reflexivity|].
      replace (d =? 45) with false by lia. reflexivity.
    - do 2 eexists. split; reflexivity. }
  destruct HH as [ch [l [HE HS]]]. rewrite HE, rd_cons, bind_Ok, HS. rewrite <- HE. rewrite drop_app, (digits_span_eq ds (x :: r) Hd Hx), bind_Ok.
  rewrite <- zlen_app, app_assoc, rd_app, bind_Ok. rewrite (drop_app (sign ++ ds)). rewrite snoc_app.
  replace (zlen (sign ++ ds) + 1) with (zlen ((sign ++ ds) ++ [x])) by (rewrite (zlen_app _ (sign ++ ds)); reflexivity). rewrite drop_app.
  destruct (x =? 46); [|reflexivity]. destruct (digits_span r) as [f| | |] eqn:Ef; [rewrite !bind_Ok|reflexivity|reflexivity|reflexivity].
  replace (drop (zlen ((sign ++ ds) ++ [x]) + f) (((sign ++ ds) ++ [x]) ++ r)) with (drop f r); [reflexivity|].
  assert (0 <= f). { clear -Ef. revert f Ef. induction r as [|c r IH]; intros f Ef; cbn [digits_span] in Ef; [discriminate|]. destruct (isdigit c); [|injection Ef as <-; lia].
    destruct (digits_span r) as [n| | |]; try discriminate. rewrite bind_Ok in Ef. assert (0 <= n) by (apply IH; reflexivity). assert (f = 1 + n) by congruence. lia. }
  unfold drop. rewrite Z2Nat.inj_add by (try apply zlen_nonneg; assumption). rewrite skipn_plus. f_equal. symmetry. apply skipn_app_n. unfold zlen. lia.
Qed.
Definition token_is (t : jtok) (c c' : jctx) (type : jtype) (v n : Z) : Prop := t = mk_jtok type 0 v /\ c' = adv c n.
Definition fails (c : jctx) (res : outcome (jtok * jctx)) : Prop :=
  exists c', res = Ok (no_token, c') /\ onward c c' /\ je_code (jc_err c') <> E_NONE.
Lemma fails_at : forall c a r e, at_rest data c (a ++ r) -> e <> E_NONE -> fails c (Ok (no_token, SetError (adv c (zlen a)) e)).
Proof.
  intros c a r e H He. eexists. split; [reflexivity|]. pose proof (onward_adv _ _ _ H). pose proof (at_adv _ _ _ _ H) as [H1 _].
  split; [eapply onward_trans; [eassumption|apply onward_error; exact H1]|apply SetError_code; exact He].
Qed.
Lemma firstn_zlen : forall (a b : list Z), firstn (Z.to_nat (zlen a)) (a ++ b) = a.
Proof. intros. unfold zlen. rewrite Nat2Z.id. rewrite firstn_app, Nat.sub_diag, firstn_O, app_nil_r. apply firstn_all. Qed.
Lemma consume_n : forall c n, inside data c -> 0 <= n -> jc_pos c + n <= zlen data -> ConsumeChars data c n = Ok (adv c n).
Proof. intros c n H Hn Hl. unfold ConsumeChars. replace (jc_pos c + n <=? zlen data) with true by lia. reflexivity. Qed.
(* numbers with a point *)
Lemma number_point : forall sd c sign ds fs r, at_rest data c (sign ++ ds ++ 46 :: fs ++ r) -> sign = [] \/ sign = [45] -> ds <> [] -> Forall digit ds -> Forall digit fs -> ends digit r ->
  match r with
  | [] => fails c (LexerNumber sd data c)
  | y :: r3 =>
      if is_e y then
        forall sg es r4, r3 = sg ++ es ++ r4 -> sign_chars sg -> Forall digit es -> ends digit r4 ->
          (sg = [] -> match es ++ r4 with c :: _ => (c =? 45) || (c =? 43) = false | [] => True end) ->
          match r3, r4 with
          | [], _ => LexerNumber sd data c = UB
          | _, [] => fails c (LexerNumber sd data c)
          | _, _ => let s := sign ++ ds ++ 46 :: fs ++ match es with [] => [] | _ => y :: sg ++ es end in
                    LexerNumber sd data c = Ok (mk_jtok T_DECIMAL 0 (sd s), adv c (zlen s))
          end
      else LexerNumber sd data c = Ok (mk_jtok T_DECIMAL 0 (sd (sign ++ ds ++ 46 :: fs)), adv c (zlen (sign ++ ds ++ 46 :: fs)))
  end.
Proof.
  intros sd c sign ds fs r H Hsign Hne Hd Hf Hr.
  assert (H46 : ~ digit 46) by (unfold digit; lia).
  pose proof (number_prelude sd c sign ds 46 (fs ++ r) H Hsign Hne Hd H46 ltac:(intros; lia)) as HP. cbn [Z.eqb Pos.eqb orb] in HP.
  assert (H1 : at_rest data (adv c (zlen (sign ++ ds))) (46 :: fs ++ r)). { apply at_adv. rewrite <- app_assoc. exact H. }
  pose proof (point_verified _ _ _ H1 Hf Hr) as HV. cbn [adv jc_pos] in HV.
  change (VerifyDecimal data (mk_jctx (jc_pos c + zlen (sign ++ ds)) (jc_err c) (jc_line c) (jc_linepos c) (jc_stack c))) with (VerifyDecimal data (adv c (zlen (sign ++ ds)))) in HV.
  rewrite HV in HP. clear HV. pose proof (strtod_head sign ds 46 (fs ++ r) Hsign Hne Hd H46) as HSt. cbn [Z.eqb Pos.eqb] in HSt.
  rewrite (digits_span_eq fs r Hf Hr) in HSt. pose proof (at_len _ _ _ H) as HL.
  destruct r as [|y r3].
  { rewrite HP, bind_Ok. cbn [fst snd]. apply (fails_at c (sign ++ ds) (46 :: fs ++ [])); [rewrite <- app_assoc; exact H|discriminate]. }
  rewrite bind_Ok in HSt. rewrite drop_app in HSt. destruct (is_e y) eqn:Ey.
  2:{ rewrite HP, bind_Ok. cbn [fst snd]. rewrite HSt. unfold exponent_span at 1. rewrite rd_cons, bind_Ok. fold (is_e y). rewrite Ey, !bind_Ok.
      assert (Hn : zlen (sign ++ ds) + 1 + zlen fs + 0 = zlen (sign ++ ds ++ 46 :: fs)) by (rewrite !zlen_app, zlen_cons; lia). rewrite Hn.
      rewrite consume_n; [rewrite bind_Ok, adv_adv|apply H1|rewrite !zlen_app, zlen_cons; pose proof (zlen_nonneg _ fs); lia|].
      2:{ cbn [adv jc_pos]. rewrite !zlen_app, !zlen_cons, !zlen_app, !zlen_cons in *. pose proof (zlen_nonneg _ r3). lia. }
      replace (zlen (sign ++ ds) + (zlen (sign ++ ds ++ 46 :: fs) - zlen (sign ++ ds))) with (zlen (sign ++ ds ++ 46 :: fs)) by lia.
      replace (sign ++ ds ++ 46 :: fs ++ y :: r3) with ((sign ++ ds ++ 46 :: fs) ++ y :: r3) by (repeat (progress (rewrite <- ?app_assoc; cbn [app])); reflexivity).
      rewrite firstn_zlen. reflexivity. }
  intros sg es r4 -> Hsg Hes Hr4 Hn0.
  assert (H2 : at_rest data (adv c (zlen (sign ++ ds ++ 46 :: fs ++ [y]))) (sg ++ es ++ r4)).
  { apply at_adv. repeat (progress (rewrite <- ?app_assoc; cbn [app])). exact H. }
  pose proof (exponent_verified _ (adv c (zlen (sign ++ ds))) sg es r4 H2 Hsg Hes Hr4 Hn0) as HX. cbn [adv jc_pos] in HX.
  change (mk_jctx (jc_pos c + zlen (sign ++ ds)) (jc_err c) (jc_line c) (jc_linepos c) (jc_stack c)) with (adv c (zlen (sign ++ ds))) in HX.
  replace (jc_pos c + zlen (sign ++ ds ++ 46 :: fs ++ [y])) with (jc_pos c + zlen (sign ++ ds) + zlen (46 :: fs ++ [y])) in HX by (rewrite !zlen_app, !zlen_cons, ?zlen_app; lia).
  rewrite HX in HP. clear HX.
  destruct (sg ++ es ++ r4) as [|z l] eqn:E3; [rewrite HP; reflexivity|].
  destruct r4 as [|w r4].
  { rewrite HP, bind_Ok. cbn [fst snd]. apply (fails_at c (sign ++ ds) (46 :: fs ++ y :: z :: l)); [rewrite <- app_assoc; exact H|discriminate]. }
  rewrite <- E3 in *. rewrite HP, bind_Ok. cbn [fst snd]. rewrite HSt.
  unfold is_e in Ey. rewrite (exponent_span_eq y sg es (w :: r4)) by (assumption || discriminate || lia). rewrite !bind_Ok.
  set (ex := match es with [] => [] | _ => y :: sg ++ es end).
  assert (Hex : match es with [] => 0 | _ => zlen (y :: sg ++ es) end = zlen ex) by (unfold ex; destruct es; reflexivity). rewrite Hex.
  assert (Hsplit : exists r5, y :: sg ++ es ++ w :: r4 = ex ++ r5).
  { unfold ex. destruct es as [|e0 es]; [eexists; reflexivity|]. exists (w :: r4). cbn [app]. rewrite <- app_assoc. reflexivity. }
  destruct Hsplit as [r5 Hr5]. rewrite Hr5 in *.
  assert (Hn : zlen (sign ++ ds) + 1 + zlen fs + zlen ex = zlen (sign ++ ds ++ 46 :: fs ++ ex)) by (rewrite !zlen_app, zlen_cons, zlen_app; lia). rewrite Hn.
  rewrite consume_n; [rewrite bind_Ok, adv_adv|apply H1|rewrite !zlen_app, zlen_cons; pose proof (zlen_nonneg _ (fs ++ ex)); lia|].
  2:{ cbn [adv jc_pos]. rewrite !zlen_app, !zlen_cons, !zlen_app in *. pose proof (zlen_nonneg _ r5). lia. }
  replace (zlen (sign ++ ds) + (zlen (sign ++ ds ++ 46 :: fs ++ ex) - zlen (sign ++ ds))) with (zlen (sign ++ ds ++ 46 :: fs ++ ex)) by lia.
  replace (sign ++ ds ++ 46 :: fs ++ ex ++ r5) with ((sign ++ ds ++ 46 :: fs ++ ex) ++ r5) by (repeat (progress (rewrite <- ?app_assoc; cbn [app])); reflexivity).
  rewrite firstn_zlen. reflexivity.
Qed.
(* numbers without a point but with an exponent letter *)
Lemma number_e : forall sd c sign ds y sg es r4, at_rest data c (sign ++ ds ++ y :: sg ++ es ++ r4) -> sign = [] \/ sign = [45] -> ds <> [] -> Forall digit ds -> is_e y = true ->
  sign_chars sg -> Forall digit es -> ends digit r4 -> (sg = [] -> match es ++ r4 with c :: _ => (c =? 45) || (c =? 43) = false | [] => True end) ->
  match r4 with
  | [] => fails c (LexerNumber sd data c)
  | _ => let s := sign ++ ds ++ match es with [] => [] | _ => y :: sg ++ es end in
         LexerNumber sd data c = Ok (mk_jtok T_DECIMAL 0 (sd s), adv c (zlen s))
  end.
Proof.
  intros sd c sign ds y sg es r4 H Hsign Hne Hd Hy Hsg Hes Hr4 Hn0.
  assert (Hyd : ~ digit y) by (unfold is_e, digit in *; lia).
  assert (Hy46 : (y =? 46) = false) by (unfold is_e in Hy; lia).
  assert (Hpfx : sign = [] -> ds = [48] -> y <> 100 /\ y <> 120) by (unfold is_e in Hy; lia).
  pose proof (number_prelude sd c sign ds y (sg ++ es ++ r4) H Hsign Hne Hd Hyd Hpfx) as HP. rewrite Hy, orb_true_r in HP.
  assert (H1 : at_rest data (adv c (zlen (sign ++ ds))) (y :: sg ++ es ++ r4)). { apply at_adv. rewrite <- app_assoc. exact H. }
  pose proof (at_next _ _ _ _ H1) as H2. rewrite adv_adv in H2.
  pose proof (exponent_verified _ (adv c (zlen (sign ++ ds))) sg es r4 H2 Hsg Hes Hr4 Hn0) as HX. cbn [adv jc_pos] in HX.
  change (mk_jctx (jc_pos c + zlen (sign ++ ds)) (jc_err c) (jc_line c) (jc_linepos c) (jc_stack c)) with (adv c (zlen (sign ++ ds))) in HX.
  pose proof (strtod_head sign ds y (sg ++ es ++ r4) Hsign Hne Hd Hyd) as HSt. rewrite Hy46 in HSt. pose proof (at_len _ _ _ H) as HL. pose proof (at_len _ _ _ H1) as HL1.
  assert (HV : VerifyDecimal data (adv c (zlen (sign ++ ds))) (jc_pos c + zlen (sign ++ ds)) (zlen (y :: sg ++ es ++ r4)) =
               match sg ++ es ++ r4, r4 with [], _ => Ok (false, SetError (adv c (zlen (sign ++ ds))) E_END) | _, [] => Ok (false, SetError (adv c (zlen (sign ++ ds))) E_END) | _, _ => Ok (true, adv c (zlen (sign ++ ds))) end).
  { unfold VerifyDecimal. destruct (zlen (y :: sg ++ es ++ r4) <? 2) eqn:E2.
    { destruct (sg ++ es ++ r4) as [|z l]; [reflexivity|]. rewrite !zlen_cons in E2. pose proof (zlen_nonneg _ l). lia. }
    cbn [adv jc_pos] in HL1. rewrite HL1. replace (jc_pos c + zlen (sign ++ ds)) with (jc_pos (adv c (zlen (sign ++ ds))) + 0) at 1 by (cbn; lia).
    rewrite (rd_at _ _ 0 H1) by lia. rewrite rd_cons, bind_Ok, Hy46. replace (jc_pos c + zlen (sign ++ ds) + 1) with (jc_pos c + (zlen (sign ++ ds) + 1)) by lia. rewrite HX.
    destruct (sg ++ es ++ r4) as [|z l]; [cbv in E2; discriminate|reflexivity]. }
  rewrite HV in HP. clear HV HX.
  destruct r4 as [|w r4].
  { assert (HF : LexerNumber sd data c = Ok (no_token, SetError (adv c (zlen (sign ++ ds))) E_END)) by (rewrite HP; destruct (sg ++ es ++ []); reflexivity).
    rewrite HF. apply (fails_at c (sign ++ ds) (y :: sg ++ es ++ [])); [rewrite <- app_assoc; exact H|discriminate]. }
  assert (HF : match sg ++ es ++ w :: r4 with [] => Ok (false, SetError (adv c (zlen (sign ++ ds))) E_END) | _ => Ok (true, adv c (zlen (sign ++ ds))) end = Ok (true, adv c (zlen (sign ++ ds)))).
  { destruct sg, es; reflexivity. }
  rewrite HF, bind_Ok in HP. cbn [fst snd] in HP. rewrite HP, HSt. clear HF HP HSt.
  unfold is_e in Hy. rewrite (exponent_span_eq y sg es (w :: r4)) by (assumption || discriminate || lia). rewrite !bind_Ok.
  set (ex := match es with [] => [] | _ => y :: sg ++ es end).
  assert (Hex : match es with [] => 0 | _ => zlen (y :: sg ++ es) end = zlen ex) by (unfold ex; destruct es; reflexivity). rewrite Hex.
  assert (Hsplit : exists r5, y :: sg ++ es ++ w :: r4 = ex ++ r5).
  { unfold ex. destruct es as [|e0 es]; [eexists; reflexivity|]. exists (w :: r4). cbn [app]. rewrite <- app_assoc. reflexivity. }
  destruct Hsplit as [r5 Hr5]. rewrite Hr5 in *.
  assert (Hn : zlen (sign ++ ds) + zlen ex = zlen (sign ++ ds ++ ex)) by (rewrite !zlen_app; lia). rewrite Hn. pose proof (zlen_nonneg _ ex).
  rewrite consume_n; [rewrite bind_Ok, adv_adv|apply H1|lia|].
  2:{ cbn [adv jc_pos]. rewrite !zlen_app in *. pose proof (zlen_nonneg _ r5). lia. }
  replace (zlen (sign ++ ds) + (zlen (sign ++ ds ++ ex) - zlen (sign ++ ds))) with (zlen (sign ++ ds ++ ex)) by lia.
  replace (sign ++ ds ++ ex ++ r5) with ((sign ++ ds ++ ex) ++ r5) by (repeat (progress (rewrite <- ?app_assoc; cbn [app])); reflexivity).
  cbv zeta. rewrite firstn_zlen. reflexivity.
Qed.
(* ---- a number, whatever follows ---- *)
Definition sound (sd : list Z -> Z) (c : jctx) (r : list Z) (t : jtok) (c' : jctx) : Prop :=
  exists s r', r = s ++ r' /\ s <> [] /\ c' = adv c (zlen s) /\
    ((exists k, spelled sd k s /\ token_at (jc_pos c) k t) \/ bare_exponent sd s r' t).
Definition reads (sd : list Z -> Z) (c : jctx) (r : list Z) (res : outcome (jtok * jctx)) : Prop :=
  (res = UB /\ cut_exponent r) \/
  exists t c', res = Ok (t, c') /\ onward c c' /\ (IsValid t = true -> jc_pos c < jc_pos c') /\
    (je_code (jc_err c') <> E_NONE \/ (IsValid t = true /\ sound sd c r t c')).
Lemma reads_fails : forall sd c r res, fails c res -> reads sd c r res.
Proof. intros sd c r res [c' [-> [H1 H2]]]. right. exists no_token, c'. split; [reflexivity|]. split; [exact H1|]. split; [discriminate|]. left. exact H2. Qed.
Lemma reads_sound : forall sd c s r' t, at_rest data c (s ++ r') -> s <> [] -> IsValid t = true ->
  (exists k, spelled sd k s /\ token_at (jc_pos c) k t) \/ bare_exponent sd s r' t -> reads sd c (s ++ r') (Ok (t, adv c (zlen s))).
Proof.
  intros sd c s r' t H Hne Hv Hk. right. exists t, (adv c (zlen s)). split; [reflexivity|]. split; [eapply onward_adv; exact H|].
  split. { intros _. cbn. destruct s; [contradiction|]. rewrite zlen_cons. pose proof (zlen_nonneg _ s). lia. }
  right. split; [exact Hv|]. exists s, r'. auto.
Qed.
Lemma dec_spelled : forall sd sign ds, sign = [] \/ sign = [45] -> ds <> [] -> Forall digit ds ->
  spelled sd (SInteger (match sign with [] => u64 (dec_val 0 ds) | _ => u64 (- dec_val 0 ds) end)) (sign ++ ds).
Proof.
  intros sd sign ds [->| ->] Hne Hd; cbn [app]; unfold u64; [apply sp_int|apply sp_neg]; try assumption; unfold dec_number; rewrite dec_val_number by assumption; reflexivity.
Qed.
Lemma number_hex : forall sd c p r, at_rest data c (48 :: p :: r) -> p = 100 \/ p = 120 ->
  LexerNumber sd data c = LexerHexInteger data (adv c 2) (if p =? 100 then T_DECIMAL else T_INTEGER).
Proof.
  intros sd c p r H Hp. unfold LexerNumber. rewrite (peeks _ _ H), bind_Ok, (peek1 _ _ _ H), bind_Ok. rewrite (over _ _ 1 H) by lia. rewrite !zlen_cons.
  pose proof (zlen_nonneg _ r). replace (1 + (1 + zlen r) <=? 1) with false by lia. cbn [Z.eqb Pos.eqb andb]. rewrite bind_Ok, (rd_at _ _ 1 H) by lia.
  change (rd (48 :: p :: r) 1) with (Ok p). rewrite !bind_Ok. pose proof (consume c [48; p] r H) as HC. change (zlen [48; p]) with 2 in HC. rewrite HC, bind_Ok.
  destruct Hp as [->| ->]; reflexivity.
Qed.
Lemma hex_reads : forall sd c p r, at_rest data c (48 :: p :: r) -> p = 100 \/ p = 120 -> reads sd c (48 :: p :: r) (LexerNumber sd data c).
Proof.
  intros sd c p r H Hp. rewrite (number_hex _ _ _ _ H Hp). destruct (hexdigit_span r) as [ds [r' [-> [Hd Hr]]]].
  pose proof (at_adv _ c [48; p] _ H) as H2. change (zlen [48; p]) with 2 in H2. rewrite (hex_eq ds _ _ r' H2 Hd Hr).
  destruct ds as [|d ds].
  - destruct r' as [|x r']; apply reads_fails; (eapply (fails_at c [48; p]); [exact H|discriminate]).
  - destruct r' as [|x r'].
    + apply reads_fails. rewrite adv_adv. change 2 with (zlen [48; p]). rewrite <- zlen_app. apply (fails_at c _ []); [rewrite <- app_assoc; exact H|discriminate].
    + rewrite adv_adv. change 2 with (zlen [48; p]). rewrite <- zlen_app. change (48 :: p :: (d :: ds) ++ x :: r') with (([48; p] ++ d :: ds) ++ x :: r').
      apply reads_sound; [exact H|discriminate|destruct Hp as [->| ->]; reflexivity|left].
      destruct Hp as [->| ->].
      * exists (SDecimal (u64 (hex_val 0 (d :: ds)))). split; [|split; reflexivity]. apply (sp_bits sd (d :: ds)); [discriminate|]. apply (hex_val_number (d :: ds)). exact Hd.
      * exists (SInteger (u64 (hex_val 0 (d :: ds)))). split; [|split; reflexivity]. apply (sp_hex sd (d :: ds)); [discriminate|]. apply (hex_val_number (d :: ds)). exact Hd.
Qed.
(* no digits, or digits to the end *)
Lemma number_fails : forall sd c sign ds r, at_rest data c (sign ++ ds ++ r) -> sign = [] \/ sign = [45] -> sign ++ ds <> [] -> Forall digit ds -> ends digit r ->
  ds = [] \/ r = [] -> fails c (LexerNumber sd data c).
Proof.
  intros sd c sign ds r H Hsign Hne Hd Hr Hz. unfold LexerNumber. rewrite (peeks _ _ H), bind_Ok. pose proof (at_adv _ _ _ _ H) as H1.
  pose proof (integer_eq ds _ r H1 Hd Hr) as HI.
  assert (HF : match fst (match ds, r with [], [] => (None, SetError (adv c (zlen sign)) E_END) | [], _ => (None, SetError (adv c (zlen sign)) E_DIGIT)
      | _, [] => (None, SetError (adv (adv c (zlen sign)) (zlen ds)) E_END) | _, _ => (Some 0, c) end) with None => True | Some _ => False end).
  { destruct Hz as [-> | ->]; [destruct r; exact I|destruct ds; exact I]. }
  assert (HI2 : exists c', LexerInteger data (adv c (zlen sign)) = Ok (None, c') /\ fails c (Ok (no_token, c'))).
  { rewrite HI. destruct ds as [|d ds].
    - destruct r; (eexists; split; [reflexivity|]; apply (fails_at c sign _ _ H); discriminate).
    - destruct Hz as [Hz| ->]; [discriminate|]. eexists. split; [reflexivity|]. rewrite adv_adv, <- zlen_app. apply (fails_at c (sign ++ d :: ds) []); [rewrite <- app_assoc; exact H|discriminate]. }
  destruct HI2 as [c' [HI2 HF2]]. clear HI HF.
  destruct Hsign as [->| ->].
  - cbn [app] in *. destruct ds as [|d ds]; [contradiction|]. destruct Hz as [Hz| ->]; [discriminate|]. rewrite app_nil_r in H. rewrite zlen_nil, adv_0 in HI2.
    rewrite (peek1 _ _ _ H), bind_Ok. rewrite (over _ _ 1 H) by lia. inversion Hd as [|? ? Hd1 Hd2]; subst. unfold digit in Hd1.
    destruct (Z.eqb_spec d 48) as [->|N].
    + destruct ds as [|d2 ds].
      { cbn [andb]. change (zlen [48] <=? 1) with true. cbv iota. replace c with (adv c (zlen (@nil Z))) at 2 by apply adv_0. apply (fails_at c [] [48]); [exact H|discriminate]. }
      rewrite !zlen_cons. pose proof (zlen_nonneg _ ds). replace (1 + (1 + zlen ds) <=? 1) with false by lia. cbn [andb]. rewrite bind_Ok, (rd_at _ _ 1 H) by lia.
      change (rd (48 :: d2 :: ds) 1) with (Ok d2). rewrite !bind_Ok. inversion Hd2 as [|? ? Hd3 _]; subst. unfold digit in Hd3.
      replace (d2 =? 100) with false by lia. replace (d2 =? 120) with false by lia. cbn [Z.eqb Pos.eqb]. rewrite bind_Ok, HI2, bind_Ok. exact HF2.
    + cbn [andb]. rewrite bind_Ok. cbn [Z.eqb]. replace (d =? 45) with false by lia. rewrite bind_Ok, HI2, bind_Ok. exact HF2.
  - cbn [app] in H. rewrite (peek1 _ _ _ H), bind_Ok. cbn [Z.eqb Pos.eqb andb]. rewrite bind_Ok. cbn [Z.eqb]. rewrite (consume1 _ _ _ H), bind_Ok.
    change (zlen [45]) with 1 in HI2. rewrite HI2, bind_Ok. exact HF2.
Qed.
Lemma number_reads : forall sd c ch l, at_rest data c (ch :: l) -> ch = 45 \/ digit ch -> reads sd c (ch :: l) (LexerNumber sd data c).
Proof.
  intros sd c ch l H Hch.
  assert (HS : exists sign ds r, ch :: l = sign ++ ds ++ r /\ (sign = [] \/ sign = [45]) /\ Forall digit ds /\ ends digit r /\ sign ++ ds <> []).
  { destruct Hch as [->|Hch].
    - destruct (digit_span l) as [ds [r [-> [Hd Hr]]]]. exists [45], ds, r. repeat (split; [auto|]). discriminate.
    - destruct (digit_span l) as [ds [r [-> [Hd Hr]]]]. exists [], (ch :: ds), r. repeat (split; [auto|]). discriminate. }
  destruct HS as [sign [ds [r [HE [Hsign [Hd [Hr Hne]]]]]]]. rewrite HE in *. clear HE Hch ch l.
  destruct ds as [|d0 ds0]. { apply reads_fails. eapply number_fails; try eassumption. left. reflexivity. }
  destruct r as [|x r]. { apply reads_fails. eapply number_fails; try eassumption. right. reflexivity. }
  remember (d0 :: ds0) as ds eqn:Eds. assert (Hdn : ds <> []) by (subst; discriminate). clear Eds Hne d0 ds0.
  destruct (Z.eqb_spec x 46) as [->|N46].
  - destruct (digit_span r) as [fs [r2 [-> [Hf Hr2]]]]. pose proof (number_point sd c sign ds fs r2 H Hsign Hdn Hd Hf Hr2) as HN.
    destruct r2 as [|y r3]; [apply reads_fails; exact HN|].
    assert (Hplain : reads sd c (sign ++ ds ++ 46 :: fs ++ y :: r3) (Ok (mk_jtok T_DECIMAL 0 (sd (sign ++ ds ++ 46 :: fs)), adv c (zlen (sign ++ ds ++ 46 :: fs))))).
    { replace (sign ++ ds ++ 46 :: fs ++ y :: r3) with ((sign ++ ds ++ 46 :: fs) ++ y :: r3) in * by (repeat (progress (rewrite <- ?app_assoc; cbn [app])); reflexivity).
      apply reads_sound; [exact H|destruct sign, ds; discriminate || contradiction|reflexivity|left]. exists (SDecimal (sd (sign ++ ds ++ 46 :: fs))).
      split; [|split; reflexivity]. pose proof (sp_fraction sd sign ds fs [] Hsign Hdn Hd Hf ex_none) as HS. rewrite app_nil_r in HS. exact HS. }
    destruct (is_e y) eqn:Ey; [|rewrite HN; exact Hplain].
    destruct (exp_split r3) as [sg [es [r4 [HE [Hsg [Hes [Hr4 Hn0]]]]]]]. specialize (HN sg es r4 HE Hsg Hes Hr4 Hn0).
    destruct r3 as [|z r3].
    { left. split; [exact HN|]. exists [], sign, ds, fs, y. split; [reflexivity|]. split; [constructor|]. repeat (split; [assumption|]). unfold is_e in Ey. lia. }
    destruct r4 as [|w r4]; [apply reads_fails; exact HN|]. cbv zeta in HN. rewrite HN. destruct es as [|e0 es0].
    { rewrite app_nil_r in *. exact Hplain. }
    rewrite HE. remember (e0 :: es0) as es eqn:Ees. assert (Hen : es <> []) by (subst; discriminate). clear Ees.
    replace (sign ++ ds ++ 46 :: fs ++ y :: sg ++ es ++ w :: r4) with ((sign ++ ds ++ 46 :: fs ++ y :: sg ++ es) ++ w :: r4)
      by (repeat (progress (rewrite <- ?app_assoc; cbn [app])); reflexivity).
    apply reads_sound; [|destruct sign, ds; discriminate || contradiction|reflexivity|left].
    { repeat (progress (rewrite <- ?app_assoc; cbn [app])). rewrite HE in H. exact H. }
    eexists (SDecimal (sd _)). split; [|split; reflexivity]. apply sp_fraction; try assumption. apply ex_some; try assumption. unfold is_e in Ey. lia.
  - assert (HX : (x = 100 \/ x = 120) /\ sign = [] /\ ds = [48] \/ ~ ((x = 100 \/ x = 120) /\ sign = [] /\ ds = [48])).
    { destruct (list_eq_dec Z.eq_dec ds [48]); [|right; intros [? [? ?]]; contradiction]. destruct sign; [|right; intros [? [? ?]]; discriminate].
      destruct (Z.eqb_spec x 100), (Z.eqb_spec x 120); auto. right. intros [? [? ?]]. lia. }
    destruct HX as [[Hp [-> ->]]|HX]; [apply hex_reads; assumption|].
    destruct (is_e x) eqn:Ex.
    + destruct (exp_split r) as [sg [es [r4 [-> [Hsg [Hes [Hr4 Hn0]]]]]]].
      pose proof (number_e sd c sign ds x sg es r4 H Hsign Hdn Hd Ex Hsg Hes Hr4 Hn0) as HN. destruct r4 as [|w r4]; [apply reads_fails; exact HN|].
      cbv zeta in HN. rewrite HN. destruct es as [|e0 es0].
      * rewrite app_nil_r. cbn [app]. rewrite app_assoc in *. apply reads_sound; [exact H|destruct sign, ds; discriminate || contradiction|reflexivity|right].
        exists sign, ds, x, (sg ++ w :: r4). unfold is_e in Ex. repeat (split; [auto; try lia|]). reflexivity.
      * remember (e0 :: es0) as es eqn:Ees. assert (Hen : es <> []) by (subst; discriminate). clear Ees.
        replace (sign ++ ds ++ x :: sg ++ es ++ w :: r4) with ((sign ++ ds ++ x :: sg ++ es) ++ w :: r4) in * by (repeat (progress (rewrite <- ?app_assoc; cbn [app])); reflexivity).
        apply reads_sound; [exact H|destruct sign, ds; discriminate || contradiction|reflexivity|left].
        eexists (SDecimal (sd _)). split; [|split; reflexivity]. apply sp_exponent; try assumption; [|discriminate]. apply ex_some; try assumption. unfold is_e in Ex. lia.
    + pose proof (number_prelude sd c sign ds x r H Hsign Hdn Hd Hr) as HP. rewrite HP by (intros -> ->; split; intros ->; apply HX; auto).
      replace (x =? 46) with false by lia. rewrite Ex. cbn [orb]. rewrite app_assoc in *. apply reads_sound; [exact H|destruct sign, ds; discriminate || contradiction|reflexivity|left].
      eexists. split; [apply dec_spelled; assumption|]. split; reflexivity.
Qed.
(* the one number that looks past the end *)
Lemma number_cut : forall sd c sign ds fs e, at_rest data c (sign ++ ds ++ 46 :: fs ++ [e]) -> sign = [] \/ sign = [45] -> ds <> [] -> Forall digit ds -> Forall digit fs -> e = 101 \/ e = 69 ->
  LexerNumber sd data c = UB.
Proof.
  intros sd c sign ds fs e H Hsign Hne Hd Hf He. assert (Hends : ends digit [e]) by (cbn; unfold digit; lia).
  pose proof (number_point sd c sign ds fs [e] H Hsign Hne Hd Hf Hends) as HN. cbv iota beta in HN. replace (is_e e) with true in HN by (unfold is_e; lia).
  apply (HN [] [] []); [reflexivity|left; reflexivity|constructor|exact I|intros _; exact I].
Qed.
(* ---- a number that stands alone ---- *)
Definition is_number (k : stoken) : Prop := match k with SInteger _ | SDecimal _ => True | _ => False end.
Lemma number_ok : forall sd k s r c, spelled sd k s -> is_number k -> stands_alone r -> at_rest data c (s ++ r) ->
  exists t, LexerNumber sd data c = Ok (t, adv c (zlen s)) /\ token_at (jc_pos c) k t /\ IsValid t = true.
Proof.
  intros sd k s r c Hsp Hk [x [r' [-> Hx]]] H.
  assert (Hxd : ~ digit x) by tauto. assert (Hxl : ~ letter x) by tauto. assert (Hx46 : x <> 46) by tauto. clear Hx.
  assert (Hxh : ~ hexdigit x) by (unfold hexdigit, letter, digit in *; lia).
  assert (Hxe : is_e x = false) by (unfold is_e, letter in *; lia).
  destruct Hsp as [t ch _|t s _|s _|ds v Hne Hv|ds v Hne Hv|ds v Hne Hv|ds v Hne Hv|sign ds fs e Hsign Hne Hd Hf He|sign ds e Hsign Hne Hd He Hen]; try contradiction.
  - pose proof (dec_digits _ _ _ Hv) as Hd. pose proof (number_prelude sd c [] ds x r' H (or_introl eq_refl) Hne Hd Hxd) as HP.
    rewrite HP by (unfold letter in *; lia). replace (x =? 46) with false by lia. rewrite Hxe. cbn [orb app]. eexists. split; [reflexivity|]. split; [|reflexivity].
    split; [reflexivity|]. cbn. unfold dec_number in Hv. rewrite dec_val_number in Hv by assumption. injection Hv as <-. reflexivity.
  - pose proof (dec_digits _ _ _ Hv) as Hd. pose proof (number_prelude sd c [45] ds x r' H (or_intror eq_refl) Hne Hd Hxd) as HP.
    rewrite HP by discriminate. replace (x =? 46) with false by lia. rewrite Hxe. cbn [orb app]. eexists. split; [reflexivity|]. split; [|reflexivity].
    split; [reflexivity|]. cbn. unfold dec_number in Hv. rewrite dec_val_number in Hv by assumption. injection Hv as <-. reflexivity.
  - pose proof (hex_digits _ _ _ Hv) as Hd. change (str "0x") with [48; 120] in *. pose proof (number_hex sd c 120 (ds ++ x :: r') H (or_intror eq_refl)) as HP. rewrite HP.
    pose proof (at_adv _ c [48; 120] _ H) as H2. change (zlen [48; 120]) with 2 in H2. rewrite (hex_eq ds _ _ (x :: r') H2 Hd Hxh).
    destruct ds as [|d ds]; [contradiction|]. rewrite adv_adv. change 2 with (zlen [48; 120]). rewrite <- zlen_app. eexists. split; [reflexivity|]. split; [|reflexivity].
    split; [reflexivity|]. cbn [jt_val]. unfold hex_number in Hv. rewrite hex_val_number in Hv by assumption. injection Hv as <-. reflexivity.
  - pose proof (hex_digits _ _ _ Hv) as Hd. change (str "0d") with [48; 100] in *. pose proof (number_hex sd c 100 (ds ++ x :: r') H (or_introl eq_refl)) as HP. rewrite HP.
    pose proof (at_adv _ c [48; 100] _ H) as H2. change (zlen [48; 100]) with 2 in H2. rewrite (hex_eq ds _ _ (x :: r') H2 Hd Hxh).
    destruct ds as [|d ds]; [contradiction|]. rewrite adv_adv. change 2 with (zlen [48; 100]). rewrite <- zlen_app. eexists. split; [reflexivity|]. split; [|reflexivity].
    split; [reflexivity|]. cbn [jt_val]. unfold hex_number in Hv. rewrite hex_val_number in Hv by assumption. injection Hv as <-. reflexivity.
  - destruct He as [|e sg es He Hsg Hes Hesn].
    + rewrite app_nil_r in *. replace ((sign ++ ds ++ 46 :: fs) ++ x :: r') with (sign ++ ds ++ 46 :: fs ++ x :: r') in H by (repeat (progress (rewrite <- ?app_assoc; cbn [app])); reflexivity).
      pose proof (number_point sd c sign ds fs (x :: r') H Hsign Hne Hd Hf Hxd) as HN. cbv iota beta in HN. rewrite Hxe in HN. rewrite HN. eexists. split; [reflexivity|]. split; [split; reflexivity|reflexivity].
    + replace ((sign ++ ds ++ 46 :: fs ++ e :: sg ++ es) ++ x :: r') with (sign ++ ds ++ 46 :: fs ++ e :: sg ++ es ++ x :: r') in H by (repeat (progress (rewrite <- ?app_assoc; cbn [app])); reflexivity).
      assert (Hee : is_e e = true) by (unfold is_e; lia). assert (Hed : ends digit (e :: sg ++ es ++ x :: r')) by (cbn; unfold digit; lia).
      pose proof (number_point sd c sign ds fs _ H Hsign Hne Hd Hf Hed) as HN. cbv iota beta in HN. rewrite Hee in HN.
      specialize (HN sg es (x :: r') eq_refl Hsg Hes Hxd). destruct es as [|e0 es]; [contradiction|].
      assert (HN0 : sg = [] -> match (e0 :: es) ++ x :: r' with c :: _ => (c =? 45) || (c =? 43) = false | [] => True end).
      { intros _. cbn. inversion Hes as [|? ? He0 _]; subst. unfold digit in He0. lia. }
      specialize (HN HN0). assert (HNE : sg ++ (e0 :: es) ++ x :: r' <> []) by (destruct sg; discriminate).
      destruct (sg ++ (e0 :: es) ++ x :: r') as [|? ?]; [contradiction|]. cbv zeta in HN. rewrite HN. eexists. split; [reflexivity|]. split; [split; reflexivity|reflexivity].
  - destruct He as [|e sg es He Hsg Hes Hesn]; [contradiction|].
    replace ((sign ++ ds ++ e :: sg ++ es) ++ x :: r') with (sign ++ ds ++ e :: sg ++ es ++ x :: r') in H by (repeat (progress (rewrite <- ?app_assoc; cbn [app])); reflexivity).
    assert (Hee : is_e e = true) by (unfold is_e; lia). destruct es as [|e0 es]; [contradiction|].
    assert (HN0 : sg = [] -> match (e0 :: es) ++ x :: r' with c :: _ => (c =? 45) || (c =? 43) = false | [] => True end).
    { intros _. cbn. inversion Hes as [|? ? He0 _]; subst. unfold digit in He0. lia. }
    pose proof (number_e sd c sign ds e sg (e0 :: es) (x :: r') H Hsign Hne Hd Hee Hsg Hes Hxd HN0) as HN. cbv zeta in HN. rewrite HN. eexists. split; [reflexivity|]. split; [split; reflexivity|reflexivity].
Qed.
(* ---- keywords ---- *)
Lemma keyword_reads : forall kw c type len r, at_rest data c r ->
  exists t c', keyword_loop data c type len kw = Ok (t, c') /\ onward c c' /\
    ((exists r', r = kw ++ r' /\ t = mk_jtok type (len + 1) 0 /\ c' = adv c (zlen kw)) \/ (t = no_token /\ je_code (jc_err c') <> E_NONE)).
Proof.
  induction kw as [|k kw IH]; intros c type len r H; cbn [keyword_loop].
  - do 2 eexists. split; [reflexivity|]. split; [apply onward_refl; apply H|]. left. exists r. rewrite zlen_nil, adv_0. auto.
  - destruct r as [|x r].
    { rewrite (over_nil _ H). do 2 eexists. split; [reflexivity|]. split; [apply onward_error; apply H|]. right. split; [reflexivity|]. apply SetError_code. discriminate. }
    rewrite (over_cons _ _ _ H), (peek1 _ _ _ H), bind_Ok. destruct (Z.eqb_spec k x) as [->|N].
    + rewrite (consume1 _ _ _ H), bind_Ok. destruct (IH (adv c 1) type len r (at_next _ _ _ _ H)) as [t [c' [HE [HO HR]]]]. exists t, c'. split; [exact HE|].
      split; [eapply onward_trans; [exact (onward_adv c [x] r H)|exact HO]|]. destruct HR as [[r' [-> [-> ->]]]|HR]; [left|right; exact HR].
      exists r'. rewrite zlen_cons, adv_adv. auto.
    + do 2 eexists. split; [reflexivity|]. split; [apply onward_error; apply H|]. right. split; [reflexivity|]. apply SetError_code. discriminate.
Qed.
Lemma keyword_ok : forall kw c type len r, at_rest data c (kw ++ r) -> keyword_loop data c type len kw = Ok (mk_jtok type (len + 1) 0, adv c (zlen kw)).
Proof.
  induction kw as [|k kw IH]; intros c type len r H; cbn [keyword_loop].
  - rewrite zlen_nil, adv_0. reflexivity.
  - cbn [app] in H. rewrite (over_cons _ _ _ H), (peek1 _ _ _ H), bind_Ok, Z.eqb_refl, (consume1 _ _ _ H), bind_Ok.
    rewrite (IH _ _ _ _ (at_next _ _ _ _ H)), adv_adv, zlen_cons. reflexivity.
Qed.
Lemma lex_keyword_reads : forall sd c type ch kw l, at_rest data c (ch :: l) -> word type (ch :: kw) -> reads sd c (ch :: l) (LexerKeyword data c type kw).
Proof.
  intros sd c type ch kw l H Hw. unfold LexerKeyword. rewrite (consume1 _ _ _ H), bind_Ok.
  destruct (keyword_reads kw (adv c 1) type (zlen kw) l (at_next _ _ _ _ H)) as [t [c' [HE [HO HR]]]]. rewrite HE.
  pose proof (onward_trans _ _ _ (onward_adv c [ch] l H) HO) as HO2.
  destruct HR as [[r' [-> [-> ->]]]|[-> HR]].
  - rewrite adv_adv. replace (1 + zlen kw) with (zlen (ch :: kw)) by (rewrite zlen_cons; reflexivity). apply (reads_sound sd c (ch :: kw) r'); [exact H|discriminate|inversion Hw; reflexivity|left].
    exists (SWord type). split; [apply sp_word; exact Hw|reflexivity].
  - apply reads_fails. exists c'. auto.
Qed.
Lemma lex_string_reads : forall sd c l, at_rest data c (34 :: l) -> reads sd c (34 :: l) (LexerString data c).
Proof.
  intros sd c l H. unfold LexerString. pose proof (at_next _ _ _ _ H) as H1. rewrite (consume1 _ _ _ H), bind_Ok, (peeks _ _ H1), bind_Ok.
  pose proof (at_length _ _ H1). destruct (string_any (S (length data)) (adv c 1) l (jc_pos (adv c 1)) 0 ltac:(lia) H1) as [t [c' [HE [HO HR]]]]. rewrite HE.
  pose proof (onward_trans _ _ _ (onward_adv c [34] l H) HO) as HO2.
  destruct HR as [HR|[s [rest [-> [Hc [-> ->]]]]]].
  - right. exists t, c'. split; [reflexivity|]. split; [exact HO2|]. split; [|left; exact HR]. intros _. destruct HO as [_ [HO _]]. cbn in HO. lia.
  - rewrite adv_adv. replace (1 + (zlen s + 1)) with (zlen (34 :: s ++ [34])) by (rewrite zlen_cons, zlen_app; reflexivity).
    replace (34 :: s ++ 34 :: rest) with ((34 :: s ++ [34]) ++ rest) in * by (cbn [app]; rewrite <- app_assoc; reflexivity).
    apply reads_sound; [exact H|discriminate|reflexivity|left]. exists (SString s). split; [apply sp_string; exact Hc|]. reflexivity.
Qed.
(* ---- one token ---- *)
Lemma structural_punct : forall ch t, structural ch = Some t <-> punct t ch.
Proof.
  intros ch t. unfold structural. split.
  - intros H. repeat (match type of H with context [if ?x =? ?y then _ else _] => destruct (Z.eqb_spec x y) as [->|_]; [injection H as <-; constructor|] end). discriminate.
  - intros H. destruct H; reflexivity.
Qed.
Definition is_white (c : Z) : bool := (c =? 32) || ((9 <=? c) && (c <=? 13)).
Lemma is_white_spec : forall c, is_white c = true <-> white c.
Proof. intros c. unfold is_white, white. lia. Qed.
Definition white_span := span white is_white is_white_spec.
Lemma token_reads : forall sd n c ch l, at_rest data c (ch :: l) -> ~ white ch -> reads sd c (ch :: l) (next_token (S n) sd data c).
Proof.
  intros sd n c ch l H Hw. cbn [next_token]. rewrite (over_cons _ _ _ H), (peek1 _ _ _ H), bind_Ok. unfold white in Hw. replace (ch =? 10) with false by lia.
  replace ((ch =? 32) || (ch =? 9) || (ch =? 11) || (ch =? 12) || (ch =? 13)) with false by lia.
  destruct (structural ch) as [type|] eqn:Es.
  { apply structural_punct in Es. rewrite (consume1 _ _ _ H), bind_Ok. change (adv c 1) with (adv c (zlen [ch])). apply (reads_sound sd c [ch] l); [exact H|discriminate|inversion Es; reflexivity|left].
    exists (SChar type). split; [apply sp_char; exact Es|reflexivity]. }
  destruct (Z.eqb_spec ch 34) as [->|N34]; [apply lex_string_reads; exact H|].
  destruct ((ch =? 45) || isdigit ch) eqn:En. { apply number_reads; [exact H|]. unfold isdigit in En. unfold digit. lia. }
  destruct (Z.eqb_spec ch 116) as [->|N116]; [apply lex_keyword_reads; [exact H|apply w_true]|].
  destruct (Z.eqb_spec ch 102) as [->|N102]; [apply lex_keyword_reads; [exact H|apply w_false]|].
  destruct (Z.eqb_spec ch 110) as [->|N110]; [apply lex_keyword_reads; [exact H|apply w_null]|].
  apply reads_fails. eexists. split; [reflexivity|]. split; [apply onward_error; apply H|]. apply SetError_code. discriminate.
Qed.
Lemma number_first : forall sd k s, spelled sd k s -> is_number k -> exists ch l, s = ch :: l /\ (ch = 45 \/ digit ch).
Proof.
  intros sd k s Hsp Hk.
  destruct Hsp as [t ch _|t s _|s _|ds v Hne Hv|ds v Hne Hv|ds v Hne Hv|ds v Hne Hv|sign ds fs e Hsign Hne Hd Hf He|sign ds e Hsign Hne Hd He Hen]; try contradiction.
  - apply dec_digits in Hv. destruct ds as [|d ds]; [contradiction|]. inversion Hv; subst. do 2 eexists. split; [reflexivity|]. auto.
  - do 2 eexists. split; [reflexivity|]. auto.
  - exists 48, (120 :: ds). split; [reflexivity|]. right. unfold digit. lia.
  - exists 48, (100 :: ds). split; [reflexivity|]. right. unfold digit. lia.
  - destruct Hsign as [->| ->]; [|do 2 eexists; split; [reflexivity|]; auto]. destruct ds as [|d ds]; [contradiction|]. inversion Hd; subst. do 2 eexists. split; [reflexivity|]. auto.
  - destruct Hsign as [->| ->]; [|do 2 eexists; split; [reflexivity|]; auto]. destruct ds as [|d ds]; [contradiction|]. inversion Hd; subst. do 2 eexists. split; [reflexivity|]. auto.
Qed.
Lemma number_class : forall ch, ch = 45 \/ digit ch -> ~ white ch /\ structural ch = None /\ (ch =? 34) = false /\ ((ch =? 45) || isdigit ch) = true.
Proof.
  intros ch H. unfold digit, white, isdigit in *. split; [lia|]. split; [|lia]. unfold structural.
  repeat (match goal with |- context [if ?x =? ?y then _ else _] => replace (x =? y) with false by lia end). reflexivity.
Qed.
Lemma token_ok : forall sd n k s r c, spelled sd k s -> may_follow k r -> at_rest data c (s ++ r) ->
  exists t, next_token (S n) sd data c = Ok (t, adv c (zlen s)) /\ token_at (jc_pos c) k t /\ IsValid t = true.
Proof.
  intros sd n k s r c Hsp Hf H. assert (Hn : is_number k \/ ~ is_number k) by (destruct k; cbn; tauto). destruct Hn as [Hn|Hn].
  - destruct (number_first _ _ _ Hsp Hn) as [ch [l [-> Hch]]]. destruct (number_class _ Hch) as [Hw [Hst [H34 Hnum]]].
    assert (Hf' : stands_alone r) by (destruct k; try contradiction; exact Hf). destruct (number_ok sd k _ r c Hsp Hn Hf' H) as [t [HE Ht]]. exists t. split; [|exact Ht].
    cbn [app] in H. cbn [next_token]. rewrite (over_cons _ _ _ H), (peek1 _ _ _ H), bind_Ok. unfold white in Hw. replace (ch =? 10) with false by lia.
    replace ((ch =? 32) || (ch =? 9) || (ch =? 11) || (ch =? 12) || (ch =? 13)) with false by lia. rewrite Hst, H34, Hnum. exact HE.
  - destruct Hsp as [t ch Hp|t s Hw|s Hc| | | | | |]; try (exfalso; apply Hn; exact I).
    + cbn [app] in H. assert (Hnw : ~ white ch) by (unfold white; inversion Hp; subst; lia). cbn [next_token]. rewrite (over_cons _ _ _ H), (peek1 _ _ _ H), bind_Ok. unfold white in Hnw. replace (ch =? 10) with false by lia.
      replace ((ch =? 32) || (ch =? 9) || (ch =? 11) || (ch =? 12) || (ch =? 13)) with false by lia. rewrite (proj2 (structural_punct ch t) Hp), (consume1 _ _ _ H), bind_Ok.
      eexists. split; [reflexivity|]. split; [reflexivity|]. inversion Hp; reflexivity.
    + inversion Hw; subst; (change (str "true") with [116; 114; 117; 101] in * || change (str "false") with [102; 97; 108; 115; 101] in * || change (str "null") with [110; 117; 108; 108] in *);
        cbn [app] in H; cbn [next_token]; rewrite (over_cons _ _ _ H), (peek1 _ _ _ H), bind_Ok; cbn [Z.eqb Pos.eqb orb structural isdigit Z.leb Z.compare Pos.compare Pos.compare_cont andb];
        unfold structural; cbn [Z.eqb Pos.eqb orb]; unfold LexerKeyword; rewrite (consume1 _ _ _ H), bind_Ok.
      all: match goal with |- context [keyword_loop data _ _ _ ?kw] => rewrite (keyword_ok kw _ _ _ _ (at_next _ _ _ _ H)) end; rewrite adv_adv; eexists; split; [reflexivity|]; split; reflexivity.
    + assert (H' : at_rest data c (34 :: s ++ 34 :: r)) by (cbn [app] in H; rewrite <- app_assoc in H; exact H).
      cbn [next_token]. rewrite (over_cons _ _ _ H'), (peek1 _ _ _ H'), bind_Ok. cbn [Z.eqb Pos.eqb orb]. unfold structural; cbn [Z.eqb Pos.eqb orb].
      unfold LexerString. pose proof (at_next _ _ _ _ H') as H1. rewrite (consume1 _ _ _ H'), bind_Ok, (peeks _ _ H1), bind_Ok.
      pose proof (at_length _ _ H1) as HL. rewrite app_length in HL. rewrite (string_ok s Hc (S (length data)) _ r _ _ ltac:(lia) H1). rewrite adv_adv.
      replace (1 + (zlen s + 1)) with (zlen (34 :: s ++ [34])) by (rewrite zlen_cons, zlen_app; reflexivity).
      eexists. split; [reflexivity|]. split; [|reflexivity]. reflexivity.
Qed.
(* ---- white space before a token ---- *)
Definition moved (c c1 : jctx) (n : Z) : Prop := jc_pos c1 = jc_pos c + n /\ jc_err c1 = jc_err c /\ jc_stack c1 = jc_stack c.
Lemma white_run : forall sd w n c r, Forall white w -> at_rest data c (w ++ r) ->
  exists c1, next_token (length w + n) sd data c = next_token n sd data c1 /\ moved c c1 (zlen w) /\ at_rest data c1 r.
Proof.
  intros sd. induction w as [|x w IH]; intros n c r Hw H.
  - exists c. split; [reflexivity|]. split; [|exact H]. split; [rewrite zlen_nil; lia|auto].
  - inversion Hw as [|? ? Hx Hw']; subst. cbn [app] in H. cbn [length plus next_token]. rewrite (over_cons _ _ _ H), (peek1 _ _ _ H), bind_Ok. unfold white in Hx.
    assert (HA : exists c0, (if x =? 10 then ConsumeChar data (IncLine c) else ConsumeChar data c) = Ok c0 /\ moved c c0 1 /\ at_rest data c0 (w ++ r)).
    { destruct (x =? 10).
      - rewrite (consume1 _ _ _ (at_inc _ _ _ H)). eexists. split; [reflexivity|]. split; [repeat split; reflexivity|]. exact (at_next _ _ _ _ (at_inc _ _ _ H)).
      - rewrite (consume1 _ _ _ H). eexists. split; [reflexivity|]. split; [repeat split; reflexivity|]. exact (at_next _ _ _ _ H). }
    destruct HA as [c0 [HC [HM HR]]]. destruct (IH n c0 r Hw' HR) as [c1 [HE [HM1 HR1]]]. exists c1. split; [|split; [|exact HR1]].
    + destruct (Z.eqb_spec x 10) as [->|N10]; [rewrite HC, bind_Ok; exact HE|].
      replace ((x =? 32) || (x =? 9) || (x =? 11) || (x =? 12) || (x =? 13)) with true by lia. rewrite HC, bind_Ok. exact HE.
    + destruct HM as [M1 [M2 M3]], HM1 as [M4 [M5 M6]]. rewrite zlen_cons. split; [lia|]. split; congruence.
Qed.
Lemma next_split : forall sd c w r, at_rest data c (w ++ r) -> Forall white w ->
  exists n c1, LexerNextToken sd data c = next_token (S n) sd data c1 /\ moved c c1 (zlen w) /\ at_rest data c1 r.
Proof.
  intros sd c w r H Hw. pose proof (at_length _ _ H) as HL. rewrite app_length in HL. exists (length data - length w)%nat.
  destruct (white_run sd w (S (length data - length w)) c r Hw H) as [c1 [HE HR]]. exists c1. split; [|exact HR]. rewrite <- HE. unfold LexerNextToken. f_equal. lia.
Qed.
Lemma moved_onward : forall c c1 (w : list Z) r, at_rest data c1 r -> moved c c1 (zlen w) -> onward c c1.
Proof.
  intros c c1 w r H [M1 [M2 M3]]. pose proof (zlen_nonneg Z w). split; [apply H|]. split; [lia|]. split; [exact M3|]. rewrite M2. auto.
Qed.
Lemma next_end : forall sd c, inside data c -> Forall white (unread data c) ->
  exists c', LexerNextToken sd data c = Ok (no_token, c') /\ jc_pos c' = zlen data /\ jc_stack c' = jc_stack c /\ je_code (jc_err c') = je_code (jc_err c).
Proof.
  intros sd c Hi Hw. pose proof (at_any _ _ Hi) as H. rewrite <- (app_nil_r (unread data c)) in H. destruct (next_split sd c _ _ H Hw) as [n [c1 [HE [HM HR]]]].
  rewrite HE. cbn [next_token]. rewrite (over_nil _ HR). eexists. split; [reflexivity|]. rewrite SetError_pos, SetError_stack. pose proof (at_len _ _ _ HR) as HL. rewrite zlen_nil in HL.
  split; [lia|]. destruct HM as [M1 [M2 M3]]. split; [exact M3|]. unfold SetError. rewrite M2. destruct (je_code (jc_err c)) eqn:E; cbn; try rewrite M2; auto.
Qed.
Lemma next_any : forall sd c, inside data c ->
  (LexerNextToken sd data c = UB /\ cut_exponent (unread data c)) \/
  exists t c', LexerNextToken sd data c = Ok (t, c') /\ onward c c' /\ (IsValid t = true -> jc_pos c < jc_pos c') /\
    (IsValid t = false -> je_code (jc_err c') <> E_NONE \/ (Forall white (unread data c) /\ jc_pos c' = zlen data)) /\
    (IsValid t = true -> je_code (jc_err c') <> E_NONE \/
       exists w s r, unread data c = w ++ s ++ r /\ Forall white w /\ s <> [] /\ unread data c' = r /\
         ((exists k, spelled sd k s /\ token_at (jc_pos c + zlen w) k t) \/ bare_exponent sd s r t)).
Proof.
  intros sd c Hi. destruct (white_span (unread data c)) as [w [r [HU [Hw Hr]]]].
  destruct r as [|ch l].
  - right. assert (HW : Forall white (unread data c)) by (rewrite HU, app_nil_r; exact Hw). destruct (next_end sd c Hi HW) as [c' [HE [HP [HS HC]]]].
    exists no_token, c'. split; [exact HE|]. split. { split; [split; rewrite HP; [apply zlen_nonneg|lia]|]. split; [destruct Hi; lia|]. split; [exact HS|]. rewrite HC. auto. }
    split; [discriminate|]. split; [|discriminate]. intros _. right. auto.
  - pose proof (at_any _ _ Hi) as H. rewrite HU in H. destruct (next_split sd c _ _ H Hw) as [n [c1 [HE [HM HR]]]]. rewrite HE.
    pose proof (moved_onward _ _ _ _ HR HM) as HO1. destruct HM as [M1 [M2 M3]]. pose proof (zlen_nonneg _ w).
    destruct (token_reads sd n c1 ch l HR Hr) as [[HUB HC]|[t [c' [HE2 [HO [HV HX]]]]]].
    + left. split; [exact HUB|]. rewrite HU. destruct HC as [w2 [sign [ds [fs [e [HC [Hw2 HC2]]]]]]]. exists (w ++ w2), sign, ds, fs, e. split; [rewrite HC, <- app_assoc; reflexivity|].
      split; [apply Forall_app; auto|exact HC2].
    + right. exists t, c'. split; [exact HE2|]. split; [eapply onward_trans; eassumption|]. split; [intros Hv; specialize (HV Hv); lia|].
      split. { intros Hv. destruct HX as [HX|[HX _]]; [left; exact HX|congruence]. }
      intros _. destruct HX as [HX|[_ [s [r' [HS [Hne [HC Hk]]]]]]]; [left; exact HX|right]. exists w, s, r'. rewrite HU, HS. split; [reflexivity|]. split; [exact Hw|]. split; [exact Hne|].
      split. { rewrite HS in HR. pose proof (at_adv _ _ _ _ HR) as [_ HR2]. rewrite HC. exact HR2. }
      rewrite M1 in Hk. exact Hk.
Qed.
Lemma next_cut : forall sd c, inside data c -> cut_exponent (unread data c) -> LexerNextToken sd data c = UB.
Proof.
  intros sd c Hi [w [sign [ds [fs [e [HU [Hw [Hsign [Hne [Hd [Hf He]]]]]]]]]]]. pose proof (at_any _ _ Hi) as H. rewrite HU in H.
  destruct (next_split sd c _ _ H Hw) as [n [c1 [HE [HM HR]]]]. rewrite HE. pose proof (number_cut sd c1 _ _ _ _ HR Hsign Hne Hd Hf He) as HN.
  assert (HS : exists ch l, sign ++ ds ++ 46 :: fs ++ [e] = ch :: l /\ (ch = 45 \/ digit ch)).
  { destruct Hsign as [->| ->]; [|do 2 eexists; split; [reflexivity|]; auto]. destruct ds as [|d ds]; [contradiction|]. inversion Hd; subst. do 2 eexists. split; [reflexivity|]. auto. }
  destruct HS as [ch [l [HS Hch]]]. rewrite HS in HR. destruct (number_class _ Hch) as [Hnw [Hst [H34 Hnum]]].
  cbn [next_token]. rewrite (over_cons _ _ _ HR), (peek1 _ _ _ HR), bind_Ok. unfold white in Hnw. replace (ch =? 10) with false by lia.
  replace ((ch =? 32) || (ch =? 9) || (ch =? 11) || (ch =? 12) || (ch =? 13)) with false by lia. rewrite Hst, H34, Hnum. exact HN.
Qed.
(* ---- all the tokens ---- *)
Lemma lex_all_total : forall sd fuel c, inside data c -> (Z.to_nat (zlen data - jc_pos c) < fuel)%nat ->
  lex_all fuel sd data c = UB \/
  exists ts c', lex_all fuel sd data c = Ok (ts, c') /\ inside data c' /\ jc_pos c <= jc_pos c' /\ zlen ts <= zlen data - jc_pos c /\
    (je_code (jc_err c') <> E_NONE \/ jc_pos c' = zlen data).
Proof.
  intros sd. induction fuel as [|fuel IH]; intros c Hi Hf; [lia|]. cbn [lex_all].
  destruct (next_any sd c Hi) as [[HE _]|[t [c' [HE [HO [HV [HN _]]]]]]]; rewrite HE; [left; reflexivity|]. rewrite bind_Ok. cbn [fst snd].
  destruct HO as [Hi' [Hp _]]. destruct (IsValid t) eqn:Ev.
  - specialize (HV eq_refl). destruct Hi as [Hi1 Hi2]. destruct (IH c' Hi') as [HU|[ts [c2 [HE2 [Hi2' [Hp2 [Hl He]]]]]]].
    { destruct Hi'. lia. }
    + left. rewrite HU. reflexivity.
    + right. rewrite HE2, bind_Ok. exists (t :: ts), c2. split; [reflexivity|]. split; [exact Hi2'|]. split; [lia|]. rewrite zlen_cons. split; [lia|exact He].
  - right. exists [], c'. split; [reflexivity|]. split; [exact Hi'|]. split; [exact Hp|]. destruct Hi. rewrite zlen_nil. split; [lia|]. destruct (HN eq_refl) as [He|[_ He]]; auto.
Qed.
Lemma spelled_nonempty : forall sd k s, spelled sd k s -> s <> [].
Proof.
  intros sd k s H. destruct H as [t ch _|t s Hw|s _|ds v Hne Hv|ds v Hne Hv|ds v Hne Hv|ds v Hne Hv|sign ds fs e Hsign Hne Hd Hf He|sign ds e Hsign Hne Hd He Hen];
    try discriminate; try assumption; [inversion Hw; discriminate|destruct sign, ds; discriminate || contradiction|destruct sign, ds; discriminate || contradiction].
Qed.
Lemma lex_all_layout : forall sd p text l, layout sd p text l -> forall c fuel, at_rest data c text -> jc_pos c = p -> no_error c -> (length text < fuel)%nat ->
  exists ts c', lex_all fuel sd data c = Ok (ts, c') /\ Forall2 (fun pk t => token_at (fst pk) (snd pk) t) l ts /\ no_error c' /\ jc_pos c' = zlen data.
Proof.
  intros sd p text l HL. induction HL as [p w Hw|p w k s r ks Hw Hsp Hf _ IH]; intros c fuel H Hp Hn Hfu; (destruct fuel as [|fuel]; [lia|]); cbn [lex_all].
  - destruct H as [Hi HU]. rewrite <- HU in Hw. destruct (next_end sd c Hi Hw) as [c' [HE [HP [HS HC]]]]. rewrite HE, bind_Ok. cbn [fst snd IsValid jt_type no_token jtype_eqb negb].
    exists [], c'. split; [reflexivity|]. split; [constructor|]. split; [|exact HP]. unfold no_error in *. rewrite HC. exact Hn.
  - destruct (next_split sd c _ _ H Hw) as [n [c1 [HE [[M1 [M2 M3]] HR]]]]. destruct (token_ok sd n k s r c1 Hsp Hf HR) as [t [HT [Ht Hv]]]. rewrite HE, HT, bind_Ok. cbn [fst snd]. rewrite Hv.
    pose proof (at_adv _ _ _ _ HR) as HR2. assert (Hsl : (length s > 0)%nat).
    { pose proof (spelled_nonempty _ _ _ Hsp). destruct s; [contradiction|cbn; lia]. }
    rewrite !app_length in Hfu.
    destruct (IH (adv c1 (zlen s)) fuel HR2) as [ts [c' [HE2 [HF [Hn2 HP]]]]]; [cbn; lia|unfold no_error in *; cbn; rewrite M2; exact Hn|lia|].
    rewrite HE2, bind_Ok. exists (t :: ts), c'. split; [reflexivity|]. split; [|auto]. constructor; [|exact HF]. cbn [fst snd]. rewrite M1, Hp in Ht. exact Ht.
Qed.
End Data.
