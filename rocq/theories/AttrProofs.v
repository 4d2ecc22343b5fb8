From Verif Require Import Base BaseProofs Text HashModel HashSpec HashProofs Maps DatabaseModel FileUtilsModel FileUtilsSpec FileUtilsProofs
  TextDbModel TextDbProofs NamesProofs AttrModel AttrSpec.

(* ---- character classes ---- *)
Lemma is_digit_spec : forall c, is_digit c = true <-> digit c.
Proof. intros c. unfold is_digit, digit. lia. Qed.
Lemma is_alpha_spec : forall c, is_alpha c = true <-> letter c.
Proof. intros c. unfold is_alpha, letter. lia. Qed.
Lemma is_xdigit_spec : forall c, is_xdigit c = true <-> hexdigit c.
Proof. intros c. unfold is_xdigit, is_digit, hexdigit, digit. lia. Qed.
Lemma sym_test : forall c, negb (c =? 0) && (is_alnum c || (c =? 95) || (c =? 58)) = true <-> sym_char c.
Proof. intros c. unfold is_alnum, is_alpha, is_digit, sym_char, letter, digit. lia. Qed.
Lemma sep_test : forall c, (c =? 46) || (c =? 120) || (c =? 88) = true <-> (c = 46 \/ ex c).
Proof. intros c. unfold ex. lia. Qed.
Lemma num_test : forall c, negb (c =? 0) && (is_xdigit c || (c =? 46) || (c =? 120) || (c =? 88)) = true <-> num_char c.
Proof. intros c. unfold is_xdigit, is_digit, num_char, hexdigit, digit, ex. lia. Qed.
Lemma hexdigit_not_sep : forall c, hexdigit c -> (c =? 46) || (c =? 120) || (c =? 88) = false.
Proof. intros c. unfold hexdigit, digit. lia. Qed.
Lemma false_of : forall (b : bool) (P : Prop), (b = true <-> P) -> ~ P -> b = false.
Proof. intros [] P H Hn; [exfalso; apply Hn, H; reflexivity|reflexivity]. Qed.

(* ---- the three scanning loops ---- *)
Lemma ParseString_ok : forall s acc r, ~ In 34 s -> ~ In 0 s ->
  ParseString (s ++ 34 :: r) acc = Ok (Some (mk_token TOKEN_STRING (rev acc ++ s), r)).
Proof.
  induction s as [|c s IH]; intros acc r H H0; cbn [app ParseString].
  - rewrite app_nil_r. reflexivity.
  - cbn [In] in H, H0. replace (c =? 0) with false by lia. replace (c =? 34) with false by lia.
    rewrite IH by tauto. cbn [rev]. rewrite <- app_assoc. reflexivity.
Qed.
Lemma ParseString_fail : forall s acc r, ~ In 34 s -> ~ In 0 s -> ParseString (s ++ 0 :: r) acc = Ok None.
Proof.
  induction s as [|c s IH]; intros acc r H H0; cbn [app ParseString]; [reflexivity|].
  cbn [In] in H, H0. replace (c =? 0) with false by lia. replace (c =? 34) with false by lia. apply IH; tauto.
Qed.
Lemma ParseSymbol_ok : forall s acc c r, Forall sym_char s -> ~ sym_char c ->
  ParseSymbol (s ++ c :: r) acc = Ok (Some (mk_token TOKEN_SYMBOL (rev acc ++ s), c :: r)).
Proof.
  induction s as [|x s IH]; intros acc c r H Hc; cbn [app ParseSymbol].
  - rewrite (false_of _ _ (sym_test c) Hc). rewrite app_nil_r. reflexivity.
  - inversion H; subst. rewrite (proj2 (sym_test x)) by assumption. rewrite IH by assumption. cbn [rev]. rewrite <- app_assoc. reflexivity.
Qed.
Lemma ParseNumber_digits : forall s k acc r, Forall hexdigit s -> ParseNumber k (s ++ r) acc = ParseNumber k r (rev s ++ acc).
Proof.
  induction s as [|x s IH]; intros k acc r H; cbn [app ParseNumber]; [reflexivity|].
  inversion H; subst. rewrite (proj2 (num_test x)) by (left; assumption). rewrite hexdigit_not_sep by assumption.
  rewrite IH by assumption. cbn [rev]. rewrite <- app_assoc. reflexivity.
Qed.
Lemma ParseNumber_stop : forall k acc c r, ~ num_char c -> ParseNumber k (c :: r) acc = Ok (Some (mk_token k (rev acc), c :: r)).
Proof. intros k acc c r H. cbn [ParseNumber]. rewrite (false_of _ _ (num_test c) H). reflexivity. Qed.
Lemma ParseNumber_sep : forall acc c r, c = 46 \/ ex c ->
  ParseNumber TOKEN_INT (c :: r) acc = ParseNumber (if c =? 46 then TOKEN_FLOAT else TOKEN_HEX_INT) r (c :: acc).
Proof.
  intros acc c r H. cbn [ParseNumber]. rewrite (proj2 (num_test c)) by (unfold num_char; tauto). rewrite (proj2 (sep_test c) H). reflexivity.
Qed.
Lemma ParseNumber_sep2 : forall k acc c r, k <> TOKEN_INT -> c = 46 \/ ex c -> ParseNumber k (c :: r) acc = Ok None.
Proof.
  intros k acc c r Hk H. cbn [ParseNumber]. rewrite (proj2 (num_test c)) by (unfold num_char; tauto). rewrite (proj2 (sep_test c) H).
  destruct k; try reflexivity. contradiction.
Qed.
Lemma ParseNumber_ok : forall s k c r, number_kind s k -> ~ num_char c ->
  ParseNumber TOKEN_INT (s ++ c :: r) [] = Ok (Some (mk_token k s, c :: r)).
Proof.
  intros s k c r H Hc. inversion H; subst.
  - rewrite ParseNumber_digits, app_nil_r, ParseNumber_stop, rev_involutive by assumption. reflexivity.
  - rewrite <- app_assoc. cbn [app]. rewrite ParseNumber_digits, app_nil_r, ParseNumber_sep by auto. cbn [Z.eqb Pos.eqb].
    rewrite ParseNumber_digits, ParseNumber_stop by assumption. rewrite rev_app_distr. cbn [rev]. rewrite !rev_involutive, <- app_assoc. reflexivity.
  - rewrite <- app_assoc. cbn [app]. rewrite ParseNumber_digits, app_nil_r, ParseNumber_sep by auto.
    replace (x =? 46) with false by (unfold ex in *; lia).
    rewrite ParseNumber_digits, ParseNumber_stop by assumption. rewrite rev_app_distr. cbn [rev]. rewrite !rev_involutive, <- app_assoc. reflexivity.
Qed.

(* any text splits at the first character outside a class *)
Lemma span_class : forall (P : Z -> Prop) (b : Z -> bool), (forall c, b c = true <-> P c) -> forall s,
  exists a r, s = a ++ r /\ Forall P a /\ ends P r.
Proof.
  intros P b Hb. induction s as [|c s [a [r [E [Ha Hr]]]]].
  - exists [], []. cbn. auto.
  - destruct (b c) eqn:E1.
    + exists (c :: a), r. subst s. split; [reflexivity|]. split; [|exact Hr]. constructor; [apply Hb; exact E1|exact Ha].
    + exists [], (c :: s). split; [reflexivity|]. split; [constructor|]. cbn. intros H. apply Hb in H. congruence.
Qed.
Lemma number_cases : forall s, Forall num_char s ->
  (exists k, number_kind s k) \/
  (exists a x b y c, s = a ++ x :: b ++ y :: c /\ Forall hexdigit a /\ (x = 46 \/ ex x) /\ Forall hexdigit b /\ (y = 46 \/ ex y)).
Proof.
  intros s H. destruct (span_class hexdigit is_xdigit is_xdigit_spec s) as [a [r [E [Ha Hr]]]]. subst s.
  destruct r as [|x r]; [left; exists TOKEN_INT; rewrite app_nil_r; constructor; exact Ha|].
  apply Forall_app in H. destruct H as [_ H]. inversion H as [|? ? Hx Hrest]; subst. cbn [ends] in Hr.
  assert (Hx' : x = 46 \/ ex x) by (unfold num_char in Hx; tauto).
  destruct (span_class hexdigit is_xdigit is_xdigit_spec r) as [b [r2 [E2 [Hb Hr2]]]]. subst r.
  destruct r2 as [|y c].
  - left. rewrite app_nil_r. destruct Hx' as [->|Hx']; eexists; [apply nk_float|apply nk_hex]; assumption.
  - right. exists a, x, b, y, c. apply Forall_app in Hrest. destruct Hrest as [_ Hrest]. inversion Hrest as [|? ? Hy _]; subst.
    cbn [ends] in Hr2. assert (y = 46 \/ ex y) by (unfold num_char in Hy; tauto). auto.
Qed.
Lemma ParseNumber_fail : forall a x b y c, Forall hexdigit a -> (x = 46 \/ ex x) -> Forall hexdigit b -> (y = 46 \/ ex y) ->
  ParseNumber TOKEN_INT (a ++ x :: b ++ y :: c) [] = Ok None.
Proof.
  intros a x b y c Ha Hx Hb Hy. rewrite ParseNumber_digits by assumption. rewrite ParseNumber_sep by assumption.
  rewrite ParseNumber_digits by assumption. apply ParseNumber_sep2; [|assumption]. destruct (x =? 46); discriminate.
Qed.

(* ---- the lexer ---- *)
Lemma not_sym_0 : ~ sym_char 0. Proof. unfold sym_char, letter, digit. lia. Qed.
Lemma not_num_0 : ~ num_char 0. Proof. unfold num_char, hexdigit, digit, ex. lia. Qed.
(* the first character of what follows, terminator included *)
Lemma next_char : forall (P : Z -> Prop) r rest, ends P r -> ~ P 0 -> exists c t, r ++ 0 :: rest = c :: t /\ ~ P c.
Proof. intros P [|c r] rest H H0; [exists 0, rest|exists c, (r ++ 0 :: rest)]; auto. Qed.
Lemma symbol_chars : forall s, symbol s -> Forall sym_char s.
Proof. intros s [c [r [-> [Hc Hr]]]]. constructor; [unfold sym_char; tauto|exact Hr]. Qed.
Lemma lexer_symbol : forall n s r rest acc, symbol s -> ends sym_char r ->
  lexer_loop (S n) (s ++ r ++ 0 :: rest) acc = lexer_loop n (r ++ 0 :: rest) (mk_token TOKEN_SYMBOL s :: acc).
Proof.
  intros n s r rest acc Hs Hr. destruct (next_char sym_char r rest Hr not_sym_0) as [x [t [E Hx]]]. rewrite E.
  pose proof (ParseSymbol_ok s [] x t (symbol_chars s Hs) Hx) as HP.
  destruct Hs as [c [q [-> [Hc Hq]]]]. cbn [app] in HP |- *. cbn [lexer_loop].
  unfold letter in Hc.
  replace (c =? 0) with false by lia. replace (c =? 61) with false by lia. replace (c =? 44) with false by lia.
  replace ((c =? 32) || (c =? 9)) with false by lia. replace (c =? 34) with false by lia.
  rewrite HP. destruct (c =? 95) eqn:E95; [reflexivity|].
  replace (is_alpha c) with true by (unfold is_alpha; lia). reflexivity.
Qed.
Lemma lexer_number : forall n s k r rest acc, number_text s k -> ends num_char r ->
  lexer_loop (S n) (s ++ r ++ 0 :: rest) acc = lexer_loop n (r ++ 0 :: rest) (mk_token k s :: acc).
Proof.
  intros n s k r rest acc [Hs Hk] Hr. destruct (next_char num_char r rest Hr not_num_0) as [x [t [E Hx]]]. rewrite E.
  pose proof (ParseNumber_ok s k x t Hk Hx) as HP.
  destruct Hs as [c [q [-> Hc]]]. cbn [app] in HP |- *. cbn [lexer_loop]. unfold digit in Hc.
  replace (c =? 0) with false by lia. replace (c =? 61) with false by lia. replace (c =? 44) with false by lia.
  replace ((c =? 32) || (c =? 9)) with false by lia. replace (c =? 34) with false by lia. replace (c =? 95) with false by lia.
  replace (is_alpha c) with false by (unfold is_alpha; lia). replace (is_digit c) with true by (unfold is_digit; lia).
  rewrite HP. reflexivity.
Qed.
Lemma lexer_lexes : forall text ts, lexes text ts -> ~ In 0 text -> forall n rest acc, (length text < n)%nat ->
  lexer_loop n (text ++ 0 :: rest) acc = Ok (rev acc ++ ts).
Proof.
  induction 1 as [|c r ts Hc _ IH|r ts _ IH|r ts _ IH|s r ts Hs _ IH|s r ts Hs He _ IH|s k r ts Hs He _ IH]; intros H0 n rest acc Hn;
    (destruct n as [|n]; [lia|]).
  - cbn. rewrite app_nil_r. reflexivity.
  - cbn [app lexer_loop In length] in *. unfold space in Hc.
    replace (c =? 0) with false by lia. replace (c =? 61) with false by lia. replace (c =? 44) with false by lia.
    replace ((c =? 32) || (c =? 9)) with true by lia. apply IH; [tauto|lia].
  - cbn [app lexer_loop In length] in *. cbn [Z.eqb Pos.eqb]. rewrite IH by (tauto || lia). cbn [rev]. rewrite <- app_assoc. reflexivity.
  - cbn [app lexer_loop In length] in *. cbn [Z.eqb Pos.eqb]. rewrite IH by (tauto || lia). cbn [rev]. rewrite <- app_assoc. reflexivity.
  - cbn [app lexer_loop In length] in *. cbn [Z.eqb Pos.eqb orb].
    rewrite <- app_assoc. cbn [app]. rewrite ParseString_ok by (try assumption; intros Hi; apply H0; right; apply in_or_app; left; exact Hi).
    cbn [obind rev app]. rewrite IH; [cbn [rev]; rewrite <- app_assoc; reflexivity| |].
    + intros Hi. apply H0. right. apply in_or_app. right. right. exact Hi.
    + rewrite app_length in Hn. cbn [length] in Hn. lia.
  - rewrite <- app_assoc. rewrite lexer_symbol by assumption. rewrite IH; [cbn [rev]; rewrite <- app_assoc; reflexivity| |].
    + intros Hi. apply H0. apply in_or_app. right. exact Hi.
    + rewrite app_length in Hn. destruct Hs as [c [q [-> _]]]. cbn [length] in Hn. lia.
  - rewrite <- app_assoc. rewrite (lexer_number n s k) by assumption. rewrite IH; [cbn [rev]; rewrite <- app_assoc; reflexivity| |].
    + intros Hi. apply H0. apply in_or_app. right. exact Hi.
    + rewrite app_length in Hn. destruct Hs as [[c [q [-> _]]] _]. cbn [length] in Hn. lia.
Qed.
(* either the text splits in tokens or the lexer gives up *)
Lemma lexer_total : forall m text, (length text <= m)%nat -> ~ In 0 text ->
  (exists ts, lexes text ts) \/ (forall n rest acc, (length text < n)%nat -> lexer_loop n (text ++ 0 :: rest) acc = Ok []).
Proof.
  induction m as [|m IH]; intros text Hm H0.
  { destruct text; [left; exists []; constructor|cbn in Hm; lia]. }
  destruct text as [|c r]; [left; exists []; constructor|].
  cbn [length In] in Hm, H0.
  assert (Hc0 : c <> 0) by tauto. assert (Hr0 : ~ In 0 r) by tauto.
  destruct (Z.eq_dec c 61) as [->|N1].
  { destruct (IH r ltac:(lia) Hr0) as [[ts H]|H]; [left; eexists; apply lex_equals; exact H|right].
    intros [|n] rest acc Hn; cbn [length] in Hn; [lia|]. cbn [app lexer_loop Z.eqb Pos.eqb]. apply H. lia. }
  destruct (Z.eq_dec c 44) as [->|N2].
  { destruct (IH r ltac:(lia) Hr0) as [[ts H]|H]; [left; eexists; apply lex_comma; exact H|right].
    intros [|n] rest acc Hn; cbn [length] in Hn; [lia|]. cbn [app lexer_loop Z.eqb Pos.eqb]. apply H. lia. }
  destruct ((c =? 32) || (c =? 9)) eqn:N3.
  { assert (space c) by (unfold space; lia).
    destruct (IH r ltac:(lia) Hr0) as [[ts H']|H']; [left; eexists; apply lex_space; [assumption|exact H']|right].
    intros [|n] rest acc Hn; cbn [length] in Hn; [lia|]. cbn [app lexer_loop].
    replace (c =? 0) with false by lia. replace (c =? 61) with false by lia. replace (c =? 44) with false by lia. rewrite N3. apply H'. lia. }
  destruct (Z.eq_dec c 34) as [->|N4].
  { destruct (span_class (fun x => x <> 34) (fun x => negb (x =? 34)) ltac:(intros x; cbn; lia) r) as [s [r2 [E [Hs Hr2]]]]. subst r.
    assert (Hs34 : ~ In 34 s) by (intros Hi; rewrite Forall_forall in Hs; exact (Hs 34 Hi eq_refl)).
    assert (Hs0 : ~ In 0 s) by (intros Hi; apply Hr0; apply in_or_app; left; exact Hi).
    destruct r2 as [|q r2].
    - right. intros [|n] rest acc Hn; cbn [length] in Hn; [lia|]. cbn [app lexer_loop Z.eqb Pos.eqb orb].
      rewrite app_nil_r. rewrite ParseString_fail by assumption. reflexivity.
    - cbn [ends] in Hr2. assert (q = 34) by lia. subst q. rewrite app_length in Hm. cbn [length] in Hm.
      assert (Hr20 : ~ In 0 r2) by (intros Hi; apply Hr0; apply in_or_app; right; right; exact Hi).
      destruct (IH r2 ltac:(lia) Hr20) as [[ts H']|H'].
      + left. eexists. apply lex_string; [exact Hs34|exact H'].
      + right. intros [|n] rest acc Hn; cbn [length] in Hn; [lia|]. cbn [app lexer_loop Z.eqb Pos.eqb orb].
        rewrite <- app_assoc. cbn [app]. rewrite ParseString_ok by assumption. cbn [obind]. apply H'. rewrite app_length in Hn. cbn [length] in Hn. lia. }
  destruct ((c =? 95) || is_alpha c) eqn:N5.
  { assert (Hc : letter c \/ c = 95) by (unfold is_alpha, letter in *; lia).
    destruct (span_class sym_char _ sym_test r) as [s [r2 [E [Hs Hr2]]]]. subst r.
    assert (Hsym : symbol (c :: s)) by (exists c, s; auto).
    rewrite app_length in Hm.
    assert (Hr20 : ~ In 0 r2) by (intros Hi; apply Hr0; apply in_or_app; right; exact Hi).
    destruct (IH r2 ltac:(lia) Hr20) as [[ts H']|H'].
    - left. eexists. apply (lex_symbol (c :: s)); [exact Hsym|exact Hr2|exact H'].
    - right. intros [|n] rest acc Hn; cbn [length] in Hn; [lia|].
      change ((c :: s ++ r2) ++ 0 :: rest) with (((c :: s) ++ r2) ++ 0 :: rest). rewrite <- app_assoc. rewrite lexer_symbol by assumption.
      apply H'. rewrite app_length in Hn. lia. }
  destruct (orb_false_elim _ _ N5) as [N5a N5b].
  destruct (is_digit c) eqn:N6.
  { assert (Hc : digit c) by (apply is_digit_spec; exact N6).
    destruct (span_class num_char _ num_test r) as [s [r2 [E [Hs Hr2]]]]. subst r.
    rewrite app_length in Hm.
    assert (Hr20 : ~ In 0 r2) by (intros Hi; apply Hr0; apply in_or_app; right; exact Hi).
    assert (Hall : Forall num_char (c :: s)) by (constructor; [left; left; exact Hc|exact Hs]).
    destruct (number_cases (c :: s) Hall) as [[k Hk]|[a [x [b [y [d [E [Ha [Hx [Hb Hy]]]]]]]]]].
    - assert (Hnum : number_text (c :: s) k) by (split; [exists c, s; auto|exact Hk]).
      destruct (IH r2 ltac:(lia) Hr20) as [[ts H']|H'].
      + left. eexists. apply (lex_number (c :: s) k); [exact Hnum|exact Hr2|exact H'].
      + right. intros [|n] rest acc Hn; cbn [length] in Hn; [lia|].
        change ((c :: s ++ r2) ++ 0 :: rest) with (((c :: s) ++ r2) ++ 0 :: rest). rewrite <- app_assoc. rewrite (lexer_number n (c :: s) k) by assumption.
        apply H'. rewrite app_length in Hn. lia.
    - right. intros [|n] rest acc Hn; cbn [length] in Hn; [lia|].
      change ((c :: s ++ r2) ++ 0 :: rest) with (((c :: s) ++ r2) ++ 0 :: rest).
      pose proof (ParseNumber_fail a x b y (d ++ r2 ++ 0 :: rest) Ha Hx Hb Hy) as HP.
      replace (a ++ x :: b ++ y :: d ++ r2 ++ 0 :: rest) with (((c :: s) ++ r2) ++ 0 :: rest) in HP
        by (rewrite E; rewrite <- !app_assoc; cbn [app]; rewrite <- app_assoc; reflexivity).
      cbn [app] in HP |- *. cbn [lexer_loop].
      replace (c =? 0) with false by lia. replace (c =? 61) with false by lia. replace (c =? 44) with false by lia. rewrite N3.
      replace (c =? 34) with false by lia. rewrite N5a, N5b, N6, HP. reflexivity. }
  right. intros [|n] rest acc Hn; cbn [length] in Hn; [lia|]. cbn [app lexer_loop].
  replace (c =? 0) with false by lia. replace (c =? 61) with false by lia. replace (c =? 44) with false by lia. rewrite N3.
  replace (c =? 34) with false by lia. rewrite N5a, N5b, N6. reflexivity.
Qed.
Lemma lexer_ok : forall text ts rest, lexes text ts -> ~ In 0 text -> Lexer (text ++ 0 :: rest) = Ok ts.
Proof.
  intros text ts rest H H0. unfold Lexer. rewrite (lexer_lexes text ts H H0); [reflexivity|]. rewrite app_length. cbn [length]. lia.
Qed.
Lemma lexer_cases : forall text rest, ~ In 0 text ->
  (exists ts, lexes text ts /\ Lexer (text ++ 0 :: rest) = Ok ts) \/
  ((forall ts, ~ lexes text ts) /\ Lexer (text ++ 0 :: rest) = Ok []).
Proof.
  intros text rest H0. destruct (lexer_total (length text) text (Nat.le_refl _) H0) as [[ts H]|H].
  - left. exists ts. split; [exact H|]. apply lexer_ok; assumption.
  - right. split.
    + intros ts Hl. specialize (H (S (length text)) rest [mk_token TOKEN_COMMA []] ltac:(lia)).
      rewrite (lexer_lexes text ts Hl H0) in H by lia. cbn [rev app] in H. discriminate.
    + unfold Lexer. apply H. rewrite app_length. cbn [length]. lia.
Qed.
Lemma lexes_unique : forall text ts ts', ~ In 0 text -> lexes text ts -> lexes text ts' -> ts = ts'.
Proof.
  intros text ts ts' H0 H1 H2. pose proof (lexer_ok text ts [] H1 H0) as A. rewrite (lexer_ok text ts' [] H2 H0) in A. congruence.
Qed.

(* ---- written text lexes to its tokens ---- *)
Lemma lexes_spaces : forall s r ts, spaces s -> lexes r ts -> lexes (s ++ r) ts.
Proof. induction 1; cbn [app]; [auto|]. intros. apply lex_space; auto. Qed.
Lemma spaces_ends : forall (P : Z -> Prop) a r, spaces a -> (forall c, space c -> ~ P c) -> ends P r -> ends P (a ++ r).
Proof. intros P [|c a] r Ha HP Hr; [exact Hr|]. inversion Ha; subst. cbn. apply HP. assumption. Qed.
Lemma space_not_sym : forall c, space c -> ~ sym_char c.
Proof. unfold space, sym_char, letter, digit. lia. Qed.
Lemma space_not_num : forall c, space c -> ~ num_char c.
Proof. unfold space, num_char, hexdigit, digit, ex. lia. Qed.
(* what may follow a value: a comma or the end *)
Definition closed (r : list Z) : Prop := match r with [] => True | c :: _ => c = 44 end.
Lemma closed_ends_sym : forall r, closed r -> ends sym_char r.
Proof. intros [|c r]; cbn; [auto|]. intros ->. unfold sym_char, letter, digit. lia. Qed.
Lemma closed_ends_num : forall r, closed r -> ends num_char r.
Proof. intros [|c r]; cbn; [auto|]. intros ->. unfold num_char, hexdigit, digit, ex. lia. Qed.
Lemma lexes_value : forall v t c r ts, value_text v t -> spaces c -> closed r -> lexes r ts ->
  exists k s, value_tokens v = [mk_token TOKEN_EQUALS [61]; mk_token k s] /\ lexes (t ++ c ++ r) (mk_token k s :: ts).
Proof.
  intros v t c r ts Hv Hc Hr Hl. pose proof (lexes_spaces c r ts Hc Hl) as Hl'.
  pose proof (spaces_ends num_char c r Hc space_not_num (closed_ends_num r Hr)) as Hn.
  pose proof (spaces_ends sym_char c r Hc space_not_sym (closed_ends_sym r Hr)) as Hs.
  destruct Hv; do 2 eexists; (split; [reflexivity|]);
    [apply lex_number|apply lex_number|apply lex_number|apply lex_symbol|cbn [app]; rewrite <- app_assoc; cbn [app]; apply lex_string]; assumption.
Qed.
Lemma lexes_def : forall d t r ts, def_text d t -> closed r -> lexes r ts -> lexes (t ++ r) (def_tokens d ++ ts).
Proof.
  intros d t r ts Hd Hr Hl. destruct Hd as [s a Hs Ha|s v t a b c Hs Ha Hb Hc Hv]; unfold def_tokens; cbn [fst snd].
  - rewrite <- app_assoc. cbn [value_tokens app]. apply lex_symbol; [exact Hs| |apply lexes_spaces; assumption].
    apply spaces_ends; [exact Ha|exact space_not_sym|exact (closed_ends_sym r Hr)].
  - destruct (lexes_value v t c r ts Hv Hc Hr Hl) as [k [x [-> Hx]]].
    replace ((s ++ a ++ 61 :: b ++ t ++ c) ++ r) with (s ++ a ++ 61 :: b ++ t ++ c ++ r)
      by (repeat (progress (rewrite <- ?app_assoc; cbn [app])); reflexivity).
    cbn [app]. apply lex_symbol; [exact Hs| |].
    + apply spaces_ends; [exact Ha|exact space_not_sym|]. cbn. unfold sym_char, letter, digit. lia.
    + apply lexes_spaces; [exact Ha|]. apply lex_equals. apply lexes_spaces; [exact Hb|exact Hx].
Qed.
Fixpoint joined (ds : list def) : list token :=
  match ds with
  | [] => []
  | d :: r => def_tokens d ++ match r with [] => [] | _ => mk_token TOKEN_COMMA [44] :: joined r end
  end.
Lemma written_lexes : forall ds text, written ds text -> ds <> [] /\ lexes text (joined ds).
Proof.
  induction 1 as [a d t Ha Hd|a d t ds r Ha Hd _ [Hn IH]]; (split; [discriminate|]).
  - apply lexes_spaces; [exact Ha|]. cbn [joined]. pose proof (lexes_def d t [] [] Hd I lex_end) as H. rewrite app_nil_r in H. exact H.
  - apply lexes_spaces; [exact Ha|]. cbn [joined]. destruct ds as [|d' ds]; [contradiction|].
    apply lexes_def; [exact Hd|reflexivity|]. apply lex_comma. exact IH.
Qed.
Lemma reads_joined : forall ds, ds <> [] -> reads (joined ds) ds Fine.
Proof.
  induction ds as [|d [|d' ds] IH]; intros Hn; [contradiction| |].
  - cbn [joined]. apply reads_last with (r := []); [|intros []]. split; [reflexivity|]. intros _ [].
  - change (joined (d :: d' :: ds)) with (def_tokens d ++ mk_token TOKEN_COMMA [44] :: joined (d' :: ds)).
    eapply reads_more with (t := mk_token TOKEN_COMMA [44]); [split; [reflexivity|]| |].
    + intros _ H. cbn in H. discriminate.
    + reflexivity.
    + apply IH. discriminate.
Qed.

(* ---- names ---- *)
Definition fresh_from (m m' : zmap name) (l : list (list Z)) : Prop :=
  forall h nm, m_find h m' = Some nm -> m_find h m = Some nm \/ (In (n_text nm) l /\ hash32 (n_text nm) 0 = h).
Lemma get_name_use : forall m s, names_ok m -> text_ok s -> hash32 s 0 <> 0 ->
  (forall nm, m_find (hash32 s 0) m = Some nm -> n_text nm = s) ->
  exists m', GetName m (Some s) = Ok (mk_name (hash32 s 0) s, m') /\ names_ok m' /\ extends m m' /\
    m_find (hash32 s 0) m' = Some (mk_name (hash32 s 0) s) /\ fresh_from m m' [s].
Proof.
  intros m s Hm Hs Hz Hc.
  destruct (get_name_cases m s Hm Hs) as [[E1 E2]|[[E1 [E2 E3]]|[[E1 [[nm [Ea Eb]] E3]]|[E1 [E2 E3]]]]]; cbn zeta in *.
  - contradiction.
  - exists m. split; [exact E3|]. split; [exact Hm|]. split; [intros h nm H; exact H|]. split; [exact E2|]. intros h nm H. left. exact H.
  - exfalso. apply Eb. apply Hc. exact Ea.
  - eexists. split; [exact E3|]. split; [eapply get_name_ok; eassumption|].
    assert (Hs' : ssorted (keys m)) by apply Hm.
    split; [|split].
    + intros h nm H. rewrite m_find_set by exact Hs'. destruct (Z.eqb_spec (hash32 s 0) h); [congruence|exact H].
    + rewrite m_find_set by exact Hs'. rewrite Z.eqb_refl. reflexivity.
    + intros h nm H. rewrite m_find_set in H by exact Hs'. destruct (Z.eqb_spec (hash32 s 0) h) as [<-|]; [|left; exact H].
      injection H as <-. right. cbn. auto.
Qed.
Lemma extends_refl : forall m, extends m m. Proof. intros m h nm H. exact H. Qed.
Lemma extends_trans : forall a b c, extends a b -> extends b c -> extends a c.
Proof. intros a b c H1 H2 h nm H. apply H2, H1, H. Qed.
Lemma named_extends : forall m m' s n, extends m m' -> named m s n -> named m' s n.
Proof. intros m m' s n He [H1 H2]. split; [exact H1|]. apply He. exact H2. Qed.
Lemma means_extends : forall sf m m' d a, extends m m' -> means sf m d a -> means sf m' d a.
Proof.
  intros sf m m' d a He H. destruct H; try (econstructor; eauto using named_extends; fail).
Qed.
Lemma no_clash_rest : forall m m' a b, no_clash m (a ++ b) -> fresh_from m m' a -> no_clash m' b.
Proof.
  intros m m' a b [H1 H2] Hf. split.
  - intros s Hs. destruct (H1 s) as [Hz Hn]; [apply in_or_app; right; exact Hs|]. split; [exact Hz|].
    intros nm Hnm. destruct (Hf _ _ Hnm) as [H|[H3 H4]]; [apply Hn; exact H|].
    apply H2; [apply in_or_app; left; exact H3|apply in_or_app; right; exact Hs|exact H4].
  - intros s t Hs Ht. apply H2; apply in_or_app; right; assumption.
Qed.
Lemma fresh_trans : forall m m' m'' a b, fresh_from m m' a -> fresh_from m' m'' b -> fresh_from m m'' (a ++ b).
Proof.
  intros m m' m'' a b H1 H2 h nm H. destruct (H2 h nm H) as [H3|[H3 H4]].
  - destruct (H1 h nm H3) as [H4|[H4 H5]]; [left; exact H4|right]. split; [apply in_or_app; left; exact H4|exact H5].
  - right. split; [apply in_or_app; right; exact H3|exact H4].
Qed.

(* ---- tokens that come out of the lexer ---- *)
Definition token_ok (t : token) : Prop :=
  c_string (tk_text t) /\
  match tk_type t with TOKEN_INT | TOKEN_HEX_INT | TOKEN_FLOAT => number_text (tk_text t) (tk_type t) | _ => True end.
Lemma c_string_app : forall a b, c_string (a ++ b) -> c_string a /\ c_string b.
Proof. intros a b H. apply Forall_app in H. exact H. Qed.
Lemma number_kinds : forall s k, number_text s k -> match k with TOKEN_INT | TOKEN_HEX_INT | TOKEN_FLOAT => True | _ => False end.
Proof. intros s k [_ H]. inversion H; exact I. Qed.
Lemma lexes_tokens : forall text ts, lexes text ts -> c_string text -> Forall token_ok ts.
Proof.
  induction 1 as [|c r ts Hc _ IH|r ts _ IH|r ts _ IH|s r ts Hs _ IH|s r ts Hs He _ IH|s k r ts Hs He _ IH]; intros Ht.
  - constructor.
  - inversion Ht; subst. auto.
  - inversion Ht; subst. constructor; [split; [constructor; [lia|constructor]|exact I]|auto].
  - inversion Ht; subst. constructor; [split; [constructor; [lia|constructor]|exact I]|auto].
  - inversion Ht as [|? ? _ Ht']; subst. apply c_string_app in Ht'. destruct Ht' as [H1 H2]. inversion H2; subst.
    constructor; [split; [exact H1|exact I]|auto].
  - apply c_string_app in Ht. destruct Ht as [H1 H2]. constructor; [split; [exact H1|exact I]|auto].
  - apply c_string_app in Ht. destruct Ht as [H1 H2]. constructor; [|auto]. split; [exact H1|]. cbn [tk_type tk_text].
    pose proof (number_kinds s k Hs). destruct k; try contradiction; exact Hs.
Qed.
Lemma Forall_firstn' : forall (A : Type) (P : A -> Prop) n l, Forall P l -> Forall P (firstn n l).
Proof. intros A P n l H. revert n. induction H; intros [|n]; cbn [firstn]; constructor; auto. Qed.
Lemma seen_ok : forall s, c_string s -> text_ok (seen s).
Proof.
  intros s H. split; [apply Forall_firstn'; exact H|]. unfold seen, zlen. pose proof (firstn_le_length (Z.to_nat 1023) s). lia.
Qed.

(* ---- values ---- *)
Lemma firstn_1023 : forall (A : Type) (a b c : A) l, exists k, firstn (Z.to_nat 1023) (a :: b :: l) = a :: b :: firstn k l.
Proof.
  intros A a b c l. exists (Z.to_nat 1021). replace (Z.to_nat 1023) with (S (S (Z.to_nat 1021))) by lia. reflexivity.
Qed.
Lemma dec_digits : forall s acc v, number dec_digit 10 s acc = Some v -> Forall digit s.
Proof.
  induction s as [|c s IH]; intros acc v H; [constructor|]. cbn [number] in H. unfold dec_digit in H.
  destruct ((48 <=? c) && (c <=? 57)) eqn:E; [|discriminate]. constructor; [unfold digit; lia|]. eapply IH. exact H.
Qed.
Lemma number_lower : forall s acc v, 0 <= acc -> number dec_digit 10 s acc = Some v -> 0 <= v.
Proof.
  induction s as [|c s IH]; intros acc v Ha H; cbn [number] in H; [congruence|]. unfold dec_digit in H.
  destruct ((48 <=? c) && (c <=? 57)) eqn:E; [|discriminate]. eapply IH; [|exact H]. lia.
Qed.
Lemma int_token : forall t ds r v, number_text t TOKEN_INT -> seen t = ds ++ r -> ends digit r -> dec_number ds = Some v -> v < 2 ^ 31 ->
  atoi (seen t) = Ok v.
Proof.
  intros t ds r v [[c [q [-> Hc]]] _] E He Hd Hv. rewrite E. 
  assert (Hs : exists q', seen (c :: q) = c :: q').
  { unfold seen. replace (Z.to_nat 1023) with (S (Z.to_nat 1022)) by lia. eexists. reflexivity. }
  destruct Hs as [q' Hq]. rewrite Hq in E. destruct ds as [|c' ds].
  - cbn [app] in E. subst r. cbn in He. contradiction.
  - cbn [app] in E. injection E as <- E. cbn [app]. rewrite atoi_start by exact Hc. cbv zeta.
    change (c :: ds ++ r) with ((c :: ds) ++ r). rewrite (atoi_digits_stop _ _ 0 v Hd).
    + pose proof (number_lower (c :: ds) 0 v ltac:(lia) Hd). replace ((-2147483648 <=? v) && (v <? 2147483648)) with true by lia. reflexivity.
    + destruct r as [|x r]; [exact I|]. cbn in He. unfold dec_digit, digit in *. destruct ((48 <=? x) && (x <=? 57)) eqn:Ex; [lia|reflexivity].
Qed.
Lemma hexdigits_number : forall s acc, Forall hexdigit s -> exists v, number hex_digit 16 s acc = Some v.
Proof.
  induction s as [|c s IH]; intros acc H; [eexists; reflexivity|]. inversion H as [|? ? Hc Hs]; subst. cbn [number].
  assert (Hd : exists d, hex_digit c = Some d).
  { unfold hex_digit. unfold hexdigit, digit in Hc. destruct ((48 <=? c) && (c <=? 57)) eqn:E1; [eexists; reflexivity|].
    destruct ((97 <=? c) && (c <=? 102)) eqn:E2; [eexists; reflexivity|]. destruct ((65 <=? c) && (c <=? 70)) eqn:E3; [eexists; reflexivity|]. lia. }
  destruct Hd as [d ->]. apply IH. exact Hs.
Qed.
Lemma hex_kind_digits : forall h, number_kind (48 :: 120 :: h) TOKEN_HEX_INT -> Forall hexdigit h.
Proof.
  intros h H. inversion H as [| |a x b Ha Hx Hb E]; subst. destruct a as [|c [|c' a]]; cbn [app] in E.
  - injection E as E1 E2. unfold ex in Hx. lia.
  - injection E as E1 E2 E3. subst. exact Hb.
  - injection E as E1 E2 E3. subst. exfalso. inversion Ha as [|? ? _ H1]; subst. inversion H1 as [|? ? H2 _]; subst. unfold hexdigit, digit in H2. lia.
Qed.
Lemma hex_kind_long : forall c q, number_kind (c :: q) TOKEN_HEX_INT -> digit c -> exists c' q', q = c' :: q'.
Proof.
  intros c q H Hc. inversion H as [| |a x b Ha Hx Hb E]; subst. destruct a as [|y a]; cbn [app] in E; injection E as E0 E.
  - unfold ex, digit in *. lia.
  - destruct a; cbn [app] in E; do 2 eexists; symmetry; exact E.
Qed.
Lemma s32_mod : forall v, s32 (v mod 2 ^ 32) = s32 v.
Proof. intros v. unfold s32. rewrite Zplus_mod_idemp_l. reflexivity. Qed.
Lemma hex_token : forall t, number_text t TOKEN_HEX_INT -> value_ok (HexValue t) ->
  (exists h v, seen t = str "0x" ++ h /\ hex_number h = Some v /\ hex_value (seen t) = Ok (s32 v)) \/
  ((forall h, seen t <> str "0x" ++ h) /\ hex_value (seen t) = Ok 0).
Proof.
  intros t [[c [q [-> Hc]]] Hk] Hok. destruct (hex_kind_long c q Hk Hc) as [c' [q' ->]].
  cbn [value_ok] in Hok. unfold seen in *.
  destruct (firstn_1023 Z c c' 0 q') as [k E]. rewrite E in *. set (h := firstn k q') in *.
  unfold hex_value. cbn [app rd znth]. change (str "0x") with [48; 120].
  unfold rd, znth. cbn [Z.ltb Z.compare Z.to_nat nth_error app Pos.to_nat].
  destruct (Z.eqb_spec c 48) as [->|Hc48].
  - cbn [obind]. change (Pos.to_nat 1) with 1%nat. cbn [nth_error obind]. destruct (Z.eqb_spec c' 120) as [->|Hc120].
    + left. assert (Hh : Forall hexdigit h) by (apply Forall_firstn'; exact (hex_kind_digits q' Hk)).
      destruct (hexdigits_number h 0 Hh) as [v Hv]. exists h, v. split; [reflexivity|]. split; [exact Hv|].
      cbn [obind skipn]. rewrite (hextoi_ok h v Hv), s32_mod. reflexivity.
    + right. split; [intros h' Hh'; injection Hh' as Hh' _; contradiction|].
      change (Pos.to_nat 2) with 2%nat. cbn [nth_error]. destruct h as [|x h'] eqn:Eh; cbn [app obind].
      * reflexivity.
      * destruct (Z.eqb_spec x 88) as [->|]; [|reflexivity]. exfalso. exact (Hok c' h' Hc120 eq_refl).
  - right. split; [intros h' Hh'; injection Hh' as Hh' _; contradiction|]. cbn [obind]. destruct (Z.eqb_spec c 48); [contradiction|reflexivity].
Qed.

(* ---- one definition ---- *)
Lemma ttype_eqb_spec : forall a b, ttype_eqb a b = true <-> a = b.
Proof. intros [] []; cbn; split; intros H; try reflexivity; discriminate. Qed.
Lemma rd_head : forall (A : Type) (pre : list A) t r, rd (pre ++ t :: r) (zlen pre) = Ok t.
Proof. intros A pre t r. unfold rd. rewrite znth_app_r by lia. rewrite Z.sub_diag, znth_0. reflexivity. Qed.
Lemma rd_past : forall (A : Type) (pre : list A), rd pre (zlen pre) = UB.
Proof. intros A pre. unfold rd. replace (znth pre (zlen pre)) with (@None A); [reflexivity|]. symmetry. apply znth_none. lia. Qed.
Lemma add_ok : forall sf m s v, names_ok m -> token_ok (mk_token TOKEN_SYMBOL s) -> Forall token_ok (value_tokens v) ->
  no_clash m (def_names (s, v)) -> value_ok v ->
  exists a m', AddAttribute sf m (mk_token TOKEN_SYMBOL s)
                 (match value_tokens v with [_; t] => Some t | _ => None end) = Ok (Some (a, m')) /\
    means sf m' (s, v) a /\ names_ok m' /\ extends m m' /\ fresh_from m m' (def_names (s, v)).
Proof.
  intros sf m s v Hm [Hs _] Hv [Hc1 Hc2] Hok. cbn [tk_text] in Hs.
  destruct (Hc1 (seen s) ltac:(left; reflexivity)) as [Hz Hn].
  destruct (get_name_use m (seen s) Hm (seen_ok s Hs) Hz Hn) as [m' [HG [Hm' [He [Hf Hfr]]]]].
  assert (Hnm : named m' s (mk_name (hash32 (seen s) 0) (seen s))) by (split; [reflexivity|exact Hf]).
  destruct v as [|t|t|t|t|t]; cbn [value_tokens AddAttribute tk_type] in *;
    unfold GetText; cbn [tk_text]; try (inversion Hv as [|? ? _ Hv']; inversion Hv' as [|? ? [Ht Hk] _]; subst; cbn [tk_text tk_type] in Ht, Hk).
  - change (firstn (Z.to_nat 1023) s) with (seen s). rewrite HG, bind_Ok. do 2 eexists. split; [reflexivity|]. cbn [fst snd].
    split; [apply mean_flag; exact Hnm|auto].
  - change (firstn (Z.to_nat 1023) s) with (seen s). change (firstn (Z.to_nat 1023) t) with (seen t).
    destruct Hok as [ds [r [n [E [Hr [Hd Hl]]]]]]. rewrite (int_token t ds r n Hk E Hr Hd Hl), bind_Ok. rewrite HG, bind_Ok.
    do 2 eexists. split; [reflexivity|]. cbn [fst snd]. split; [eapply mean_int; eassumption|auto].
  - change (firstn (Z.to_nat 1023) s) with (seen s). change (firstn (Z.to_nat 1023) t) with (seen t).
    destruct (hex_token t Hk Hok) as [[h [n [E [Hd Hl]]]]|[E Hl]]; rewrite Hl, bind_Ok; rewrite HG, bind_Ok;
      (do 2 eexists; split; [reflexivity|]); cbn [fst snd].
    + split; [eapply mean_hex; eassumption|auto].
    + split; [apply mean_other_hex; assumption|auto].
  - change (firstn (Z.to_nat 1023) s) with (seen s). change (firstn (Z.to_nat 1023) t) with (seen t). rewrite HG, bind_Ok. do 2 eexists.
    split; [reflexivity|]. cbn [fst snd]. split; [apply mean_float; exact Hnm|auto].
  - change (firstn (Z.to_nat 1023) s) with (seen s). change (firstn (Z.to_nat 1023) t) with (seen t). rewrite HG, bind_Ok. cbn [fst snd].
    unfold def_names in *. cbn [fst snd] in *.
    assert (Hcl : no_clash m' [seen t]) by (apply (no_clash_rest m m' [seen s]); [split; assumption|exact Hfr]).
    destruct (proj1 Hcl (seen t) ltac:(left; reflexivity)) as [Hz2 Hn2].
    destruct (get_name_use m' (seen t) Hm' (seen_ok t Ht) Hz2 Hn2) as [m2 [HG2 [Hm2 [He2 [Hf2 Hfr2]]]]].
    rewrite HG2, bind_Ok. do 2 eexists. split; [reflexivity|]. cbn [fst snd].
    split; [apply mean_symbol; [eapply named_extends; eassumption|split; [reflexivity|exact Hf2]]|].
    split; [exact Hm2|]. split; [eapply extends_trans; eassumption|]. exact (fresh_trans m m' m2 [seen s] [seen t] Hfr Hfr2).
  - change (firstn (Z.to_nat 1023) s) with (seen s). change (firstn (Z.to_nat 1023) t) with (seen t). rewrite HG, bind_Ok. do 2 eexists.
    split; [reflexivity|]. cbn [fst snd]. split; [apply mean_string; exact Hnm|auto].
Qed.
Lemma CheckNext_hit : forall pre t r k, tk_type t = k -> CheckNext (pre ++ t :: r) (zlen pre) k = Ok (Some t, zlen pre + 1).
Proof.
  intros pre t r k H. unfold CheckNext. rewrite zlen_app, zlen_cons. pose proof (zlen_nonneg _ r).
  replace (zlen pre + (1 + zlen r) <=? zlen pre) with false by lia. rewrite rd_head, bind_Ok. rewrite (proj2 (ttype_eqb_spec _ _) H). reflexivity.
Qed.
Lemma CheckNext_miss : forall pre r k, ~ next_is k r -> CheckNext (pre ++ r) (zlen pre) k = Ok (None, zlen pre).
Proof.
  intros pre [|t r] k H; unfold CheckNext; rewrite zlen_app.
  - rewrite zlen_nil. replace (zlen pre + 0 <=? zlen pre) with true by lia. reflexivity.
  - rewrite zlen_cons. pose proof (zlen_nonneg _ r). replace (zlen pre + (1 + zlen r) <=? zlen pre) with false by lia. rewrite rd_head, bind_Ok.
    cbn in H. destruct (ttype_eqb (tk_type t) k) eqn:E; [apply ttype_eqb_spec in E; contradiction|reflexivity].
Qed.
Lemma snoc : forall (A : Type) (pre : list A) t r, pre ++ t :: r = (pre ++ [t]) ++ r.
Proof. intros. rewrite <- app_assoc. reflexivity. Qed.
Lemma zlen_snoc : forall (A : Type) (pre : list A) t, zlen (pre ++ [t]) = zlen pre + 1.
Proof. intros. rewrite zlen_app, zlen_cons, zlen_nil. lia. Qed.
Lemma value_tokens_cases : forall v, (v = NoValue /\ value_tokens v = []) \/
  (v <> NoValue /\ exists t, value_tokens v = [mk_token TOKEN_EQUALS [61]; t]).
Proof. intros []; [left; auto|right|right|right|right|right]; (split; [discriminate|]; eexists; reflexivity). Qed.
Lemma def_past : forall sf m pre, AttributeDef sf m pre (zlen pre) = UB.
Proof. intros. unfold AttributeDef, ExpectNext. rewrite rd_past. reflexivity. Qed.
Lemma def_ok : forall sf m pre d r, names_ok m -> Forall token_ok (def_tokens d) -> (snd d = NoValue -> ~ next_is TOKEN_EQUALS r) ->
  no_clash m (def_names d) -> value_ok (snd d) ->
  exists a m', AttributeDef sf m (pre ++ def_tokens d ++ r) (zlen pre) = Ok (Some (a, m', zlen pre + zlen (def_tokens d))) /\
    means sf m' d a /\ names_ok m' /\ extends m m' /\ fresh_from m m' (def_names d).
Proof.
  intros sf m pre [s v] r Hm Ht He Hc Hok. unfold def_tokens in *. cbn [fst snd] in *. inversion Ht as [|? ? Hs Hv]; subst.
  destruct (add_ok sf m s v Hm Hs Hv Hc Hok) as [a [m' [HA Hrest]]]. exists a, m'. split; [|exact Hrest].
  unfold AttributeDef, ExpectNext. cbn [app]. rewrite rd_head, bind_Ok. cbn [tk_type ttype_eqb fst snd]. rewrite bind_Ok. cbn [fst snd].
  rewrite snoc, <- zlen_snoc with (t := mk_token TOKEN_SYMBOL s). set (p1 := pre ++ [mk_token TOKEN_SYMBOL s]) in *.
  assert (Hp1 : zlen p1 = zlen pre + 1) by apply zlen_snoc.
  destruct (value_tokens_cases v) as [[Ev Et]|[Ev [t Et]]]; rewrite Et in *.
  - cbn [app]. rewrite CheckNext_miss by (apply He; exact Ev). rewrite bind_Ok. cbn [fst snd]. rewrite HA, bind_Ok.
    rewrite zlen_cons, zlen_nil. repeat f_equal. lia.
  - cbn [app]. rewrite CheckNext_hit by reflexivity. rewrite bind_Ok. cbn [fst snd].
    rewrite snoc, <- zlen_snoc with (t := mk_token TOKEN_EQUALS [61]). set (p2 := p1 ++ [mk_token TOKEN_EQUALS [61]]) in *.
    assert (Hp2 : zlen p2 = zlen p1 + 1) by apply zlen_snoc.
    rewrite zlen_app, zlen_cons. pose proof (zlen_nonneg _ r). replace (zlen p2 + (1 + zlen r) <=? zlen p2) with false by lia.
    rewrite rd_head, bind_Ok, HA, bind_Ok. rewrite !zlen_cons, zlen_nil.
    replace (zlen p2 + 1) with (zlen pre + (1 + (1 + (1 + 0)))) by lia. reflexivity.
Qed.
(* a value token gives a value *)
Definition value_of (t : token) : option value :=
  match tk_type t with
  | TOKEN_INT => Some (IntValue (tk_text t)) | TOKEN_HEX_INT => Some (HexValue (tk_text t)) | TOKEN_FLOAT => Some (FloatValue (tk_text t))
  | TOKEN_SYMBOL => Some (SymbolValue (tk_text t)) | TOKEN_STRING => Some (StringValue (tk_text t)) | _ => None
  end.
Lemma value_of_tokens : forall t v, value_of t = Some v -> value_tokens v = [mk_token TOKEN_EQUALS [61]; t] /\ v <> NoValue.
Proof. intros [[] s] v H; cbn in H; try discriminate; injection H as <-; split; (reflexivity || discriminate). Qed.
Lemma def_bad : forall sf m pre ts, ts <> [] -> (forall d r, ~ starts_def ts d r) ->
  (forall t, In t ts -> tk_type t = TOKEN_EQUALS -> tk_text t = [61]) ->
  AttributeDef sf m (pre ++ ts) (zlen pre) = Ok None.
Proof.
  intros sf m pre [|t ts] Hn Hb Heq; [contradiction|]. unfold AttributeDef, ExpectNext. rewrite rd_head, bind_Ok.
  destruct (ttype_eqb (tk_type t) TOKEN_SYMBOL) eqn:E1; [|rewrite bind_Ok; reflexivity].
  rewrite bind_Ok. cbn [fst snd]. apply ttype_eqb_spec in E1.
  destruct t as [k s]. cbn [tk_type] in E1. subst k.
  destruct ts as [|t2 ts].
  { exfalso. apply (Hb (s, NoValue) []). split; [reflexivity|]. intros _ []. }
  destruct (ttype_eqb (tk_type t2) TOKEN_EQUALS) eqn:E2.
  2:{ exfalso. apply (Hb (s, NoValue) (t2 :: ts)). split; [reflexivity|]. intros _ H. cbn in H. apply ttype_eqb_spec in H. congruence. }
  apply ttype_eqb_spec in E2. rewrite snoc, <- zlen_snoc with (t := mk_token TOKEN_SYMBOL s).
  set (p1 := pre ++ [mk_token TOKEN_SYMBOL s]) in *. rewrite CheckNext_hit by exact E2. rewrite bind_Ok. cbn [fst snd].
  rewrite snoc, <- zlen_snoc with (t := t2). set (p2 := p1 ++ [t2]) in *.
  destruct ts as [|t3 ts].
  { rewrite app_nil_r. replace (zlen p2 <=? zlen p2) with true by lia. reflexivity. }
  rewrite zlen_app, zlen_cons. pose proof (zlen_nonneg _ ts). replace (zlen p2 + (1 + zlen ts) <=? zlen p2) with false by lia.
  rewrite rd_head, bind_Ok. destruct (value_of t3) as [v|] eqn:Ev.
  - exfalso. destruct (value_of_tokens t3 v Ev) as [Hv Hv']. apply (Hb (s, v) ts). split; [|intros H'; contradiction].
    unfold def_tokens. cbn [fst snd]. rewrite Hv. cbn [app].
    assert (Ht2 : t2 = mk_token TOKEN_EQUALS [61]).
    { pose proof (Heq t2 ltac:(right; left; reflexivity) E2). destruct t2. cbn in *. congruence. }
    rewrite Ht2. reflexivity.
  - destruct t3 as [[] x]; cbn in Ev; try discriminate; cbn [AddAttribute tk_type]; rewrite bind_Ok; reflexivity.
Qed.

(* ---- the whole list ---- *)
Definition equals_ok (ts : list token) : Prop := forall t, In t ts -> tk_type t = TOKEN_EQUALS -> tk_text t = [61].
Lemma parser_reads : forall sf ts ds e, reads ts ds e -> forall n pre m, (length ts < n)%nat -> names_ok m -> Forall token_ok ts -> equals_ok ts ->
  usable m ds ->
  match e with
  | Past => parser_loop n sf m (pre ++ ts) (zlen pre) = UB
  | Fine => exists attrs m', parser_loop n sf m (pre ++ ts) (zlen pre) = Ok (attrs, m') /\ Forall2 (means sf m') ds attrs /\ names_ok m' /\ extends m m'
  end.
Proof.
  intros sf. induction 1 as [|ts Hne Hbad|ts d r [-> Heq] Hc|ts d t r ds e [-> Heq] Ht _ IH]; intros n pre m Hn Hm Htok Hequ [Hcl Hval];
    (destruct n as [|n]; [lia|]); cbn [parser_loop].
  - rewrite app_nil_r. rewrite def_past. reflexivity.
  - rewrite (def_bad sf m pre ts Hne Hbad Hequ), bind_Ok. exists [], m. split; [reflexivity|]. split; [constructor|]. split; [exact Hm|apply extends_refl].
  - apply Forall_app in Htok. destruct Htok as [Htd Htr]. cbn [flat_map] in Hcl. rewrite app_nil_r in Hcl. inversion Hval; subst.
    destruct (def_ok sf m pre d r Hm Htd Heq Hcl ltac:(assumption)) as [a [m' [HD [Hmean [Hm' [He Hfr]]]]]].
    exists [a], m'. rewrite HD, bind_Ok. split; [|split; [constructor; [exact Hmean|constructor]|auto]].
    rewrite app_assoc. rewrite (zlen_app _ (pre ++ def_tokens d)). rewrite <- zlen_app with (l := pre).
    destruct r as [|t r].
    + rewrite zlen_nil. replace (zlen (pre ++ def_tokens d) <? zlen (pre ++ def_tokens d) + 0) with false by lia. reflexivity.
    + rewrite zlen_cons. pose proof (zlen_nonneg _ r).
      replace (zlen (pre ++ def_tokens d) <? zlen (pre ++ def_tokens d) + (1 + zlen r)) with true by lia.
      rewrite rd_head, bind_Ok. cbn in Hc. destruct (ttype_eqb (tk_type t) TOKEN_COMMA) eqn:E; [apply ttype_eqb_spec in E; contradiction|reflexivity].
  - apply Forall_app in Htok. destruct Htok as [Htd Htr]. inversion Htr as [|? ? _ Htr']; subst. cbn [flat_map] in Hcl. inversion Hval as [|? ? Hv1 Hv2]; subst.
    assert (Hcl1 : no_clash m (def_names d)).
    { destruct Hcl as [H1 H2]. split; [intros x Hx; apply H1; apply in_or_app; left; exact Hx|].
      intros x y Hx Hy; apply H2; apply in_or_app; left; assumption. }
    destruct (def_ok sf m pre d (t :: r) Hm Htd Heq Hcl1 Hv1) as [a [m' [HD [Hmean [Hm' [He Hfr]]]]]].
    pose proof (no_clash_rest m m' (def_names d) (flat_map def_names ds) Hcl Hfr) as Hcl'.
    assert (Hequ' : equals_ok r) by (intros x Hx; apply Hequ; apply in_or_app; right; right; exact Hx).
    assert (Hlen : (length r < n)%nat) by (rewrite app_length in Hn; cbn [length] in Hn; lia).
    specialize (IH n ((pre ++ def_tokens d) ++ [t]) m' Hlen Hm' Htr' Hequ' (conj Hcl' Hv2)).
    rewrite HD, bind_Ok. rewrite app_assoc. rewrite (zlen_app _ (pre ++ def_tokens d)). rewrite <- zlen_app with (l := pre).
    rewrite zlen_cons. pose proof (zlen_nonneg _ r).
    replace (zlen (pre ++ def_tokens d) <? zlen (pre ++ def_tokens d) + (1 + zlen r)) with true by lia.
    rewrite rd_head, bind_Ok. rewrite (proj2 (ttype_eqb_spec _ _) Ht).
    rewrite snoc, <- zlen_snoc with (t := t).
    destruct e.
    + destruct IH as [attrs [m2 [HP [HF [Hm2 He2]]]]]. rewrite HP, bind_Ok. cbn [fst snd]. exists (a :: attrs), m2. split; [reflexivity|].
      split; [constructor; [eapply means_extends; eassumption|exact HF]|]. split; [exact Hm2|]. eapply extends_trans; eassumption.
    + rewrite IH. reflexivity.
Qed.
Lemma first_def : forall ts, ts <> [] -> equals_ok ts -> (exists d r, starts_def ts d r) \/ (forall d r, ~ starts_def ts d r).
Proof.
  intros [|[k s] ts] Hn Heq; [contradiction|].
  assert (Hsym : k <> TOKEN_SYMBOL -> forall d r, ~ starts_def (mk_token k s :: ts) d r).
  { intros Hk d r [H _]. unfold def_tokens in H. cbn [app] in H. congruence. }
  destruct k; try (right; apply Hsym; discriminate).
  destruct ts as [|t2 ts].
  { left. exists (s, NoValue), []. split; [reflexivity|]. intros _ []. }
  destruct (ttype_eqb (tk_type t2) TOKEN_EQUALS) eqn:E2.
  2:{ left. exists (s, NoValue), (t2 :: ts). split; [reflexivity|]. intros _ H. cbn in H. apply ttype_eqb_spec in H. congruence. }
  apply ttype_eqb_spec in E2.
  assert (Ht2 : t2 = mk_token TOKEN_EQUALS [61]).
  { pose proof (Heq t2 ltac:(right; left; reflexivity) E2). destruct t2. cbn in *. congruence. }
  assert (Hno : forall d r, starts_def (mk_token TOKEN_SYMBOL s :: t2 :: ts) d r -> exists t3 ts' v, ts = t3 :: ts' /\ value_of t3 = Some v).
  { intros [x v] r [H Hv]. unfold def_tokens in H. cbn [app fst snd] in *. injection H as _ H.
    destruct v; cbn [value_tokens app] in H.
    - exfalso. apply Hv; [reflexivity|]. rewrite <- H. cbn. exact E2.
    - injection H as _ ->. do 3 eexists. split; reflexivity.
    - injection H as _ ->. do 3 eexists. split; reflexivity.
    - injection H as _ ->. do 3 eexists. split; reflexivity.
    - injection H as _ ->. do 3 eexists. split; reflexivity.
    - injection H as _ ->. do 3 eexists. split; reflexivity. }
  destruct ts as [|t3 ts].
  { right. intros d r H. destruct (Hno d r H) as [? [? [? [? _]]]]. discriminate. }
  destruct (value_of t3) as [v|] eqn:Ev.
  - left. destruct (value_of_tokens t3 v Ev) as [Hv Hv']. exists (s, v), ts. split; [|intros H; contradiction].
    unfold def_tokens. cbn [fst snd]. rewrite Hv, Ht2. reflexivity.
  - right. intros d r H. destruct (Hno d r H) as [t [ts' [v [E Hv]]]]. injection E as -> ->. congruence.
Qed.
Lemma reads_total : forall n ts, (length ts <= n)%nat -> equals_ok ts -> exists ds e, reads ts ds e.
Proof.
  induction n as [|n IH]; intros ts Hl Heq.
  { destruct ts; [|cbn in Hl; lia]. exists [], Past. constructor. }
  destruct ts as [|t ts]; [exists [], Past; constructor|].
  destruct (first_def (t :: ts) ltac:(discriminate) Heq) as [[d [r H]]|H].
  - destruct r as [|t' r].
    + exists [d], Fine. eapply reads_last; [exact H|intros []].
    + destruct (ttype_eqb (tk_type t') TOKEN_COMMA) eqn:E.
      * apply ttype_eqb_spec in E. pose proof H as [H1 _].
        assert (Hlen : (length r <= n)%nat).
        { rewrite H1 in Hl. rewrite app_length in Hl. cbn [length] in Hl. unfold def_tokens in Hl. cbn [length] in Hl. lia. }
        assert (Heq' : equals_ok r).
        { intros x Hx. apply Heq. rewrite H1. apply in_or_app. right. right. exact Hx. }
        destruct (IH r Hlen Heq') as [ds [e Hr]]. exists (d :: ds), e. eapply reads_more; eassumption.
      * exists [d], Fine. eapply reads_last; [exact H|]. intros Hc. cbn in Hc. apply ttype_eqb_spec in Hc. congruence.
  - exists [], Fine. apply reads_bad; [discriminate|exact H].
Qed.
Lemma lexes_equals : forall text ts, lexes text ts -> equals_ok ts.
Proof.
  induction 1 as [|c r ts Hc _ IH|r ts _ IH|r ts _ IH|s r ts Hs _ IH|s r ts Hs He _ IH|s k r ts Hs He _ IH]; intros t Ht Ek;
    try (apply IH; assumption); try (destruct Ht as [<-|Ht]; [|apply IH; assumption]; cbn in *; congruence).
  - destruct Ht.
  - destruct Ht as [<-|Ht]; [|apply IH; assumption]. pose proof (number_kinds s k Hs) as Hk. cbn in Ek. subst k. contradiction.
Qed.
Lemma c_string_no0 : forall s, c_string s -> ~ In 0 s.
Proof. intros s H Hi. unfold c_string in H. rewrite Forall_forall in H. apply H in Hi. lia. Qed.

(* ---- ParseAttributes ---- *)
Definition outcome_of (sf : list Z -> Z) (m : zmap name) (ds : list def) (e : ending) (res : outcome (list attr * zmap name)) : Prop :=
  match e with
  | Past => res = UB
  | Fine => exists attrs m', res = Ok (attrs, m') /\ Forall2 (means sf m') ds attrs /\ name_table m' /\ extends m m'
  end.
Lemma parse_reads : forall sf m text ts ds e rest, name_table m -> c_string text -> lexes text ts -> ts <> [] -> reads ts ds e -> usable m ds ->
  outcome_of sf m ds e (ParseAttributes sf m (text ++ 0 :: rest)).
Proof.
  intros sf m text ts ds e rest Hm Ht Hl Hne Hr Hu. unfold ParseAttributes. rewrite (lexer_ok text ts rest Hl (c_string_no0 text Ht)), bind_Ok.
  pose proof (parser_reads sf ts ds e Hr (S (length ts)) [] m ltac:(lia) Hm (lexes_tokens text ts Hl Ht) (lexes_equals text ts Hl) Hu) as H.
  destruct ts as [|t ts]; [contradiction|]. cbn [Parser app] in *. exact H.
Qed.
Lemma parse_empty : forall sf m text rest, c_string text -> lexes text [] -> ParseAttributes sf m (text ++ 0 :: rest) = Ok ([], m).
Proof. intros sf m text rest Ht Hl. unfold ParseAttributes. rewrite (lexer_ok text [] rest Hl (c_string_no0 text Ht)), bind_Ok. reflexivity. Qed.
Lemma parse_unlexed : forall sf m text rest, c_string text -> (forall ts, ~ lexes text ts) -> ParseAttributes sf m (text ++ 0 :: rest) = Ok ([], m).
Proof.
  intros sf m text rest Ht Hn. unfold ParseAttributes.
  destruct (lexer_cases text rest (c_string_no0 text Ht)) as [[ts [H _]]|[_ ->]]; [exfalso; exact (Hn ts H)|]. rewrite bind_Ok. reflexivity.
Qed.
Lemma parse_cases : forall text, c_string text ->
  (forall ts, ~ lexes text ts) \/ lexes text [] \/ exists ts ds e, lexes text ts /\ ts <> [] /\ reads ts ds e.
Proof.
  intros text Ht. destruct (lexer_cases text [] (c_string_no0 text Ht)) as [[ts [H _]]|[H _]]; [right|left; exact H].
  destruct ts as [|t ts]; [left; exact H|right]. destruct (reads_total _ (t :: ts) (Nat.le_refl _) (lexes_equals _ _ H)) as [ds [e Hr]].
  exists (t :: ts), ds, e. split; [exact H|]. split; [discriminate|exact Hr].
Qed.
Lemma parse_written : forall sf m ds text rest, name_table m -> c_string text -> written ds text -> usable m ds ->
  exists attrs m', ParseAttributes sf m (text ++ 0 :: rest) = Ok (attrs, m') /\ Forall2 (means sf m') ds attrs /\ name_table m' /\ extends m m'.
Proof.
  intros sf m ds text rest Hm Ht Hw Hu. destruct (written_lexes ds text Hw) as [Hne Hl].
  refine (parse_reads sf m text (joined ds) ds Fine rest Hm Ht Hl _ (reads_joined ds Hne) Hu).
  destruct ds as [|d ds]; [contradiction|]. cbn [joined]. unfold def_tokens. discriminate.
Qed.
