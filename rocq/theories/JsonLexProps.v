(* C16, C17: the JSON lexer *)
From Coq Require Import String.
From Verif Require Import Base BaseProofs Text FileUtilsSpec JsonLexModel JsonLexSpec JsonLexProofs.
Local Open Scope list_scope.

(* one token from any point of any input below 2 GB: the lexer stops inside the input, never further back, a
   token takes at least one character, and no token means an error or that only white space was left *)
Theorem C16_next_token : forall data sd c, zlen data < 2 ^ 31 -> inside data c -> ~ cut_exponent (unread data c) ->
  exists t c', LexerNextToken sd data c = Ok (t, c') /\ inside data c' /\ jc_pos c <= jc_pos c' /\
    (IsValid t = true -> jc_pos c < jc_pos c') /\
    (IsValid t = false -> je_code (jc_err c') <> E_NONE \/ (Forall white (unread data c) /\ jc_pos c' = zlen data)).
Proof.
  intros data sd c Hs Hi Hc. destruct (next_any data Hs sd c Hi) as [[_ H]|[t [c' [HE [[H1 [H2 _]] [HV [HN _]]]]]]]; [contradiction|].
  exists t, c'. auto.
Qed.
Print Assumptions C16_next_token.
(* a byte outside the input is looked at in one case only: the input ends after the exponent letter of a number
   that has a point *)
Theorem C16_cut_exponent : forall data sd c, zlen data < 2 ^ 31 -> inside data c ->
  (LexerNextToken sd data c = UB <-> cut_exponent (unread data c)).
Proof.
  intros data sd c Hs Hi. split; [|apply next_cut; assumption]. intros HU.
  destruct (next_any data Hs sd c Hi) as [[_ H]|[t [c' [HE _]]]]; [exact H|congruence].
Qed.
Print Assumptions C16_cut_exponent.
(* asking for tokens until there is none ends, after at most as many tokens as there are bytes, at an error or
   at the end of the input *)
Theorem C16_all_tokens : forall data sd, zlen data < 2 ^ 31 ->
  lex_all (S (length data)) sd data (JSONContext 0) = UB \/
  exists ts c, lex_all (S (length data)) sd data (JSONContext 0) = Ok (ts, c) /\ inside data c /\ zlen ts <= zlen data /\
    (je_code (jc_err c) <> E_NONE \/ jc_pos c = zlen data).
Proof.
  intros data sd Hs. pose proof (zlen_nonneg _ data). destruct (lex_all_total data Hs sd (S (length data)) (JSONContext 0)) as [HU|[ts [c [HE [H1 [H2 [H3 H4]]]]]]].
  - split; cbn; lia.
  - cbn. unfold zlen. lia.
  - left. exact HU.
  - right. exists ts, c. cbn in H3. repeat (split; [assumption || lia|]). exact H4.
Qed.
Print Assumptions C16_all_tokens.
(* finding: the case in which a byte outside the input is read *)
Theorem C16_reads_past_end_refuted : forall sd, LexerNextToken sd (str "1.5e") (JSONContext 0) = UB.
Proof. intros sd. vm_compute. reflexivity. Qed.
Print Assumptions C16_reads_past_end_refuted.

(* a document lexes to its tokens, in order, each with its characters' place or value, without an error *)
Theorem C17_document : forall data sd l, zlen data < 2 ^ 31 -> layout sd 0 data l ->
  exists ts c, lex_all (S (length data)) sd data (JSONContext 0) = Ok (ts, c) /\
    Forall2 (fun pk t => token_at (fst pk) (snd pk) t) l ts /\ no_error c /\ jc_pos c = zlen data.
Proof.
  intros data sd l Hs Hl. apply (lex_all_layout data Hs sd 0 data l Hl); [|reflexivity|reflexivity|lia].
  apply (at_start data []); reflexivity.
Qed.
Print Assumptions C17_document.
(* conversely a token got without an error is spelled by the characters taken, after white space; the one
   exception takes an integer for a decimal number when a stray exponent letter follows *)
Theorem C17_token_is_spelled : forall data sd c t c', zlen data < 2 ^ 31 -> inside data c ->
  LexerNextToken sd data c = Ok (t, c') -> IsValid t = true -> no_error c' ->
  exists w s r, unread data c = w ++ s ++ r /\ Forall white w /\ unread data c' = r /\
    ((exists k, spelled sd k s /\ token_at (jc_pos c + zlen w) k t) \/ bare_exponent sd s r t).
Proof.
  intros data sd c t c' Hs Hi HE Hv Hn. destruct (next_any data Hs sd c Hi) as [[HU _]|[t2 [c2 [HE2 [_ [_ [_ HV]]]]]]]; [congruence|].
  rewrite HE in HE2. injection HE2 as <- <-. destruct (HV Hv) as [HX|[w [s [r [H1 [H2 [_ [H3 H4]]]]]]]]; [contradiction|]. exists w, s, r. auto.
Qed.
Print Assumptions C17_token_is_spelled.
(* findings: a number at the very end of the input is an error; a wrong escape code in a string is an error but
   gives a token; a stray exponent letter makes an integer a decimal number *)
Theorem C17_number_at_end_refuted : forall sd, exists c,
  lex_all 5 sd (str "12") (JSONContext 0) = Ok ([], c) /\ je_code (jc_err c) = E_END.
Proof. intros sd. eexists. vm_compute. split; reflexivity. Qed.
Print Assumptions C17_number_at_end_refuted.
Theorem C17_wrong_escape_refuted : forall sd, exists t c,
  LexerNextToken sd (34 :: str "\uzzzz!" ++ [34]) (JSONContext 0) = Ok (t, c) /\ jt_type t = T_STRING /\ je_code (jc_err c) = E_HEX_DIGIT.
Proof. intros sd. do 2 eexists. vm_compute. repeat split; reflexivity. Qed.
Print Assumptions C17_wrong_escape_refuted.
Theorem C17_stray_exponent_refuted : forall sd, exists t c,
  LexerNextToken sd (str "12e,") (JSONContext 0) = Ok (t, c) /\ jt_type t = T_DECIMAL /\ jt_val t = sd (str "12").
Proof. intros sd. do 2 eexists. vm_compute. repeat split; reflexivity. Qed.
Print Assumptions C17_stray_exponent_refuted.

(* non-vacuity: a document with every kind of token *)
Definition ex_data : list Z := Eval vm_compute in str "{ " ++ 34 :: str "a\n\u00Ff" ++ 34 :: str ": [-12, 0xFf, 0d10, -1.5, 2.25e-3, 7E2,true ,false,null" ++ 10 :: str "]}".
Definition ex_sd (s : list Z) : Z := zlen s.
Definition ex_tokens : list (Z * stoken) := Eval vm_compute in
  [(0, SChar T_LBRACE); (2, SString (str "a\n\u00Ff")); (13, SChar T_COLON); (15, SChar T_LBRACKET); (16, SInteger ((- 12) mod 2 ^ 64)); (19, SChar T_COMMA);
   (21, SInteger 255); (25, SChar T_COMMA); (27, SDecimal 16); (31, SChar T_COMMA); (33, SDecimal (ex_sd (str "-1.5"))); (37, SChar T_COMMA);
   (39, SDecimal (ex_sd (str "2.25e-3"))); (46, SChar T_COMMA); (48, SDecimal (ex_sd (str "7E2"))); (51, SChar T_COMMA); (52, SWord T_TRUE); (57, SChar T_COMMA);
   (58, SWord T_FALSE); (63, SChar T_COMMA); (64, SWord T_NULL); (69, SChar T_RBRACKET); (70, SChar T_RBRACE)].
Lemma lay : forall sd p w k s r ks text p1 p2, Forall white w -> spelled sd k s -> may_follow k r -> text = w ++ s ++ r -> p1 = p + zlen w -> p2 = p1 + zlen s ->
  layout sd p2 r ks -> layout sd p text ((p1, k) :: ks).
Proof. intros sd p w k s r ks text p1 p2 H1 H2 H3 -> -> -> H4. apply lay_token; assumption. Qed.
Ltac chs := repeat (apply Forall_cons; [unfold white, digit; lia|]); apply Forall_nil.
Ltac alone := cbn [may_follow]; do 2 eexists; split; [reflexivity|unfold digit, letter; lia].
Ltac tok w s rst p2 := apply (lay ex_sd _ w _ s rst _ _ _ p2); [chs| | |reflexivity|reflexivity|reflexivity|].
Ltac ch w rst p2 := match goal with |- layout _ _ (?x ++ _) _ => idtac | |- layout _ _ ?t ((_, SChar ?k) :: _) =>
  match k with
  | T_LBRACE => tok w [123] rst p2 | T_RBRACE => tok w [125] rst p2 | T_LBRACKET => tok w [91] rst p2
  | T_RBRACKET => tok w [93] rst p2 | T_COMMA => tok w [44] rst p2 | T_COLON => tok w [58] rst p2 end; [apply sp_char; constructor|exact I|] end.
Definition rest (n : nat) : list Z := skipn n ex_data.
Ltac chn w n := let r := eval vm_compute in (rest (Z.to_nat n)) in ch w r n.
Ltac tokn w s n := let r := eval vm_compute in (rest (Z.to_nat n)) in let s' := eval vm_compute in s in tok w s' r n.
Example C17_has_layout : layout ex_sd 0 ex_data ex_tokens.
Proof.
  unfold ex_data, ex_tokens. chn (@nil Z) 1.
  tokn [32] (34 :: str "a\n\u00Ff" ++ [34]) 13.
  { apply (sp_string ex_sd [97; 92; 110; 92; 117; 48; 48; 70; 102]). apply sc_plain; [lia|lia|]. apply (sc_escape 110); [cbn; auto 10|].
    apply (sc_unicode 48 48 70 102 []); try (unfold hexdigit, digit; lia). constructor. }
  { exact I. }
  chn (@nil Z) 14. chn [32] 16.
  tokn (@nil Z) (str "-12") 19. { apply (sp_neg ex_sd [49; 50] 12); [discriminate|reflexivity]. } { alone. }
  chn (@nil Z) 20.
  tokn [32] (str "0xFf") 25. { apply (sp_hex ex_sd [70; 102] 255); [discriminate|reflexivity]. } { alone. }
  chn (@nil Z) 26.
  tokn [32] (str "0d10") 31. { apply (sp_bits ex_sd [49; 48] 16); [discriminate|reflexivity]. } { alone. }
  chn (@nil Z) 32.
  tokn [32] (str "-1.5") 37. { apply (sp_fraction ex_sd [45] [49] [53] []); [auto|discriminate|chs|chs|constructor]. } { alone. }
  chn (@nil Z) 38.
  tokn [32] (str "2.25e-3") 46.
  { apply (sp_fraction ex_sd [] [50] [50; 53] (101 :: [45] ++ [51])); [auto|discriminate|chs|chs|]. apply (ex_some 101 [45] [51]); [auto|auto|chs|discriminate]. }
  { alone. }
  chn (@nil Z) 47.
  tokn [32] (str "7E2") 51.
  { apply (sp_exponent ex_sd [] [55] (69 :: [] ++ [50])); [auto|discriminate|chs| |discriminate]. apply (ex_some 69 [] [50]); [auto|auto|chs|discriminate]. }
  { alone. }
  chn (@nil Z) 52.
  tokn (@nil Z) (str "true") 56. { apply sp_word. apply w_true. } { exact I. }
  chn [32] 58.
  tokn (@nil Z) (str "false") 63. { apply sp_word. apply w_false. } { exact I. }
  chn (@nil Z) 64.
  tokn (@nil Z) (str "null") 68. { apply sp_word. apply w_null. } { exact I. }
  chn [10] 70. chn (@nil Z) 71. apply lay_end. constructor.
Qed.
Example C17_example : exists ts c, lex_all (S (length ex_data)) ex_sd ex_data (JSONContext 0) = Ok (ts, c) /\ length ts = 23%nat /\ no_error c.
Proof. do 2 eexists. vm_compute. repeat split; reflexivity. Qed.
Example C16_not_cut : ~ cut_exponent (str " 1.5 ") /\ cut_exponent (str " -1.5E").
Proof.
  split.
  - intros [w [sign [ds [fs [e [H [_ [_ [_ [_ [_ He]]]]]]]]]]]. apply (f_equal (@rev Z)) in H. rewrite !app_assoc in H. cbn [rev] in H.
    replace (((w ++ sign) ++ ds) ++ 46 :: fs ++ [e]) with ((((w ++ sign) ++ ds) ++ 46 :: fs) ++ [e]) in H by (rewrite <- app_assoc; reflexivity).
    rewrite rev_app_distr in H. vm_compute in H. inversion H. lia.
  - exists [32], [45], [49], [53], 69. split; [reflexivity|]. split; [chs|]. split; [auto|]. split; [discriminate|]. split; [chs|]. split; [chs|auto].
Qed.
