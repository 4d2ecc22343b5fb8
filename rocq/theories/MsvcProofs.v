(* Proofs about the reader of MSVC maps. *)
From Verif Require Import Base BaseProofs Text HashModel HashSpec Maps FileUtilsModel FileUtilsSpec FileUtilsProofs DatabaseModel MapFileModel MapFileSpec MapNameProofs MapParamProofs MapTableProofs MsvcModel MsvcSpec.

Lemma take_ok : forall tok rest delim size, Forall (fun c => c <> delim /\ c <> 0) tok -> (forall c r, rest = c :: r -> c = delim) -> zlen tok < size -> take_token (tok ++ rest) delim size = Ok (rest, tok).
Proof.
  intros tok rest delim size T R S. pose proof (zlen_nonneg Z tok). assert (E : zlen (repeat 0 (Z.to_nat size)) = size) by (unfold zlen; rewrite repeat_length; lia).
  destruct (consume_ok tok rest delim (repeat 0 (Z.to_nat size)) T R) as (dest & C & Q & _); [lia|]. rewrite E in C. unfold take_token. rewrite C. cbn [obind fst snd]. rewrite Q. reflexivity.
Qed.
Lemma take_long : forall tok rest delim size, Forall (fun c => c <> delim) tok -> 0 <= size <= zlen tok -> take_token (tok ++ rest) delim size = UB.
Proof.
  intros tok rest delim size T S. assert (E : zlen (repeat 0 (Z.to_nat size)) = size) by (unfold zlen; rewrite repeat_length; lia).
  pose proof (consume_long tok rest delim (repeat 0 (Z.to_nat size)) T ltac:(lia)) as C. rewrite E in C. unfold take_token. rewrite C. reflexivity.
Qed.
Lemma hextoi_range : forall s, 0 <= hextoi s < 2 ^ 32.
Proof.
  assert (G : forall s v, 0 <= v < 2 ^ 32 -> 0 <= fold_left (fun val c => u32 (u32 (val * 16) + hex_char c)) s v < 2 ^ 32).
  { induction s as [|c s IH]; intros v H; [exact H|]. cbn [fold_left]. apply IH. unfold u32. apply Z.mod_pos_bound. lia. }
  intros s. apply G. lia.
Qed.
Lemma field_range : forall line a, ParseAddressField line = Ok a -> 0 <= a < 2 ^ 32.
Proof.
  intros line a H. unfold ParseAddressField in H. destruct (take_token _ _ _) as [[r t]| | |]; cbn [obind fst snd] in H; try discriminate.
  destruct (SkipWhitespace r) as [|c r']; [injection H as <-; lia|]. destruct (c =? 102); injection H as <-; [apply hextoi_range|lia].
Qed.
Lemma has_true : forall s pat, has s pat = true <-> exists a b, s = a ++ pat ++ b.
Proof.
  intros s pat. unfold has. destruct (string_find s pat 0) as [j|] eqn:E.
  - split; [|reflexivity]. intros _. apply string_find_some in E. destruct E as (a & b & E & _). eauto.
  - split; [discriminate|]. intros (a & b & H). apply (string_find_none _ _ _ E) in H. lia.
Qed.
Lemma load_known : forall line b, b <> 0 -> load_address line b = Ok b.
Proof. intros line b H. unfold load_address. destruct (Z.eqb_spec b 0); [contradiction|]. reflexivity. Qed.
Lemma load_absent : forall line b, (forall x y, line <> x ++ load_words ++ y) -> load_address line b = Ok b.
Proof.
  intros line b H. unfold load_address. destruct (has line load_words) eqn:E; [|rewrite andb_false_r; reflexivity]. apply has_true in E. destruct E as (x & y & E). destruct (H x y E).
Qed.
Lemma load_here : forall c hex v rest, hex_number hex = Some v -> zlen hex < 32 -> (forall x r, rest = x :: r -> x = 13) -> load_address (c :: load_words ++ hex ++ rest) 0 = Ok (v mod 2 ^ 64).
Proof.
  intros c hex v rest H L R. unfold load_address. cbn [Z.eqb andb]. replace (has (c :: load_words ++ hex ++ rest) load_words) with true by (symmetry; apply has_true; exists [c], (hex ++ rest); reflexivity).
  assert (N : (length (c :: load_words ++ hex ++ rest) <? 27)%nat = false) by (apply Nat.ltb_ge; cbn; lia). rewrite N. change (skipn 27 (c :: load_words ++ hex ++ rest)) with (hex ++ rest).
  rewrite take_ok; [|clear - H|exact R|exact L].
  - cbn [obind snd]. rewrite (hextoi64_ok hex v H). reflexivity.
  - unfold hex_number in H. revert H. generalize 0 at 1. induction hex as [|x hex IH]; intros acc H; [constructor|]. cbn [number] in H. destruct (hex_digit x) as [n|] eqn:E; [|discriminate]. constructor; [|exact (IH _ H)].
    unfold hex_digit in E. destruct (Z.leb_spec 48 x); cbn [andb] in E; [split; lia|]. destruct (Z.leb_spec 97 x); [lia|]. destruct (Z.leb_spec 65 x); [lia|]. discriminate E.
Qed.

Section Msvc.
Variables (uname usig : list Z -> list Z).
Lemma symbol_exact : forall d token line d', msvc_symbol uname usig d token line = Ok (Some d') -> exists a, (same_tables d d' \/ ParseAddressField line = Ok a) /\ touched a d d'.
Proof.
  intros d token line d' H. unfold msvc_symbol in H. cbv zeta in H.
  assert (N : forall d1, same_tables d d1 -> exists a, (same_tables d d1 \/ ParseAddressField line = Ok a) /\ touched a d d1) by (intros d1 S; exists 0; split; [auto|apply touched_not; exact S]).
  destruct (IsConstructFunction _); [|destruct (IsDestructFunction _); [|destruct (IsGetTypeFunction _); [|destruct (IsGetTypeNameHashFunction _)]]].
  1,2: destruct (UndecorateFunctionSignature usig token) as [s| | |]; cbn [obind] in H; try discriminate; destruct (ParseAddressField line) as [a| | |] eqn:A; cbn [obind] in H; try discriminate;
    (destruct (AddClassImplFunction d s a _) as [d1| | |] eqn:C; cbn [obind] in H; try discriminate); injection H as <-; exists a; split; [right; reflexivity|exact (class_touched _ _ _ _ _ C)].
  1,2: destruct (ParseAddressField line) as [a| | |] eqn:A; cbn [obind] in H; try discriminate;
    (destruct (AddGetTypeAddress d _ a _) as [d1| | |] eqn:C; cbn [obind] in H; try discriminate); injection H as <-; exists a; split; [right; reflexivity|exact (type_touched _ _ _ _ _ C)].
  destruct (HashNameString _ 0) as [h| | |]; cbn [obind] in H; try discriminate. destruct (m_find h (d_functions d)); [|injection H as <-; apply N, same_refl].
  destruct (UndecorateFunctionSignature usig token) as [s| | |]; cbn [obind] in H; try discriminate. destruct (ParseAddressField line) as [a| | |] eqn:A; cbn [obind] in H; try discriminate.
  destruct (string_find s (uname token) 0) as [p|]; [|discriminate]. destruct (MatchParameter d s _) as [[[[q th] r] d1]| | |] eqn:M; cbn [obind] in H; try discriminate.
  destruct (AddFunctionAddress d1 _ _ _ _ _) as [[b d2]| | |] eqn:F; cbn [obind snd] in H; try discriminate. injection H as <-. exists a. split; [right; reflexivity|].
  assert (S : same_tables d d1).
  { unfold MatchParameter in M. destruct (match_loop _ _ _ _ _ _) as [[[[t q'] th'] r']| | |]; try discriminate. cbn [obind] in M. destruct (db_GetName d t) as [y| | |] eqn:G; try discriminate. cbn [obind] in M. injection M as _ _ _ <-. exact (get_name_same _ _ _ G). }
  apply (touched_same a d d1 d2 S). apply add_touched in F. cbn [fst snd] in F. destruct b; [exact F|apply touched_not; exact F].
Qed.
Lemma symbol_touched : forall d token line d', msvc_symbol uname usig d token line = Ok (Some d') -> exists a, 0 <= a < 2 ^ 32 /\ touched a d d'.
Proof.
  intros d token line d' H. destruct (symbol_exact _ _ _ _ H) as (a & [S|A] & T); [exists 0; split; [lia|apply touched_not; exact S]|exists a; split; [exact (field_range _ _ A)|exact T]].
Qed.
Lemma line_touched : forall d l d' rest, msvc_line uname usig d l = Ok (Some d', rest) -> exists a, 0 <= a < 2 ^ 32 /\ touched a d d'.
Proof.
  intros d l d' rest H. unfold msvc_line in H. destruct (take_token (SkipWhitespace l) 32 1024) as [[r1 t1]| | |]; cbn [obind fst snd] in H; try discriminate.
  destruct (take_token (SkipWhitespace r1) 32 1024) as [[r2 t2]| | |]; cbn [obind fst snd] in H; try discriminate. destruct (msvc_symbol uname usig d t2 r2) as [[d1|]| | |] eqn:S; cbn [obind] in H; try discriminate. injection H as <- _.
  exact (symbol_touched _ _ _ _ S).
Qed.
Lemma kept_same : forall d, functions_kept d d.
Proof. intros d. split; [auto|]. split; [intros h f H; exists (fn_address f); destruct f; exact H|apply incl_refl]. Qed.
Lemma kept_then : forall a b c, functions_kept a b -> functions_kept b c -> functions_kept a c.
Proof.
  intros a b c (H1 & H2 & H3) (K1 & K2 & K3). split; [|split].
  - intros h f I. destruct (K1 h f I) as [J|J]; [exact (H1 h f J)|right; exact J].
  - intros h f I. destruct (H2 h f I) as (x & J). destruct (K2 h _ J) as (y & K). exists y. exact K.
  - intros x I. apply K3, H3, I.
Qed.
Lemma touched_kept : forall a d d', 0 <= a < 2 ^ 32 -> touched a d d' -> functions_kept d d'.
Proof.
  intros a d d' R T. destruct (touched_functions _ _ _ T) as [A B]. split; [|split; [exact B|]].
  - intros h f I. destruct (A h f I) as [J|[-> J]]; [left; exact J|right; lia].
  - destruct T as [(_ & -> & _)|? ? _ _ -> _|? ? _ _ -> _ _|? ? ? ? _ _ _ F _]; try apply incl_refl. intros x Hx. apply (added_In _ _ _ _ _ F). auto.
Qed.
Lemma lines_kept : forall ls public d b d' b', msvc_lines uname usig ls public d b = Ok (d', b') -> functions_kept d d'.
Proof.
  intros ls. induction ls as [ls IH] using (well_founded_induction (well_founded_ltof _ (@length _))). unfold ltof in IH. intros public d b d' b' H. destruct ls as [|l r]; cbn [msvc_lines] in H; [injection H as <- _; apply kept_same|].
  destruct public.
  - destruct (msvc_line uname usig d l) as [[[d1|] rest]| | |] eqn:L; cbn [obind] in H; try discriminate; [|injection H as <- _; apply kept_same].
    destruct (load_address rest b) as [b1| | |]; cbn [obind] in H; try discriminate. apply IH in H; [|cbn; lia]. apply line_touched in L. destruct L as (a & R & T). exact (kept_then _ _ _ (touched_kept _ _ _ R T) H).
  - destruct (has l (str "  Address")).
    + destruct r as [|n r]; [injection H as <- _; apply kept_same|]. destruct (load_address n b) as [b1| | |]; cbn [obind] in H; try discriminate. apply IH in H; [exact H|cbn; lia].
    + destruct (load_address l b) as [b1| | |]; cbn [obind] in H; try discriminate. apply IH in H; [exact H|cbn; lia].
Qed.
Lemma base_kept : forall ls public d b d' b', b <> 0 -> msvc_lines uname usig ls public d b = Ok (d', b') -> b' = b.
Proof.
  intros ls. induction ls as [ls IH] using (well_founded_induction (well_founded_ltof _ (@length _))). unfold ltof in IH. intros public d b d' b' N H. destruct ls as [|l r]; cbn [msvc_lines] in H; [congruence|].
  destruct public.
  - destruct (msvc_line uname usig d l) as [[[d1|] rest]| | |] eqn:L; cbn [obind] in H; try discriminate; [|congruence]. rewrite load_known in H by exact N. cbn [obind] in H. apply IH in H; [exact H|cbn; lia|exact N].
  - destruct (has l (str "  Address")).
    + destruct r as [|n r]; [congruence|]. rewrite load_known in H by exact N. cbn [obind] in H. apply IH in H; [exact H|cbn; lia|exact N].
    + rewrite load_known in H by exact N. cbn [obind] in H. apply IH in H; [exact H|cbn; lia|exact N].
Qed.
Lemma skip_silent : forall before rest d b, Forall silent before -> msvc_lines uname usig (before ++ rest) false d b = msvc_lines uname usig rest false d b.
Proof.
  induction before as [|l before IH]; intros rest d b F; [reflexivity|]. inversion F as [|? ? [S1 S2] F']; subst. cbn [app msvc_lines]. destruct (has l (str "  Address")) eqn:E; [apply has_true in E; destruct E as (x & y & E); destruct (S2 x y E)|].
  rewrite (load_absent l b S1). cbn [obind]. apply IH. exact F'.
Qed.
Lemma parse_lines : forall file ls d, lines file ls -> ParseMSVCMapFile uname usig file d = msvc_lines uname usig (map (firstn 4095) ls) false d 0.
Proof. intros file ls d H. unfold ParseMSVCMapFile. assert (lines_length : (length ls <= length file)%nat) by (clear d; induction H as [|l r ls N H IH]; [cbn; lia|rewrite app_length; cbn [length]; lia]). rewrite (ReadLines_ok _ _ H) by lia. reflexivity. Qed.
End Msvc.
Lemma skip_suffix : forall l, exists a, l = a ++ SkipWhitespace l.
Proof. induction l as [|c l (a & IH)]; [exists []; reflexivity|]. cbn [SkipWhitespace]. destruct (_ || _); [exists (c :: a); cbn [app]; rewrite <- IH; reflexivity|exists []; reflexivity]. Qed.
Lemma skip_blanks : forall s r, Forall (fun c => c = 32 \/ c = 9) s -> (forall c t, r = c :: t -> c <> 32 /\ c <> 9) -> SkipWhitespace (s ++ r) = r.
Proof.
  induction s as [|c s IH]; intros r F R; cbn [app].
  - destruct r as [|c r]; [reflexivity|]. destruct (R c r eq_refl). cbn [SkipWhitespace]. destruct (Z.eqb_spec c 32); [contradiction|]. destruct (Z.eqb_spec c 9); [contradiction|]. reflexivity.
  - inversion F; subst. cbn [SkipWhitespace]. replace ((c =? 32) || (c =? 9)) with true by (symmetry; apply orb_true_iff; lia). apply IH; assumption.
Qed.
