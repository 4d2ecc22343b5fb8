From Verif Require Import Base BaseProofs Text HashModel HashSpec Maps FileUtilsModel FileUtilsSpec DatabaseModel MapFileModel MapFileSpec
  MapNameProofs MapNestProofs MapParamProofs MapTableProofs MapSafeProofs MacModel MacSpec FileUtilsProofs.

Lemma has_spec : forall s p, has s p = true <-> exists a b, s = a ++ p ++ b.
Proof.
  intros s p. unfold has. split.
  - destruct (string_find s p 0) as [q |] eqn:E; [| discriminate]. intros _. apply string_find_some in E. destruct E as (a & b & E & _). exists a, b. exact E.
  - intros (a & b & E). destruct (string_find s p 0) eqn:F; [reflexivity |]. pose proof (string_find_none _ _ _ F a b E). lia.
Qed.
Lemma no_heading : forall l, ~ heading l -> has l (str "# Sections:") = false /\ has l (str "# Symbols:") = false.
Proof.
  intros l N. split; [destruct (has l (str "# Sections:")) eqn:E | destruct (has l (str "# Symbols:")) eqn:E]; auto; apply has_spec in E; exfalso; apply N; [left | right]; exact E.
Qed.
Lemma starts_spec : forall n p, startswith n p = true <-> exists r, n = p ++ r.
Proof.
  intros n p. split.
  - unfold startswith. intros H. destruct (string_find n p 0) as [[| q] |] eqn:E; try discriminate. apply string_find_some in E. destruct E as [a [b [E [La _]]]]. destruct a; [| discriminate]. exists b. exact E.
  - intros [r ->]. unfold startswith. rewrite find_prefix. reflexivity.
Qed.
Lemma lines_len : forall f ls, lines f ls -> (length ls <= length f)%nat.
Proof. induction 1 as [| l r ls N H IH]; [cbn; lia |]. rewrite app_length. cbn [length]. lia. Qed.

Section Mac.
Variables (scan_section : list Z -> option (Z * list Z * list Z)) (scan_symbol : list Z -> option (Z * list Z)) (demangle : list Z -> option (list Z)).
Variable rnd : nat -> nat -> Z.
Notation lines_of := (mac_lines scan_section scan_symbol demangle rnd).

Lemma before_lines : forall before n rest d b, Forall (fun l => ~ heading l) before -> lines_of n (before ++ rest) NoRegion d b = lines_of (n + length before) rest NoRegion d b.
Proof.
  induction before as [| l before IH]; intros n rest d b F; cbn [app length]; [rewrite Nat.add_0_r; reflexivity |]. inversion F; subst. destruct (no_heading _ H1) as (A & B).
  cbn [mac_lines obind fst snd]. rewrite A, B, IH by assumption. rewrite Nat.add_succ_r, Nat.add_succ_l. reflexivity.
Qed.
Definition is_text (l : list Z) : Prop := exists a g, scan_section l = Some (a, g, str "__text").
Lemma section_ok : forall l b, (forall a g s, scan_section l = Some (a, g, s) -> zlen g < 1024 /\ zlen s < 1024) ->
  exists b', section_line scan_section l b = Ok b' /\ ((exists g, scan_section l = Some (b', g, str "__text")) \/ b' = b /\ forall a g, scan_section l <> Some (a, g, str "__text")).
Proof.
  intros l b F. unfold section_line. destruct (scan_section l) as [((a, g), s) |] eqn:E.
  - destruct (F _ _ _ eq_refl) as (G1 & G2). replace ((1024 <=? zlen g) || (1024 <=? zlen s)) with false by (symmetry; apply orb_false_iff; split; lia).
    destruct (list_eqb s (str "__text")) eqn:L.
    + apply list_eqb_eq in L. subst s. exists a. split; [reflexivity |]. left. eauto.
    + exists b. split; [reflexivity |]. right. split; [reflexivity |]. intros a' g' X. injection X as _ _ ->. assert (Y : list_eqb (str "__text") (str "__text") = true) by (apply list_eqb_eq; reflexivity). congruence.
  - exists b. split; [reflexivity |]. right. split; [reflexivity | discriminate].
Qed.
Lemma text_more : forall l b b1 ls b2, ((exists g, scan_section l = Some (b1, g, str "__text")) \/ b1 = b /\ forall a g, scan_section l <> Some (a, g, str "__text")) ->
  text_address scan_section b1 ls b2 -> text_address scan_section b (l :: ls) b2.
Proof.
  intros l b b1 ls b2 H T. destruct T as [ls N | before m after a g E N].
  - destruct H as [(g & E) | (-> & M)].
    + exact (text_last scan_section b [] l ls b1 g E N).
    + apply text_none. intros k a g [<- | X]; [apply M | exact (N k a g X)].
  - exact (text_last scan_section b (l :: before) m after a g E N).
Qed.
Lemma section_lines : forall ls n rest d b, Forall (fun l => ~ heading l) ls -> (forall l a g s, In l ls -> scan_section l = Some (a, g, s) -> zlen g < 1024 /\ zlen s < 1024) ->
  exists b', text_address scan_section b ls b' /\ lines_of n (ls ++ rest) SectionRegion d b = lines_of (n + length ls) rest SectionRegion d b'.
Proof.
  induction ls as [| l ls IH]; intros n rest d b F G; cbn [app length].
  - exists b. rewrite Nat.add_0_r. split; [apply text_none; intros ? ? ? [] | reflexivity].
  - inversion F; subst. destruct (no_heading _ H1) as (A & B). destruct (section_ok l b) as (b1 & E & T); [intros; eapply G; [left; reflexivity | eassumption] |].
    destruct (IH (S n) rest d b1 H2) as (b2 & T2 & E2); [intros; eapply G; [right; eassumption | eassumption] |]. exists b2. split; [exact (text_more _ _ _ _ _ T T2) |].
    cbn [mac_lines]. rewrite E. cbn [obind fst snd]. rewrite A, B, E2, Nat.add_succ_r, Nat.add_succ_l. reflexivity.
Qed.
Lemma text_snoc : forall l b b1 b2 ls, text_address scan_section b ls b1 -> ((exists g, scan_section l = Some (b2, g, str "__text")) \/ b2 = b1 /\ forall a g, scan_section l <> Some (a, g, str "__text")) ->
  text_address scan_section b (ls ++ [l]) b2.
Proof.
  intros l b b1 b2 ls T [(g & E) | (-> & M)].
  - apply (text_last scan_section b ls l [] b2 g E). intros ? ? ? [].
  - destruct T as [ls N | before m after a g E N].
    + apply text_none. intros k a g X. apply in_app_or in X. destruct X as [X | [<- | []]]; [exact (N k a g X) | apply M].
    + rewrite <- app_assoc. cbn [app]. apply (text_last scan_section b before m (after ++ [l]) a g E). intros k a' g' X. apply in_app_or in X. destruct X as [X | [<- | []]]; [exact (N k a' g' X) | apply M].
Qed.
Lemma symbol_same : forall r d l, (forall a s, scan_symbol l = Some (a, s) -> zlen s < 1024) -> mac_symbol_line scan_symbol demangle r d l = symbol_line (symbol_of scan_symbol) demangle r d l.
Proof.
  intros r d l F. unfold mac_symbol_line, symbol_line, symbol_of. destruct (scan_symbol l) as [(a, s) |] eqn:E; [| reflexivity]. specialize (F _ _ eq_refl). replace (1024 <=? zlen s) with false by (symmetry; apply Z.leb_gt; exact F).
  destruct (startswith s (str "__")) eqn:S.
  - apply starts_spec in S. destruct S as (q & ->). change (str "__" ++ q) with (95 :: 95 :: q). cbn [skipn]. change (95 =? 95) with true. cbn [andb].
    assert (Z1 : 1024 <=? zlen (95 :: q) = false) by (apply Z.leb_gt; revert F; unfold zlen; cbn [app length]; change (str "__" ++ q) with (95 :: 95 :: q); cbn [length]; lia). rewrite Z1. reflexivity.
  - destruct s as [| c1 [| c2 q]]; try reflexivity. destruct ((c1 =? 95) && (c2 =? 95)) eqn:C; [| reflexivity]. exfalso. apply andb_true_iff in C. destruct C as (C1 & C2). apply Z.eqb_eq in C1, C2. subst.
    assert (X : startswith (95 :: 95 :: q) (str "__") = true) by (apply starts_spec; exists q; reflexivity). congruence.
Qed.
Lemma symbol_lines : forall ls n d b, Forall (fun l => ~ heading l) ls -> (forall l a s, In l ls -> scan_symbol l = Some (a, s) -> zlen s < 1024) ->
  lines_of n ls SymbolRegion d b = linux_lines (symbol_of scan_symbol) (fun _ => None) demangle rnd n ls true d b.
Proof.
  induction ls as [| l ls IH]; intros n d b F G; [reflexivity |]. inversion F; subst. destruct (no_heading _ H1) as (A & B). cbn [mac_lines linux_lines]. rewrite symbol_same by (intros; eapply G; [left; reflexivity | eassumption]).
  destruct (symbol_line (symbol_of scan_symbol) demangle (rnd n) d l) as [d1 | | |]; cbn [obind fst snd]; try reflexivity. rewrite A, B. apply IH; [assumption | intros; eapply G; [right; eassumption | eassumption]].
Qed.
Lemma mac_parse : forall file first ls d, lines file (first :: ls) -> (exists r, firstn 4095 first = str "# Path:" ++ r) ->
  ParseMacMapFile scan_section scan_symbol demangle rnd file d = lines_of 0 (map (firstn 4095) ls) NoRegion d 0.
Proof.
  intros file first ls d HL HF. remember (first :: ls) as fl eqn:Efl. destruct HL as [| l rest ls' N1 HL]; [discriminate |]. injection Efl as -> ->.
  unfold ParseMacMapFile, ReadLine. rewrite read_line_ok by exact N1. cbn [rev app length]. rewrite Nat.sub_0_r. apply starts_spec in HF. rewrite HF. pose proof (lines_len _ _ HL). rewrite (ReadLines_ok _ _ HL) by lia. reflexivity.
Qed.
Lemma mac_read : forall file first ls d before s1 s2 sections y1 y2 symbols, lines file (first :: ls) -> (exists r, firstn 4095 first = str "# Path:" ++ r) ->
  mac_map (map (firstn 4095) ls) before s1 s2 sections y1 y2 symbols -> names_fit scan_section scan_symbol (sections ++ [y1]) symbols ->
  exists n base, text_address scan_section 0 (sections ++ [y1]) base /\
    ParseMacMapFile scan_section scan_symbol demangle rnd file d = linux_lines (symbol_of scan_symbol) (fun _ => None) demangle rnd n symbols true d base.
Proof.
  intros * HL HF [M1 M2 [M3 M4] [M5 [M6 M7]]] [N1 N2]. rewrite (mac_parse _ _ _ _ HL HF), M1, before_lines by exact M2. cbn [mac_lines obind fst snd].
  apply has_spec in M3. rewrite M3. destruct (section_lines sections (S (S (0 + length before))) (y1 :: y2 :: symbols) d 0 M4) as (b1 & T1 & E1); [intros; eapply N1; [apply in_or_app; left; eassumption | eassumption] |].
  rewrite E1. destruct (section_ok y1 b1) as (b2 & E2 & T2); [intros; eapply N1; [apply in_or_app; right; left; reflexivity | eassumption] |]. cbn [mac_lines]. rewrite E2. cbn [obind fst snd].
  assert (H1 : has y1 (str "# Sections:") = false) by (destruct (has y1 (str "# Sections:")) eqn:X; [apply has_spec in X; contradiction | reflexivity]). apply has_spec in M5. rewrite H1, M5. eexists; exists b2. split; [exact (text_snoc _ _ _ _ _ T1 T2) |].
  apply symbol_lines; assumption.
Qed.
(* without a heading of symbols *)
Lemma region_end : forall ls n reg d b x, reg <> SymbolRegion -> Forall (fun l => ~ symbols_heading l) ls -> lines_of n ls reg d b = Ok x -> fst x = d.
Proof.
  intros ls. remember (length ls) as k. assert (L : (length ls <= k)%nat) by lia. clear Heqk. revert ls L. induction k as [| k IH]; intros ls L n reg d b x R F E; destruct ls as [| l ls]; cbn [length] in L; try lia; cbn [mac_lines] in E; try (injection E as <-; reflexivity).
  inversion F; subst. assert (B : has l (str "# Symbols:") = false) by (destruct (has l (str "# Symbols:")) eqn:X; [apply has_spec in X; contradiction | reflexivity]). rewrite B in E.
  assert (Y : forall y, match reg with SectionRegion => do b0 <- section_line scan_section l b; Ok (d, b0) | SymbolRegion => do d0 <- mac_symbol_line scan_symbol demangle (rnd n) d l; Ok (d0, b) | NoRegion => Ok (d, b) end = Ok y -> fst y = d).
  { intros y Q. destruct reg; [injection Q as <-; reflexivity | | contradiction]. destruct (section_line scan_section l b); try discriminate Q. cbn [obind] in Q. injection Q as <-. reflexivity. }
  destruct (match reg with SectionRegion => _ | SymbolRegion => _ | NoRegion => _ end) as [y | | |] eqn:Q; try discriminate E. cbn [obind] in E. specialize (Y _ eq_refl). destruct (has l (str "# Sections:")).
  - destruct ls as [| l2 ls]; [injection E as <-; exact Y |]. inversion H2; subst. cbn [length] in L. apply IH in E; [exact E | lia | discriminate | assumption].
  - apply IH in E; [congruence | lia | exact R | exact H2].
Qed.
End Mac.
