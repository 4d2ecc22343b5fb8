(* Names with nested template arguments: the proofs behind MapFileProps. *)
From Verif Require Import Base BaseProofs Text FileUtilsModel FileUtilsSpec FileUtilsProofs Maps DatabaseModel MapFileModel MapFileSpec MapNameProofs.

Lemma count_app : forall c a b, count c (a ++ b) = (count c a + count c b)%nat.
Proof. intros. apply count_occ_app. Qed.
Lemma count_cons : forall c x a, count c (x :: a) = ((if Z.eq_dec x c then 1 else 0) + count c a)%nat.
Proof. intros. unfold count. cbn [count_occ]. destruct (Z.eq_dec x c); reflexivity. Qed.
Lemma count_none : forall c a, ~ In c a -> count c a = 0%nat.
Proof. intros. apply count_occ_not_In. assumption. Qed.
Lemma count_zero : forall c a, count c a = 0%nat -> ~ In c a.
Proof. intros c a H. apply count_occ_not_In in H. exact H. Qed.
(* the first occurrence of c *)
Lemma split_first : forall c x j, count c x = S j -> exists a y, x = a ++ c :: y /\ ~ In c a /\ count c y = j.
Proof.
  induction x as [|d x IH]; intros j H; [discriminate|]. rewrite count_cons in H. destruct (Z.eq_dec d c) as [->|N].
  - exists [], x. split; [reflexivity|]. split; [intros []|lia].
  - destruct (IH j H) as [a [y [-> [A C]]]]. exists (d :: a), y. split; [reflexivity|]. split; [intros [X|X]; contradiction|exact C].
Qed.
(* the last one *)
Lemma split_last : forall c x j, count c x = S j -> exists y a, x = y ++ c :: a /\ ~ In c a /\ count c y = j.
Proof.
  induction x as [|d x IH]; intros j H; [discriminate|]. rewrite count_cons in H. destruct (count c x) as [|i] eqn:Q.
  - destruct (Z.eq_dec d c) as [->|N]; [|discriminate]. exists [], x. split; [reflexivity|]. split; [apply count_zero; exact Q|cbn; lia].
  - destruct (IH i eq_refl) as [y [a [-> [A C]]]]. exists (d :: y), a. split; [reflexivity|]. split; [exact A|]. rewrite count_cons. lia.
Qed.
(* nested lists: everything that opens stands before everything that closes *)
Lemma nested_split : forall c, nested c -> exists x y, c = x ++ y /\ ~ In 62 x /\ ~ In 60 y /\ ~ In 40 (x ++ y) /\ count 60 x = count 62 y.
Proof.
  induction 1 as [t [F1 [F2 F3]]|a c b [A1 [A2 A3]] Hc IH [B1 [B2 B3]]].
  - exists t, []. rewrite app_nil_r. split; [reflexivity|]. split; [exact F2|]. split; [intros []|]. split; [exact F3|]. rewrite (count_none 60 t F1). reflexivity.
  - destruct IH as [x [y [-> [X [Y [Z0 C]]]]]]. exists (a ++ 60 :: x), (y ++ 62 :: b). split; [cbn; rewrite <- !app_assoc; reflexivity|].
    split; [rewrite ?in_app_iff; cbn [In]; rewrite ?in_app_iff; cbn [In]; intuition lia|]. split; [rewrite ?in_app_iff; cbn [In]; rewrite ?in_app_iff; cbn [In]; intuition lia|]. rewrite in_app_iff in Z0. split; [rewrite ?in_app_iff; cbn [In]; rewrite ?in_app_iff; cbn [In]; intuition lia|].
    rewrite !count_app, !count_cons, (count_none 60 a A1), (count_none 62 b B2), C. cbn. lia.
Qed.

Lemma replaced_prepend : forall o D u w t, replaced o D w t -> (forall u1 u2 r, u = u1 ++ u2 -> u2 <> [] -> u2 ++ w <> o ++ r) -> replaced o D (u ++ w) (u ++ t).
Proof.
  induction u as [|c u IH]; intros w t R N; [exact R|]. cbn [app]. constructor.
  - intros r E. apply (N [] (c :: u) r eq_refl); [discriminate|exact E].
  - apply IH; [exact R|]. intros u1 u2 r E X. apply (N (c :: u1) u2 r); [cbn; congruence|exact X].
Qed.
(* the innermost list occurs once only *)
Lemma replaced_once : forall u m v D, ~ In 60 m -> ~ In 62 m -> (forall u1 z, u = u1 ++ 60 :: z -> ~ In 62 z) -> ~ In 60 v ->
  replaced (60 :: m ++ [62]) D (u ++ (60 :: m ++ [62]) ++ v) (u ++ D ++ v).
Proof.
  intros u m v D M1 M2 HU V. apply replaced_prepend.
  - constructor. apply replaced_same. intros [a [b E]]. apply V. rewrite E. apply in_or_app. right. left. reflexivity.
  - intros u1 u2 r Eu Nu X. destruct u2 as [|c z]; [congruence|]. pose proof (f_equal (hd 0) X) as Xc. cbn [hd app] in Xc. apply (f_equal (@tl Z)) in X. cbn [tl app] in X. subst c.
    pose proof (HU u1 z Eu) as Nz. rewrite <- !app_assoc in X. cbn [app] in X.
    (* z ++ 60 :: m ++ 62 :: v = m ++ 62 :: r *)
    destruct (Nat.lt_trichotomy (length z) (length m)) as [L|[L|L]].
    + assert (Q : nth_error (z ++ 60 :: m ++ 62 :: v) (length z) = Some 60) by (rewrite nth_error_app2 by lia; rewrite Nat.sub_diag; reflexivity). rewrite X, nth_error_app1 in Q by lia. apply nth_error_In in Q. contradiction.
    + destruct (app_eq_len _ z _ m _ X L) as [_ Q]. discriminate.
    + assert (Q : nth_error (m ++ 62 :: r) (length m) = Some 62) by (rewrite nth_error_app2 by lia; rewrite Nat.sub_diag; reflexivity). rewrite <- X, nth_error_app1 in Q by lia. apply nth_error_In in Q. contradiction.
Qed.

Section Nest.
Variable ds : list Z.
Hypothesis Hds : Forall isdig ds.
Variables ret na nb R : list Z.
Hypothesis ret60 : ~ In 60 ret.
Hypothesis na60 : ~ In 60 na.
Hypothesis nb60 : ~ In 60 nb.
Hypothesis R60 : ~ In 60 R.
Hypothesis na62 : ~ In 62 na.
Definition whole (n : list Z) : list Z := ret ++ n ++ 40 :: R.
Definition nest (x y : list Z) : list Z := na ++ 60 :: x ++ y ++ 62 :: nb.

(* one list is taken out *)
Lemma nest_step : forall fuel s0 st limit u m v, inv ds s0 st (whole (u ++ (60 :: m ++ [62]) ++ v)) -> ~ In 60 m -> ~ In 62 m -> ~ In 60 v -> ~ In 62 u ->
  match limit with None => True | Some l => (length (ret ++ u) <= l)%nat end ->
  replace_pattern (S fuel) (whole (u ++ (60 :: m ++ [62]) ++ v)) st (base ds) (str "<") (str ">") limit =
  replace_pattern fuel (whole (u ++ word ds (zlen st) ++ v)) ((60 :: m ++ [62], word ds (zlen st)) :: st) (base ds) (str "<") (str ">") (match length (ret ++ u) with O => None | S p => Some p end) /\
  inv ds s0 ((60 :: m ++ [62], word ds (zlen st)) :: st) (whole (u ++ word ds (zlen st) ++ v)) /\
  RestoreReplacedString (u ++ word ds (zlen st) ++ v) ((60 :: m ++ [62], word ds (zlen st)) :: st) = RestoreReplacedString (u ++ (60 :: m ++ [62]) ++ v) st.
Proof.
  intros fuel s0 st limit u m v I M1 M2 V U L. set (o := 60 :: m ++ [62]) in *. set (s := whole (u ++ o ++ v)) in *.
  assert (Es : s = (ret ++ u) ++ 60 :: m ++ 62 :: v ++ 40 :: R) by (unfold s, whole, o; rewrite <- !app_assoc; cbn [app]; rewrite <- !app_assoc; reflexivity).
  assert (RF : string_rfind s (str "<") limit = Some (length (ret ++ u))).
  { unfold string_rfind. rewrite Es. rewrite (rfind_char 60 (ret ++ u)); [reflexivity| |exact L]. rewrite ?in_app_iff; cbn [In]; rewrite ?in_app_iff; cbn [In]; intuition lia. }
  assert (FF : string_find s (str ">") (length (ret ++ u) + length (str "<")) = Some (length (ret ++ u) + 1 + length m)%nat).
  { rewrite Es. replace ((ret ++ u) ++ 60 :: m ++ 62 :: v ++ 40 :: R) with (((ret ++ u) ++ [60]) ++ m ++ 62 :: v ++ 40 :: R) by (rewrite <- app_assoc; reflexivity).
    replace (length (ret ++ u) + length (str "<"))%nat with (length ((ret ++ u) ++ [60])) by (rewrite app_length; reflexivity). rewrite string_find_char by exact M2. f_equal. rewrite (app_length (ret ++ u)). reflexivity. }
  assert (G : good o) by (exists 60, m, 62; unfold o, opener; auto).
  assert (Hst : zlen st < 10 ^ 9) by (pose proof (inv_budget _ _ _ _ I); pose proof (budget_nonneg s); lia).
  destruct (occurrence_ok ds Hds s0 st s o G I Hst) as [t [E1 [RP [C [F K]]]]]. pose proof (zlen_nonneg _ st) as P.
  assert (RW : replaced o (word ds (zlen st)) s (whole (u ++ word ds (zlen st) ++ v))).
  { unfold s, whole. replace (ret ++ (u ++ o ++ v) ++ 40 :: R) with ((ret ++ u) ++ o ++ v ++ 40 :: R) by (rewrite <- !app_assoc; reflexivity).
    replace (ret ++ (u ++ word ds (zlen st) ++ v) ++ 40 :: R) with ((ret ++ u) ++ word ds (zlen st) ++ v ++ 40 :: R) by (rewrite <- !app_assoc; reflexivity).
    apply replaced_once; [exact M1|exact M2| |rewrite ?in_app_iff; cbn [In]; rewrite ?in_app_iff; cbn [In]; intuition lia]. intros u1 z E Z0.
    destruct (Nat.ltb_spec (length u1) (length ret)) as [Y|Y].
    - apply ret60. assert (Q : nth_error (ret ++ u) (length u1) = Some 60) by (rewrite E, nth_error_app2 by lia; rewrite Nat.sub_diag; reflexivity). rewrite nth_error_app1 in Q by lia. apply nth_error_In in Q. exact Q.
    - apply U. assert (Q : skipn (length ret) (ret ++ u) = u) by apply skipn_app_exact'. rewrite <- Q, E, skipn_app. apply in_or_app. right. replace (length ret - length u1)%nat with 0%nat by lia. right. exact Z0. }
  assert (Et : t = whole (u ++ word ds (zlen st) ++ v)) by (symmetry; apply (replaced_fun o (word ds (zlen st)) s _ RW (good_ne o G) t RP)). subst t.
  split.
  - cbn [replace_pattern]. rewrite RF, FF.
    replace (firstn (length (ret ++ u) + 1 + length m + length (str ">") - length (ret ++ u)) (skipn (length (ret ++ u)) s)) with o.
    + rewrite E1. cbn [obind fst snd]. reflexivity.
    + rewrite Es, skipn_app_exact'. change (60 :: m ++ 62 :: v ++ 40 :: R) with ((60 :: m) ++ [62] ++ v ++ 40 :: R). rewrite app_assoc. symmetry. apply firstn_app_exact'. change (length (str ">")) with 1%nat. unfold o. cbn [app length]. rewrite !app_length. cbn [length]. lia.
  - split.
    + split; [exact C|rewrite zlen_cons, Z.add_comm; exact F|exact K|]. rewrite zlen_cons. pose proof (budget_lt ds Hds (str "<") o (m ++ str ">") (zlen st) s _ ltac:(cbn; auto) ltac:(lia) eq_refl RP).
      pose proof (inv_budget _ _ _ _ I). assert (O : occurs o s) by (exists (ret ++ u), (v ++ 40 :: R); unfold s, whole; rewrite <- !app_assoc; reflexivity). specialize (H O). lia.
    + cbn [RestoreReplacedString]. destruct (ReplaceAll_ok (u ++ word ds (zlen st) ++ v) (word ds (zlen st)) o (word_ne ds _)) as [n1 [E3 R3]]. rewrite E3. cbn [obind].
      assert (RB : replaced (word ds (zlen st)) o (u ++ word ds (zlen st) ++ v) (u ++ o ++ v)).
      { apply replaced_back; [|apply r_not_in_W; [exact Hds|lia]|].
        - apply replaced_once; try assumption. intros u1 z E Z0. apply U. rewrite E. apply in_or_app. right. right. exact Z0.
        - intros [a [b E]]. apply (fresh_no ds (zlen st) s (inv_fresh _ _ _ _ I) ltac:(lia)). exists (ret ++ a), (b ++ 40 :: R). unfold s, whole. rewrite E. unfold word. rewrite <- !app_assoc. reflexivity. }
      assert (En : n1 = u ++ o ++ v) by (symmetry; apply (replaced_fun _ _ _ _ RB (word_ne ds _) n1 R3)). subst n1. reflexivity.
Qed.
Lemma nest_end : forall fuel st limit n, ~ In 60 n -> replace_pattern (S fuel) (whole n) st (base ds) (str "<") (str ">") limit = Ok (whole n, st).
Proof. intros fuel st limit n N. cbn [replace_pattern]. unfold string_rfind, whole. rewrite (rfind_char_none 60); [reflexivity|]. rewrite !in_app_iff; cbn; intuition lia. Qed.
Definition limit_ok (x : list Z) (limit : option nat) : Prop := match limit with None => True | Some l => forall x1 a, 60 :: x = x1 ++ 60 :: a -> (length (ret ++ na ++ x1) <= l)%nat end.
Lemma nest_loop : forall j fuel s0 st limit x y, count 60 x = j -> count 62 y = j -> ~ In 62 x -> ~ In 60 y -> inv ds s0 st (whole (nest x y)) ->
  limit_ok x limit -> (j + 1 < fuel)%nat ->
  exists w st' k, replace_pattern fuel (whole (nest x y)) st (base ds) (str "<") (str ">") limit = Ok (whole (na ++ w ++ nb), st') /\ w = word ds k /\ 0 <= k < 10 ^ 9 /\
    RestoreReplacedString (na ++ w ++ nb) st' = RestoreReplacedString (nest x y) st.
Proof.
  induction j as [|j IH]; intros fuel s0 st limit x y CX CY X Y I L Hf; (destruct fuel as [|fuel]; [lia|]).
  - assert (E : nest x y = na ++ (60 :: (x ++ y) ++ [62]) ++ nb) by (unfold nest; cbn [app]; rewrite <- !app_assoc; reflexivity). rewrite E in *.
    pose proof (zlen_nonneg _ st). pose proof (inv_budget _ _ _ _ I) as IB. pose proof (budget_nonneg (whole (na ++ (60 :: (x ++ y) ++ [62]) ++ nb))).
    destruct (nest_step fuel s0 st limit na (x ++ y) nb I) as [E1 [_ E3]]; try assumption; try (rewrite in_app_iff; pose proof (count_zero _ _ CX); pose proof (count_zero _ _ CY); tauto); [|].
    { destruct limit as [l|]; [|exact Logic.I]. specialize (L [] x eq_refl). rewrite app_nil_r in L. exact L. }
    exists (word ds (zlen st)). eexists. exists (zlen st). rewrite E1. destruct fuel as [|fuel]; [lia|]. rewrite nest_end. { split; [reflexivity|]. split; [reflexivity|]. split; [lia|exact E3]. }
    rewrite !in_app_iff. pose proof (special_word ds Hds (zlen st) 60 ltac:(lia) ltac:(cbn; auto)). tauto.
  - destruct (split_last 60 x j CX) as [x1 [a [-> [A C1]]]]. destruct (split_first 62 y j CY) as [b [y1 [-> [B C2]]]].
    rewrite in_app_iff in X, Y. cbn in X, Y.
    assert (E : nest (x1 ++ 60 :: a) (b ++ 62 :: y1) = (na ++ 60 :: x1) ++ (60 :: (a ++ b) ++ [62]) ++ (y1 ++ 62 :: nb)) by (unfold nest; do 3 (rewrite <- ?app_assoc; cbn [app]); reflexivity). rewrite E in *.
    pose proof (zlen_nonneg _ st). pose proof (inv_budget _ _ _ _ I) as IB. pose proof (budget_nonneg (whole ((na ++ 60 :: x1) ++ (60 :: (a ++ b) ++ [62]) ++ (y1 ++ 62 :: nb)))).
    destruct (nest_step fuel s0 st limit (na ++ 60 :: x1) (a ++ b) (y1 ++ 62 :: nb) I) as [E1 [I1 E3]].
    1-4: rewrite ?in_app_iff; cbn [In]; intuition lia.
    { destruct limit as [l|]; [|exact Logic.I]. exact (L (60 :: x1) a eq_refl). }
    rewrite E1, <- E3. assert (E4 : (na ++ 60 :: x1) ++ word ds (zlen st) ++ y1 ++ 62 :: nb = nest (x1 ++ word ds (zlen st)) y1) by (unfold nest; do 3 (rewrite <- ?app_assoc; cbn [app]); reflexivity). rewrite E4 in *.
    assert (W60 : ~ In 60 (word ds (zlen st))) by (apply special_word; [exact Hds|lia|cbn; auto]). assert (W62 : ~ In 62 (word ds (zlen st))) by (apply special_word; [exact Hds|lia|cbn; auto 10]).
    apply (IH fuel s0); try assumption.
    + rewrite count_app, (count_none 60 _ W60). lia.
    + rewrite in_app_iff. tauto.
    + tauto.
    + destruct (length (ret ++ na ++ 60 :: x1)) as [|p] eqn:Q; [exact Logic.I|]. intros x2 a2 E2. rewrite !app_length in *. cbn [length] in Q.
      destruct (Nat.le_gt_cases (length x2) (length x1)) as [Y2|Y2]; [lia|]. exfalso. apply W60. change (60 :: x1 ++ word ds (zlen st)) with ((60 :: x1) ++ word ds (zlen st)) in E2.
      assert (Z2 : nth_error ((60 :: x1) ++ word ds (zlen st)) (length x2) = Some 60) by (rewrite E2, nth_error_app2 by lia; rewrite Nat.sub_diag; reflexivity).
      rewrite nth_error_app2 in Z2 by (cbn [length]; lia). apply nth_error_In in Z2. exact Z2.
    + lia.
Qed.
End Nest.

Lemma no_occ : forall c pat s, In c pat -> ~ In c s -> ~ occurs pat s.
Proof. intros c pat s H N [a [b ->]]. apply N. apply in_or_app. right. apply in_or_app. left. exact H. Qed.
(* a pattern that does not occur is not replaced *)
Lemma pattern_none : forall s st b left right, ~ occurs left s -> ReplacePattern s st b left right = Ok (s, st).
Proof.
  intros s st b left right N. unfold ReplacePattern. cbn [replace_pattern]. destruct (string_rfind s left None) as [p|] eqn:E; [|reflexivity].
  exfalso. unfold string_rfind in E. apply rfind_some in E. destruct E as [a [c [E _]]]. apply N. exists a, c. exact E.
Qed.
Lemma parse_nested : forall rnd ret na c nb R, (forall k, 0 <= rnd k < 10) ->
  let n := na ++ str "<" ++ c ++ str ">" ++ nb in let s := ret ++ n ++ str "(" ++ R in
  closers_ok s -> zlen s < 3 * 10 ^ 8 -> ret = [] \/ (exists r, ret = r ++ [32]) -> (forall r, ret <> r ++ str "operator ") ->
  flat ret -> flat na -> nested c -> flat nb -> ~ In 32 na -> ~ In 32 nb -> (forall r, nb <> r ++ [38]) ->
  ~ In 60 R -> ~ In 40 R -> (forall r, R <> str "anonymous namespace)" ++ r) ->
  ParseFunctionName rnd s = Ok n.
Proof.
  intros rnd ret na c nb R Hr n s C L HR NO [R1 [R2 R3]] [A1 [A2 A3]] Hc [B1 [B2 B3]] A32 B32 B38 R60 R40 NA.
  destruct (nested_split c Hc) as [x [y [-> [X [Y [Z0 Ck]]]]]]. assert (En : n = nest na nb x y) by (unfold n, nest; rewrite <- !app_assoc; reflexivity).
  assert (Es : s = whole ret R n) by reflexivity.
  assert (N40 : ~ In 40 (ret ++ n)) by (rewrite En; unfold nest; rewrite in_app_iff in Z0; rewrite ?in_app_iff; cbn [In]; rewrite ?in_app_iff; cbn [In]; intuition lia).
  assert (Np : forall a b, s = a ++ 40 :: b -> a = ret ++ n /\ b = R).
  { intros a b E. assert (E' : (ret ++ n) ++ 40 :: R = a ++ 40 :: b) by (rewrite <- E; unfold s; rewrite <- app_assoc; reflexivity).
    destruct (Nat.lt_trichotomy (length a) (length (ret ++ n))) as [Q|[Q|Q]].
    - exfalso. apply N40. assert (W : nth_error (a ++ 40 :: b) (length a) = Some 40) by (rewrite nth_error_app2 by lia; rewrite Nat.sub_diag; reflexivity). rewrite <- E', nth_error_app1 in W by lia. apply nth_error_In in W. exact W.
    - destruct (app_eq_len _ _ _ _ _ E' (eq_sym Q)) as [W1 W2]. split; [symmetry; exact W1|congruence].
    - exfalso. apply R40. assert (W : nth_error (a ++ 40 :: b) (length a) = Some 40) by (rewrite nth_error_app2 by lia; rewrite Nat.sub_diag; reflexivity). rewrite <- E', nth_error_app2 in W by lia.
      destruct (length a - length (ret ++ n))%nat as [|q] eqn:Qq; [lia|]. cbn in W. apply nth_error_In in W. exact W. }
  destruct (FindRandom_ok rnd s Hr) as [ds [Hd [E N]]]. unfold ParseFunctionName. rewrite E. cbn [obind].
  destruct (anon_inv ds s Hd N C L) as [t [E1 [T1 I1]]]. fold ANON. rewrite E1. cbn [obind fst snd].
  assert (Et : t = s). { apply (replaced_whole ANON (word ds 0) s t); [discriminate| |exact T1]. intros [a [b Q]]. destruct (Np a (str "anonymous namespace)" ++ b) Q) as [_ Q2]. apply (NA b). symmetry. exact Q2. }
  subst t. rewrite pattern_none.
  2:{ intros [a [b Q]]. assert (Q' : s = (a ++ [38]) ++ 40 :: b) by (rewrite <- app_assoc; exact Q). destruct (Np _ _ Q') as [Q2 _]. unfold n in Q2.
      destruct nb as [|z nb'] using rev_ind.
      - rewrite app_nil_r in Q2. rewrite !app_assoc in Q2. apply app_inj_tail in Q2. destruct Q2 as [_ Q2]. discriminate.
      - apply (B38 nb'). clear IHnb'. rewrite !app_assoc in Q2. apply app_inj_tail in Q2. destruct Q2 as [_ <-]. reflexivity. }
  cbn [obind fst snd]. rewrite pattern_none.
  2:{ intros [a [b Q]]. destruct (Np a (str "*)(" ++ b) Q) as [_ Q2]. apply R40. rewrite <- Q2. right. right. left. reflexivity. }
  cbn [obind fst snd]. unfold ReplacePattern.
  assert (CX : (length s > count 60 x + 1)%nat).
  { unfold s, n. rewrite !app_length. cbn [length str]. pose proof (count_occ_bound Z.eq_dec 60 x). unfold count. cbn. rewrite ?app_length. cbn. lia. }
  destruct (nest_loop ds Hd ret na nb R R1 A1 B1 R60 A2 (count 60 x) (S (length s)) s [(ANON, word ds 0)] None x y eq_refl (eq_sym Ck) X Y) as [w [st' [k [E5 [Ew [Hk E6]]]]]].
  - rewrite <- En, <- Es. exact I1.
  - exact I.
  - lia.
  - rewrite <- En, <- Es in E5. rewrite E5. cbn [obind fst snd]. unfold whole. rewrite cut_name_exact.
    + rewrite E6. cbn [RestoreReplacedString]. rewrite <- En. destruct (ReplaceAll_ok n (word ds 0) ANON (word_ne ds _)) as [n1 [E7 T7]]. rewrite E7. cbn [obind].
      apply replaced_whole in T7; [subst n1; reflexivity|apply word_ne|]. intros [a [b Q]]. apply N. rewrite <- word_eq, <- app_assoc in Q. exists (ret ++ a), (itoa 0 ++ b ++ 40 :: R). rewrite Es. unfold whole. rewrite Q, <- !app_assoc. reflexivity.
    + rewrite Ew, !in_app_iff. pose proof (special_word ds Hd k 40 Hk ltac:(cbn; auto)). tauto.
    + rewrite Ew, !in_app_iff. pose proof (special_word ds Hd k 32 Hk ltac:(cbn; auto 10)). tauto.
    + exact HR.
    + exact NO.
Qed.
