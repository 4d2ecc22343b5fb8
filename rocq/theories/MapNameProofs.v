From Verif Require Import Base BaseProofs Text FileUtilsModel FileUtilsSpec FileUtilsProofs Maps DatabaseModel MapFileModel MapFileSpec.

Lemma firstn_app_exact' : forall A (a b : list A) n, n = length a -> firstn n (a ++ b) = a.
Proof. intros A a b n ->. rewrite firstn_app, Nat.sub_diag, firstn_O, app_nil_r, firstn_all. reflexivity. Qed.
Lemma skipn_app_exact' : forall A (a b : list A), skipn (length a) (a ++ b) = b.
Proof. intros A a b. rewrite skipn_app, Nat.sub_diag, skipn_all. reflexivity. Qed.

Lemma app_eq_len : forall A (a b c d : list A), a ++ b = c ++ d -> length a = length c -> a = c /\ b = d.
Proof.
  induction a as [|x a IH]; intros b c d E L; destruct c as [|y c]; try discriminate; [split; [reflexivity|exact E]|]. cbn in E. injection E as <- E. injection L as L. destruct (IH b c d E L) as [-> ->]. split; reflexivity.
Qed.
Lemma skipn_add : forall A n m (l : list A), skipn n (skipn m l) = skipn (m + n) l.
Proof. induction m as [|m IH]; intros l; [reflexivity|]. destruct l; [cbn; apply skipn_nil|]. apply IH. Qed.

(* ---- searching ---- *)
Lemma replace_all_eq : forall fuel s src dst i, replace_all fuel s src dst i = replace_loop fuel s src dst i.
Proof. induction fuel as [|n IH]; intros; [reflexivity|]. cbn [replace_all replace_loop]. destruct (string_find s src i); [apply IH|reflexivity]. Qed.
Lemma ReplaceAll_ok : forall s src dst, src <> [] -> exists r, ReplaceAll s src dst = Ok r /\ replaced src dst s r.
Proof. intros s src dst H. unfold ReplaceAll. rewrite replace_all_eq. apply (replace_ok (S (length s)) src dst s H). lia. Qed.

Definition occurs (pat s : list Z) : Prop := exists a b, s = a ++ pat ++ b.
Lemma is_prefix_false : forall p s, is_prefix p s = false -> forall r, s <> p ++ r.
Proof. intros p s H r ->. rewrite is_prefix_app in H. discriminate. Qed.

Lemma find_from_none : forall s pat pos, find_from s pat pos = None -> ~ occurs pat s.
Proof.
  induction s as [|c s IH]; intros pat pos H [a [b E]]; cbn [find_from] in H; destruct (is_prefix pat _) eqn:P; try discriminate.
  - destruct a; [|discriminate]. cbn in E. apply (is_prefix_false _ _ P b). exact E.
  - destruct a as [|x a]; [apply (is_prefix_false _ _ P b); exact E|]. injection E as <- E. apply (IH pat (S pos) H). exists a, b. exact E.
Qed.
Lemma find_from_some : forall s pat pos j, find_from s pat pos = Some j -> exists a b, s = a ++ pat ++ b /\ j = (pos + length a)%nat /\
  (forall a1 a2, a = a1 ++ a2 -> a2 <> [] -> is_prefix pat (a2 ++ pat ++ b) = false).
Proof.
  induction s as [|c s IH]; intros pat pos j H; cbn [find_from] in H; destruct (is_prefix pat _) eqn:P; try discriminate.
  - injection H as <-. apply is_prefix_spec in P. destruct P as [r E]. exists [], r. split; [exact E|]. split; [cbn; lia|]. intros a1 a2 X N. destruct a1, a2; [congruence|discriminate..].
  - injection H as <-. apply is_prefix_spec in P. destruct P as [r E]. exists [], r. split; [exact E|]. split; [cbn; lia|]. intros a1 a2 X N. destruct a1, a2; [congruence|discriminate..].
  - apply IH in H. destruct H as [a [b [E [J M]]]]. exists (c :: a), b. split; [cbn; congruence|]. split; [cbn; lia|]. intros a1 a2 X N.
    destruct a1 as [|x a1]; cbn in X; [subst a2; cbn [app]; rewrite <- E; exact P|]. injection X as <- X. apply (M a1 a2 X N).
Qed.
Lemma rfind_some : forall s pat pos limit j, rfind_from s pat pos limit = Some j -> exists a b, s = a ++ pat ++ b /\ j = (pos + length a)%nat /\
  match limit with None => True | Some l => (j <= l)%nat end /\
  (forall a' b', s = a' ++ pat ++ b' -> match limit with None => True | Some l => (pos + length a' <= l)%nat end -> (length a' <= length a)%nat).
Proof.
  induction s as [|c s IH]; intros pat pos limit j H; cbn [rfind_from] in H.
  - destruct (is_prefix pat []) eqn:P; cbn [andb] in H; [|discriminate]. destruct (match limit with None => true | Some l => (pos <=? l)%nat end) eqn:L; [|discriminate]. injection H as <-.
    apply is_prefix_spec in P. destruct P as [r E]. exists [], r. split; [exact E|]. split; [cbn; lia|]. split.
    + destruct limit; [apply Nat.leb_le; exact L|exact I].
    + intros a' b' E' _. destruct a'; [cbn; lia|discriminate].
  - destruct (rfind_from s pat (S pos) limit) as [p|] eqn:R.
    + injection H as <-. apply IH in R. destruct R as [a [b [E [J [L M]]]]]. exists (c :: a), b. split; [cbn; congruence|]. split; [cbn; lia|]. split; [exact L|].
      intros a' b' E' L'. destruct a' as [|x a']; [cbn; lia|]. injection E' as <- E'. cbn [length]. specialize (M a' b' E'). cbn [length] in L'. destruct limit; [specialize (M ltac:(lia))|specialize (M I)]; lia.
    + destruct (is_prefix pat (c :: s)) eqn:P; cbn [andb] in H; [|discriminate]. destruct (match limit with None => true | Some l => (pos <=? l)%nat end) eqn:L; [|discriminate]. injection H as <-.
      apply is_prefix_spec in P. destruct P as [r E]. exists [], r. split; [exact E|]. split; [cbn; lia|]. split; [destruct limit; [apply Nat.leb_le; exact L|exact I]|].
      intros a' b' E' L'. destruct a' as [|x a']; [cbn; lia|]. exfalso. injection E' as <- E'. cbn [length] in L'.
      assert (X : forall s pos limit, rfind_from s pat pos limit = None -> forall a' b', s = a' ++ pat ++ b' -> match limit with None => True | Some l => (pos + length a' <= l)%nat end -> False).
      { clear. induction s as [|c s IH]; intros pos limit H a' b' E L; cbn [rfind_from] in H.
        - destruct a'; [|discriminate]. cbn in E. rewrite E in H. rewrite is_prefix_app in H. cbn [andb] in H. destruct limit as [l|]; [|discriminate]. cbn in L. replace (pos <=? l)%nat with true in H by (symmetry; apply Nat.leb_le; lia). discriminate.
        - destruct (rfind_from s pat (S pos) limit) eqn:R; [discriminate|]. destruct a' as [|x a'].
          + cbn in E. rewrite E, is_prefix_app in H. cbn [andb] in H. destruct limit as [l|]; [|discriminate]. cbn in L. replace (pos <=? l)%nat with true in H by (symmetry; apply Nat.leb_le; lia). discriminate.
          + injection E as <- E. apply (IH (S pos) limit R a' b' E). destruct limit; [cbn in L; lia|exact I]. }
      apply (X s (S pos) limit R a' b' E'). destruct limit; [lia|exact I].
Qed.
Lemma rfind_none : forall s pat pos limit, rfind_from s pat pos limit = None -> forall a b, s = a ++ pat ++ b -> match limit with None => False | Some l => (l < pos + length a)%nat end.
Proof.
  induction s as [|c s IH]; intros pat pos limit H a b E; cbn [rfind_from] in H.
  - destruct a; [|discriminate]. cbn in E. rewrite E, is_prefix_app in H. cbn [andb] in H. destruct limit as [l|]; [|discriminate]. destruct (Nat.leb_spec pos l); [discriminate|]. cbn. lia.
  - destruct (rfind_from s pat (S pos) limit) eqn:R; [discriminate|]. destruct a as [|x a].
    + cbn in E. rewrite E, is_prefix_app in H. cbn [andb] in H. destruct limit as [l|]; [|discriminate]. destruct (Nat.leb_spec pos l); [discriminate|]. cbn. lia.
    + injection E as <- E. specialize (IH pat (S pos) limit R a b E). destruct limit; [cbn; lia|exact IH].
Qed.
Lemma string_find_some : forall s pat i j, string_find s pat i = Some j -> exists a b, s = a ++ pat ++ b /\ j = length a /\ (i <= j)%nat /\
  (forall a1 a2, a = a1 ++ a2 -> (i <= length a1)%nat -> a2 <> [] -> is_prefix pat (a2 ++ pat ++ b) = false).
Proof.
  intros s pat i j H. unfold string_find in H. destruct (Nat.ltb_spec (length s) i) as [L|L]; [discriminate|]. apply find_from_some in H. destruct H as [a [b [E [J M]]]].
  assert (F : length (firstn i s) = i) by (rewrite firstn_length; lia).
  exists (firstn i s ++ a), b. split; [rewrite <- app_assoc, <- E; symmetry; apply firstn_skipn|]. rewrite app_length. split; [lia|]. split; [lia|].
  intros a1 a2 X Hi N. assert (Y : exists z, a = z ++ a2 /\ a1 = firstn i s ++ z).
  { exists (skipn i a1). assert (E1 : firstn i s = firstn i a1). { apply (f_equal (firstn i)) in X. rewrite firstn_app, F, Nat.sub_diag, firstn_O, app_nil_r in X. rewrite firstn_firstn, Nat.min_id in X. rewrite X. rewrite firstn_app. replace (i - length a1)%nat with 0%nat by lia. rewrite firstn_O, app_nil_r. reflexivity. }
    assert (E2 : a1 = firstn i s ++ skipn i a1) by (rewrite E1; symmetry; apply firstn_skipn). split; [|exact E2]. rewrite E2, <- app_assoc in X. apply app_inv_head in X. exact X. }
  destruct Y as [z [Y _]]. apply (M z a2 Y N).
Qed.
Lemma string_find_none : forall s pat i, string_find s pat i = None -> forall a b, s = a ++ pat ++ b -> (length a < i)%nat.
Proof.
  intros s pat i H a b E. unfold string_find in H. destruct (Nat.ltb_spec (length s) i) as [L|L].
  - subst s. rewrite !app_length in L. lia.
  - apply find_from_none in H. destruct (Nat.ltb_spec (length a) i) as [C|C]; [exact C|]. exfalso. apply H. exists (skipn i a), b. subst s. rewrite skipn_app. replace (i - length a)%nat with 0%nat by lia. reflexivity.
Qed.

(* ---- replacing text by a fresh word ---- *)
(* the first characters of a text in which nothing was put are those of the text before *)
Lemma replaced_head : forall pat h D s t u v, replaced pat (h :: D) s t -> t = u ++ v -> ~ In h u -> exists v0, s = u ++ v0 /\ replaced pat (h :: D) v0 v.
Proof.
  intros pat h D s t u. revert s t. induction u as [|c u IH]; intros s t v R E N.
  - cbn in E. subst v. exists s. split; [reflexivity|exact R].
  - inversion R as [E1 E2|s' r R' E1 E2|c' s' r M R' E1 E2]; subst.
    + discriminate.
    + injection E2 as E2 E3. exfalso. apply N. left. congruence.
    + injection E2 as -> E2. destruct (IH s' r v R' E2) as [v0 [-> R0]]; [intros X; apply N; right; exact X|]. exists v0. split; [reflexivity|exact R0].
Qed.
Lemma replaced_back : forall pat h D s t, replaced pat (h :: D) s t -> ~ In h D -> ~ occurs (h :: D) s -> replaced (h :: D) pat t s.
Proof.
  intros pat h D s t R N. induction R as [|s t R IH|c s t M R IH]; intros O.
  - constructor.
  - constructor. apply IH. intros [a [b E]]. apply O. exists (pat ++ a), b. rewrite E, <- app_assoc. reflexivity.
  - constructor.
    + intros v E. injection E as -> E. destruct (replaced_head _ _ _ _ _ _ _ R E N) as [v0 [-> _]]. apply O. exists [], v0. reflexivity.
    + apply IH. intros [a [b E]]. apply O. exists (c :: a), b. rewrite E. reflexivity.
Qed.
(* text can be cut next to a character that is not in the pattern *)
Lemma prefix_cut : forall (D a : list Z) c b s, a ++ c :: b = D ++ s -> ~ In c D -> exists a', a = D ++ a' /\ s = a' ++ c :: b.
Proof.
  induction D as [|d D IH]; intros a c b s E N; [exists a; split; [reflexivity|symmetry; exact E]|].
  destruct a as [|x a]; cbn in E; injection E as E1 E2; [exfalso; apply N; left; congruence|]. subst x. destruct (IH a c b s E2) as [a' [-> ->]]; [intros X; apply N; right; exact X|]. exists a'. split; reflexivity.
Qed.
Lemma replaced_cut : forall D o s t, replaced D o s t -> forall a c b, s = a ++ c :: b -> ~ In c D -> D <> [] ->
  exists t1 t2, t = t1 ++ c :: t2 /\ replaced D o a t1 /\ replaced D o b t2.
Proof.
  intros D o s t R. induction R as [|s t R IH|x s t M R IH]; intros a c b E N ND.
  - destruct a; discriminate.
  - symmetry in E. apply prefix_cut in E; [|exact N]. destruct E as [a' [-> ->]]. destruct (IH a' c b eq_refl N ND) as [t1 [t2 [-> [R1 R2]]]]. exists (o ++ t1), t2. split; [apply app_assoc|]. split; [constructor; exact R1|exact R2].
  - destruct a as [|y a]; cbn in E; injection E as -> E.
    + subst s. exists [], t. split; [reflexivity|]. split; [constructor|exact R].
    + subst s. destruct (IH a c b eq_refl N ND) as [t1 [t2 [-> [R1 R2]]]]. exists (y :: t1), t2. split; [reflexivity|]. split; [|exact R2]. constructor; [|exact R1]. intros u E. apply (M (u ++ c :: b)). rewrite app_assoc, <- E. reflexivity.
Qed.
Lemma replaced_same : forall pat rep s, ~ occurs pat s -> replaced pat rep s s.
Proof.
  induction s as [|c s IH]; intros H; constructor.
  - intros t E. apply H. exists [], t. exact E.
  - apply IH. intros [a [b E]]. apply H. exists (c :: a), b. rewrite E. reflexivity.
Qed.
Lemma replaced_fwd : forall h o D u v t, replaced (h :: o) D (u ++ v) t -> ~ In h u -> exists t', t = u ++ t' /\ replaced (h :: o) D v t'.
Proof.
  induction u as [|c u IH]; intros v t R N; [exists t; split; [reflexivity|exact R]|]. remember ((c :: u) ++ v) as s eqn:E. destruct R as [|s r R|x s r M R].
  - discriminate.
  - cbn in E. injection E as E _. exfalso. apply N. left. congruence.
  - injection E as -> ->. destruct (IH v r R) as [t' [-> R2]]; [intros X; apply N; right; exact X|]. exists t'. split; [reflexivity|exact R2].
Qed.

(* ---- counting occurrences ---- *)
Fixpoint occ (pat s : list Z) : nat := match s with [] => 0%nat | c :: r => ((if is_prefix pat (c :: r) then 1 else 0) + occ pat r)%nat end.
Lemma occ_length : forall pat s, (occ pat s <= length s)%nat.
Proof. induction s as [|c s IH]; cbn [occ length]; [lia|]. destruct (is_prefix pat (c :: s)); lia. Qed.
Lemma occ_skip : forall h p u v, ~ In h u -> occ (h :: p) (u ++ v) = occ (h :: p) v.
Proof.
  induction u as [|c u IH]; intros v N; [reflexivity|]. cbn [app occ]. rewrite IH by (intros X; apply N; right; exact X). destruct (is_prefix (h :: p) (c :: u ++ v)) eqn:P; [|reflexivity].
  cbn in P. exfalso. apply N. left. lia.
Qed.
Lemma occ_app : forall p u v, (occ p v <= occ p (u ++ v))%nat.
Proof. induction u as [|c u IH]; intros v; [cbn; lia|]. cbn [app occ]. specialize (IH v). lia. Qed.
Section Occ.
Variables (h : Z) (p : list Z) (o : list Z) (r : Z) (W : list Z).
Hypothesis h_word : ~ In h (r :: W).
Hypothesis r_pat : ~ In r (h :: p).
Lemma occ_le : forall s t, replaced o (r :: W) s t -> (occ (h :: p) t <= occ (h :: p) s)%nat.
Proof.
  intros s t R. induction R as [|s t R IH|c s t M R IH].
  - cbn. lia.
  - rewrite occ_skip by exact h_word. pose proof (occ_app (h :: p) o s). lia.
  - cbn [occ]. destruct (is_prefix (h :: p) (c :: t)) eqn:P; [|lia]. apply is_prefix_spec in P. destruct P as [v P].
    assert (R' : replaced o (r :: W) (c :: s) (c :: t)) by (constructor; assumption). destruct (replaced_head _ _ _ _ _ _ _ R' P r_pat) as [v0 [E _]]. rewrite E, is_prefix_app. lia.
Qed.
Lemma occ_lt : forall o', o = (h :: p) ++ o' -> forall s t, replaced o (r :: W) s t -> occurs o s -> (occ (h :: p) t < occ (h :: p) s)%nat.
Proof.
  intros o' Eo s t R. induction R as [|s t R IH|c s t M R IH]; intros O.
  - destruct O as [a [b E]]. rewrite Eo in E. destruct a; discriminate.
  - rewrite occ_skip by exact h_word. pose proof (occ_le s t R). rewrite Eo. change (((h :: p) ++ o') ++ s) with (h :: ((p ++ o') ++ s)). cbn [occ].
    change (h :: (p ++ o') ++ s) with (((h :: p) ++ o') ++ s). rewrite <- app_assoc, is_prefix_app. pose proof (occ_app (h :: p) (p ++ o') s). lia.
  - assert (O' : occurs o s). { destruct O as [a [b E]]. destruct a as [|x a]; [exfalso; apply (M b); exact E|]. injection E as <- E. exists a, b. exact E. }
    specialize (IH O'). cbn [occ]. destruct (is_prefix (h :: p) (c :: t)) eqn:P; [|lia]. apply is_prefix_spec in P. destruct P as [v P].
    assert (R' : replaced o (r :: W) (c :: s) (c :: t)) by (constructor; assumption). destruct (replaced_head _ _ _ _ _ _ _ R' P r_pat) as [v0 [E _]]. rewrite E, is_prefix_app. lia.
Qed.
End Occ.

(* ---- fresh words ---- *)
Definition isdig (c : Z) : Prop := 48 <= c <= 57.
Definition wordch (c : Z) : Prop := In c (str "?An_D") \/ isdig c.
Definition nodigit (y : list Z) : Prop := match y with c :: _ => ~ isdig c | [] => True end.
Lemma wordch_not : forall c, wordch c -> c <> 114 /\ c <> 40 /\ c <> 41 /\ c <> 60 /\ c <> 62 /\ c <> 38 /\ c <> 32 /\ c <> 111.
Proof. intros c [H|H]; [cbn in H; repeat destruct H as [<-|H]; lia|unfold isdig in H; lia]. Qed.
Lemma digits_cut : forall a b x y, Forall isdig a -> Forall isdig b -> a ++ x = b ++ y -> nodigit y -> exists z, b = a ++ z.
Proof.
  induction a as [|c a IH]; intros b x y Ha Hb E N; [exists b; reflexivity|]. inversion Ha; subst. destruct b as [|d b].
  - cbn in E. subst y. cbn in N. contradiction.
  - cbn in E. injection E as <- E. inversion Hb; subst. destruct (IH b x y H2 H4 E N) as [z ->]. exists z. reflexivity.
Qed.

Section Words.
Variable ds : list Z.                       (* the digits FindRandomString added *)
Hypothesis ds_ok : Forall isdig ds.
Definition base : list Z := str "r?An_D" ++ ds.
Definition B : list Z := str "?An_D" ++ ds.
Definition W (k : Z) : list Z := B ++ itoa k.
Definition word (k : Z) : list Z := 114 :: W k.
Lemma base_eq : base = 114 :: B. Proof. reflexivity. Qed.
Lemma word_eq : forall k, base ++ itoa k = word k. Proof. reflexivity. Qed.
Lemma B_ok : Forall wordch B.
Proof. unfold B. apply Forall_app. split; [apply Forall_forall; intros c H; left; exact H|]. eapply Forall_impl; [|exact ds_ok]. intros c H. right. exact H. Qed.
Lemma W_ok : forall k, 0 <= k < 10 ^ 9 -> Forall wordch (W k).
Proof. intros k Hk. unfold W. apply Forall_app. split; [exact B_ok|]. destruct (itoa_ok k Hk) as [_ H]. eapply Forall_impl; [|exact H]. intros c X. right. exact X. Qed.
Lemma not_in_word : forall k c, 0 <= k < 10 ^ 9 -> c <> 114 -> ~ wordch c -> ~ In c (word k).
Proof. intros k c Hk N1 N2 [H|H]; [congruence|]. pose proof (W_ok k Hk) as F. rewrite Forall_forall in F. apply N2. apply F. exact H. Qed.
Lemma r_not_in_W : forall k, 0 <= k < 10 ^ 9 -> ~ In 114 (W k).
Proof. intros k Hk H. pose proof (W_ok k Hk) as F. rewrite Forall_forall in F. apply (proj1 (wordch_not _ (F _ H))). reflexivity. Qed.
Lemma r_not_in_B : ~ In 114 B.
Proof. intros H. pose proof B_ok as F. rewrite Forall_forall in F. apply (proj1 (wordch_not _ (F _ H))). reflexivity. Qed.
Lemma special : forall c, In c [40; 41; 60; 62; 38; 32; 111] -> c <> 114 /\ ~ wordch c.
Proof. intros c H. cbn in H. repeat destruct H as [<-|H]; (split; [lia|]); intros X; apply wordch_not in X; lia. Qed.
Lemma special_word : forall k c, 0 <= k < 10 ^ 9 -> In c [40; 41; 60; 62; 38; 32; 111] -> ~ In c (word k).
Proof. intros k c Hk H. apply special in H. apply not_in_word; tauto. Qed.

Definition fresh (k : Z) (s : list Z) : Prop := forall x y, s = x ++ base ++ y -> exists j y', 0 <= j < k /\ y = itoa j ++ y' /\ nodigit y'.
Lemma fresh_app : forall k a s, fresh k (a ++ s) -> fresh k s.
Proof. intros k a s H x y E. apply (H (a ++ x) y). rewrite E, <- app_assoc. reflexivity. Qed.
Lemma closers_app : forall a s, closers_ok (a ++ s) -> closers_ok s.
Proof. intros a s H x c d y E. apply (H (a ++ x) c d y). rewrite E, <- app_assoc. reflexivity. Qed.
Lemma fresh_no : forall k s, fresh k s -> 0 <= k < 10 ^ 9 -> ~ occurs (word k) s.
Proof.
  intros k s F Hk [a [b E]]. rewrite <- word_eq, <- app_assoc in E. destruct (F a (itoa k ++ b) E) as [j [y' [Hj [E2 N]]]].
  destruct (itoa_ok k Hk) as [K1 K2]. destruct (itoa_ok j ltac:(lia)) as [J1 J2]. destruct (digits_cut _ _ _ _ K2 J2 E2 N) as [z Ez].
  unfold dec_number in *. rewrite Ez, number_app, K1 in J1. pose proof (number_nonneg z k j ltac:(lia) J1) as [Q _].
  assert (1 <= 10 ^ zlen z) by (apply Z.pow_le_mono_r with (b := 0) (c := zlen z) (a := 10); [lia|apply zlen_nonneg]).
  assert (k * 1 <= k * 10 ^ zlen z) by (apply Z.mul_le_mono_nonneg_l; lia). lia.
Qed.

Definition opener (h : Z) : Prop := h = 40 \/ h = 38 \/ h = 60.
Lemma opener_word : forall h, opener h -> h <> 114 /\ ~ wordch h.
Proof. intros h H. apply special. destruct H as [->|[->| ->]]; cbn; auto 10. Qed.
(* what may be replaced: text that starts with an opening bracket (or an ampersand) and ends with a closing one *)
Definition good (o : list Z) : Prop := exists h m c, o = h :: m ++ [c] /\ opener h /\ (c = 41 \/ c = 62).
Lemma next_char : forall o k s t, replaced o (word k) s t -> nodigit s -> nodigit t.
Proof. intros o k s t R N. inversion R as [E1 E2|s' r R' E1 E2|c s' r M R' E1 E2]; subst; cbn; [exact I|unfold isdig; lia|exact N]. Qed.
Lemma closer_next : forall m c s, closers_ok (m ++ [c] ++ s) -> c = 41 \/ c = 62 -> nodigit s.
Proof. intros m c s H C. destruct s as [|d s]; [exact I|]. cbn. apply (H m c d s); [reflexivity|exact C]. Qed.

Lemma step_closers : forall o k s t, 0 <= k < 10 ^ 9 -> replaced o (word k) s t -> closers_ok s -> closers_ok t.
Proof.
  intros o k s t Hk R. induction R as [|s t R IH|c s t M R IH]; intros C.
  - exact C.
  - intros a c d b E X. assert (N : ~ In c (word k)) by (apply special_word; [exact Hk|destruct X as [->| ->]; cbn; auto]).
    symmetry in E. apply prefix_cut in E; [|exact N]. destruct E as [a' [_ E]]. apply (IH (closers_app _ _ C) a' c d b E X).
  - intros a x d b E X. destruct a as [|y a]; cbn in E; injection E as -> E.
    + assert (N : nodigit t) by (apply (next_char o k s t R); apply (closer_next [] x s); [exact C|exact X]). rewrite E in N. exact N.
    + apply (IH (closers_app [y] _ C) a x d b E X).
Qed.
Lemma step_fresh : forall o k s t, 0 <= k < 10 ^ 9 -> good o -> replaced o (word k) s t -> closers_ok s -> fresh k s -> fresh (k + 1) t.
Proof.
  intros o k s t Hk [h [m [c0 [Eo [Hh Hc]]]]] R. induction R as [|s t R IH|c s t M R IH]; intros C F.
  - intros x y E. rewrite base_eq in E. destruct x; discriminate.
  - intros x y E. destruct x as [|z x].
    + cbn [app] in E. rewrite <- word_eq, <- app_assoc in E. apply app_inv_head in E. exists k, t. split; [lia|]. split; [symmetry; exact E|].
      apply (next_char o k s t R). subst o. apply (closer_next (h :: m) c0 s); [|exact Hc]. cbn [app] in C |- *. rewrite <- app_assoc in C. exact C.
    + unfold word in E. cbn [app] in E. apply (f_equal (@tl Z)) in E. cbn [tl] in E. rewrite base_eq in E. symmetry in E. apply prefix_cut in E; [|apply r_not_in_W; exact Hk]. destruct E as [a' [_ E]].
      apply (IH (closers_app _ _ C) (fresh_app _ _ _ F) a' y). rewrite E, base_eq. reflexivity.
  - intros x y E. destruct x as [|z x].
    + cbn [app] in E. rewrite base_eq in E. cbn [app] in E. assert (Ec : c = 114) by (injection E; auto). subst c. apply (f_equal (@tl Z)) in E. cbn [tl] in E. destruct (replaced_head _ _ _ _ _ _ _ R E r_not_in_B) as [v0 [-> R0]].
      destruct (F [] v0) as [j [v1 [Hj [-> N]]]]; [rewrite base_eq; reflexivity|]. rewrite Eo in R0.
      destruct (replaced_fwd _ _ _ _ _ _ R0) as [y' [-> R1]].
      { intros X. destruct (itoa_ok j ltac:(lia)) as [_ Q]. rewrite Forall_forall in Q. apply (proj2 (opener_word _ Hh)). right. apply Q. exact X. }
      exists j, y'. split; [lia|]. split; [reflexivity|]. apply (next_char _ _ _ _ R1 N).
    + cbn [app] in E. apply (f_equal (@tl Z)) in E. cbn [tl] in E. apply (IH (closers_app [c] _ C) (fresh_app _ [c] _ F) x y E).
Qed.

(* the replacements made so far; the latest comes first *)
Inductive chain (s0 : list Z) : list (list Z * list Z) -> list Z -> Prop :=
| chain_nil : chain s0 [] s0
| chain_cons : forall st s o t, chain s0 st s -> zlen st < 10 ^ 9 -> ~ occurs (word (zlen st)) s -> good o -> replaced o (word (zlen st)) s t ->
    chain s0 ((o, word (zlen st)) :: st) t.
Definition lefts : list (list Z) := [str "&("; str "(*)("; str "<"].
Definition budget (s : list Z) : Z := Z.of_nat (occ (str "&(") s) + Z.of_nat (occ (str "(*)(") s) + Z.of_nat (occ (str "<") s).
Record inv (s0 : list Z) (st : list (list Z * list Z)) (s : list Z) : Prop := {
  inv_chain : chain s0 st s; inv_fresh : fresh (zlen st) s; inv_closers : closers_ok s; inv_budget : zlen st + budget s < 10 ^ 9 }.
Lemma left_facts : forall p, In p lefts -> exists h q, p = h :: q /\ opener h /\ ~ In 114 p.
Proof.
  intros p H. cbn in H. destruct H as [<-|[<-|[<-|[]]]]; vm_compute; eexists; eexists; (split; [reflexivity|]); (split; [unfold opener; auto|]); intros X; repeat destruct X as [X|X]; try discriminate; destruct X.
Qed.
Lemma occ_left_le : forall p o k s t, In p lefts -> 0 <= k < 10 ^ 9 -> replaced o (word k) s t -> (occ p t <= occ p s)%nat.
Proof.
  intros p o k s t Hp Hk R. destruct (left_facts p Hp) as [h [q [-> [Hh Hr]]]]. apply (occ_le h q o 114 (W k)); [|exact Hr|exact R]. apply opener_word in Hh. apply not_in_word; tauto.
Qed.
Lemma occ_left_lt : forall p o o' k s t, In p lefts -> 0 <= k < 10 ^ 9 -> o = p ++ o' -> replaced o (word k) s t -> occurs o s -> (occ p t < occ p s)%nat.
Proof.
  intros p o o' k s t Hp Hk Eo R O. destruct (left_facts p Hp) as [h [q [-> [Hh Hr]]]]. apply (occ_lt h q o 114 (W k)) with (o' := o'); [|exact Hr|exact Eo|exact R|exact O]. apply opener_word in Hh. apply not_in_word; tauto.
Qed.
Lemma budget_le : forall o k s t, 0 <= k < 10 ^ 9 -> replaced o (word k) s t -> budget t <= budget s.
Proof.
  intros o k s t Hk R. unfold budget. pose proof (occ_left_le (str "&(") o k s t ltac:(cbn; auto) Hk R). pose proof (occ_left_le (str "(*)(") o k s t ltac:(cbn; auto) Hk R).
  pose proof (occ_left_le (str "<") o k s t ltac:(cbn; auto) Hk R). lia.
Qed.
Lemma budget_nonneg : forall s, 0 <= budget s. Proof. intros s. unfold budget. lia. Qed.
Lemma budget_lt : forall p o o' k s t, In p lefts -> 0 <= k < 10 ^ 9 -> o = p ++ o' -> replaced o (word k) s t -> occurs o s -> budget t + 1 <= budget s.
Proof.
  intros p o o' k s t Hp Hk Eo R O. pose proof (occ_left_lt p o o' k s t Hp Hk Eo R O) as L. unfold budget. pose proof (occ_left_le (str "&(") o k s t ltac:(cbn; auto) Hk R). pose proof (occ_left_le (str "(*)(") o k s t ltac:(cbn; auto) Hk R).
  pose proof (occ_left_le (str "<") o k s t ltac:(cbn; auto) Hk R). cbn [In lefts] in Hp. destruct Hp as [<-|[<-|[<-|[]]]]; lia.
Qed.
Lemma good_ne : forall o, good o -> o <> []. Proof. intros o [h [m [c [-> _]]]]. discriminate. Qed.
(* one replacement *)
Lemma occurrence_ok : forall s0 st s o, good o -> inv s0 st s -> zlen st < 10 ^ 9 ->
  exists t, ReplaceOccurence s st base o = Ok (t, (o, word (zlen st)) :: st) /\ replaced o (word (zlen st)) s t /\
    chain s0 ((o, word (zlen st)) :: st) t /\ fresh (zlen st + 1) t /\ closers_ok t.
Proof.
  intros s0 st s o G I Hst. pose proof (zlen_nonneg _ st) as P. assert (Hk : 0 <= zlen st < 10 ^ 9) by lia.
  destruct (ReplaceAll_ok s o (word (zlen st)) (good_ne o G)) as [t [E R]]. exists t. unfold ReplaceOccurence. rewrite word_eq, E. cbn [obind]. split; [reflexivity|]. split; [exact R|].
  split; [apply chain_cons with (s := s); try assumption; [apply I|apply fresh_no; [apply I|exact Hk]]|]. split; [apply (step_fresh o _ s t Hk G R); apply I|apply (step_closers o _ s t Hk R); apply I].
Qed.
Lemma pattern_ok : forall left right (Q : list Z -> Prop), In left lefts -> (exists r0 c, right = r0 ++ [c] /\ (c = 41 \/ c = 62)) ->
  (forall k m s t, 0 <= k < 10 ^ 9 -> replaced (left ++ m ++ right) (word k) s t -> Q s -> Q t) ->
  forall fuel s0 st s limit, inv s0 st s -> Q s -> (occ left s < fuel)%nat -> exists t st', replace_pattern fuel s st base left right limit = Ok (t, st') /\ inv s0 st' t /\ Q t.
Proof.
  intros left right Q HL [r0 [c [Er Hc]]] HQ. induction fuel as [|fuel IH]; intros s0 st s limit I Qs Hf; [lia|]. cbn [replace_pattern].
  destruct (string_rfind s left limit) as [p|] eqn:RF; [|exists s, st; split; [reflexivity|split; assumption]].
  destruct (string_find s right (p + length left)) as [q|] eqn:FF; [|exists s, st; split; [reflexivity|split; assumption]].
  unfold string_rfind in RF. apply rfind_some in RF. destruct RF as [a [b [E [Hp _]]]]. apply string_find_some in FF. destruct FF as [a2 [b2 [E2 [Hq [Hq2 _]]]]]. cbn in Hp.
  set (o := firstn (q + length right - p) (skipn p s)).
  assert (Eo : exists m, o = left ++ m ++ right /\ s = a ++ o ++ b2).
  { assert (X : exists m, a2 = a ++ left ++ m).
    { exists (skipn (p + length left) a2). assert (Y : firstn (p + length left) s = a ++ left) by (rewrite E, app_assoc; apply firstn_app_exact'; rewrite app_length; lia).
      rewrite E2, firstn_app in Y. replace (p + length left - length a2)%nat with 0%nat in Y by lia. rewrite firstn_O, app_nil_r in Y. rewrite app_assoc, <- Y. symmetry. apply firstn_skipn. }
    destruct X as [m Em]. exists m. assert (O : o = left ++ m ++ right).
    { unfold o. rewrite E2, Em, <- !app_assoc. rewrite Hp at 2. rewrite skipn_app_exact'. replace (q + length right - p)%nat with (length (left ++ m ++ right)) by (subst q; rewrite Em, !app_length; lia).
      rewrite !app_assoc. apply firstn_app_exact'. reflexivity. }
    split; [exact O|]. rewrite O, E2, Em, <- !app_assoc. reflexivity. }
  destruct Eo as [m [Eo Es]]. destruct (left_facts left HL) as [h [l [El [Hh _]]]].
  assert (G : good o) by (exists h, (l ++ m ++ r0), c; rewrite Eo, El, Er; cbn [app]; rewrite <- !app_assoc; auto).
  assert (Hst : zlen st < 10 ^ 9) by (pose proof (inv_budget _ _ _ I); pose proof (budget_nonneg s); lia).
  destruct (occurrence_ok s0 st s o G I Hst) as [t [E1 [R [C [F K]]]]]. rewrite E1. cbn [obind fst snd]. pose proof (zlen_nonneg _ st) as P.
  assert (O : occurs o s) by (exists a, b2; exact Es).
  apply IH.
  - split; [exact C|rewrite zlen_cons, Z.add_comm; exact F|exact K|]. rewrite zlen_cons. pose proof (budget_lt left o (m ++ right) (zlen st) s t HL ltac:(lia) Eo R O). pose proof (inv_budget _ _ _ I). lia.
  - apply (HQ (zlen st) m s t); [lia|rewrite <- Eo; exact R|exact Qs].
  - pose proof (occ_left_lt left o (m ++ right) (zlen st) s t HL ltac:(lia) Eo R O). lia.
Qed.

(* ---- putting the text back ---- *)
Definition bound_l (a n : list Z) : Prop := a = [] \/ (exists a', a = a' ++ [32]) \/ (exists n', n = str "operator " ++ n').
Definition bound_r (b : list Z) : Prop := b = [] \/ exists b', b = 40 :: b'.
Lemma no_word_operator : forall k, ~ occurs (word k) (str "operator").
Proof.
  intros k [a [b E]]. assert (H : In 63 (str "operator")). { rewrite E. apply in_or_app. right. apply in_or_app. left. unfold word, W, B. right. left. reflexivity. }
  cbn in H. repeat destruct H as [H|H]; try discriminate; destruct H.
Qed.
Lemma replaced_whole : forall D o a t, D <> [] -> ~ occurs D a -> replaced D o a t -> t = a.
Proof. intros D o a t N O R. symmetry. apply (replaced_fun D o a a (replaced_same D o a O) N t R). Qed.
Lemma replaced_nil : forall D o t, D <> [] -> replaced D o [] t -> t = [].
Proof. intros D o t N R. remember [] as s eqn:E. destruct R as [|s r R|x s r M R]; [reflexivity| |discriminate]. destruct D; [congruence|discriminate]. Qed.
Lemma word_ne : forall k, word k <> []. Proof. discriminate. Qed.

Lemma back_left : forall k o t s a n, 0 <= k < 10 ^ 9 -> replaced (word k) o t s -> t = a ++ n -> bound_l a n ->
  exists a0 n0, s = a0 ++ n0 /\ replaced (word k) o a a0 /\ replaced (word k) o n n0 /\ bound_l a0 n0.
Proof.
  intros k o t s a n Hk R E [->|[[a' ->]|[n' ->]]].
  - cbn in E. subst n. exists [], s. split; [reflexivity|]. split; [constructor|]. split; [exact R|left; reflexivity].
  - rewrite <- app_assoc in E. destruct (replaced_cut _ _ _ _ R a' 32 n E) as [t1 [t2 [-> [R1 R2]]]]; [apply special_word; [exact Hk|cbn; auto 10]|apply word_ne|].
    exists (t1 ++ [32]), t2. split; [rewrite <- app_assoc; reflexivity|]. split; [|split; [exact R2|right; left; exists t1; reflexivity]].
    clear R R2 E. induction R1 as [|u v R1 IH|c u v M R1 IH]; cbn [app].
    + constructor; [|constructor]. intros x X. discriminate.
    + rewrite <- !app_assoc. constructor. exact IH.
    + constructor; [|exact IH]. intros x X. change (c :: u ++ [32]) with ((c :: u) ++ [32]) in X. symmetry in X. symmetry in X. apply prefix_cut in X; [|apply special_word; [exact Hk|cbn; auto 10]]. destruct X as [z [X _]]. apply (M z). exact X.
  - assert (E1 : str "operator " ++ n' = str "operator" ++ 32 :: n') by reflexivity.
    assert (E2 : str "operator" = 111 :: str "perator") by reflexivity. assert (E3 : str "operator " = 111 :: str "perator ") by reflexivity.
    rewrite E1, E2 in E. cbn [app] in E. destruct (replaced_cut _ _ _ _ R a 111 _ E) as [t1 [t2 [-> [R1 R2]]]]; [apply special_word; [exact Hk|cbn; auto 10]|apply word_ne|].
    assert (R3 : replaced (word k) o (str "operator " ++ n') (111 :: t2)). { rewrite E3. cbn [app]. constructor; [intros x X; unfold word in X; discriminate|]. replace (str "perator " ++ n') with (str "perator" ++ 32 :: n') by reflexivity. exact R2. }
    exists t1, (111 :: t2). split; [reflexivity|]. split; [exact R1|]. split; [exact R3|]. right. right.
    rewrite E1 in R3. destruct (replaced_cut _ _ _ _ R3 (str "operator") 32 n' eq_refl) as [u1 [u2 [E4 [R4 R5]]]]; [apply special_word; [exact Hk|cbn; auto 10]|apply word_ne|].
    apply replaced_whole in R4; [|apply word_ne|apply no_word_operator]. subst u1. exists u2. rewrite E4. reflexivity.
Qed.
Lemma back_right : forall k o t s n b, 0 <= k < 10 ^ 9 -> replaced (word k) o t s -> t = n ++ b -> bound_r b ->
  exists n0 b0, s = n0 ++ b0 /\ replaced (word k) o n n0 /\ bound_r b0.
Proof.
  intros k o t s n b Hk R E [->|[b' ->]].
  - rewrite app_nil_r in E. subst n. exists s, []. split; [rewrite app_nil_r; reflexivity|]. split; [exact R|left; reflexivity].
  - destruct (replaced_cut _ _ _ _ R n 40 b' E) as [t1 [t2 [-> [R1 R2]]]]; [apply special_word; [exact Hk|cbn; auto 10]|apply word_ne|].
    exists t1, (40 :: t2). split; [reflexivity|]. split; [exact R1|right; exists t2; reflexivity].
Qed.
Lemma restore_ok : forall s0 st t, chain s0 st t -> forall a n b, t = a ++ n ++ b -> bound_l a n -> bound_r b ->
  exists a0 n0 b0, RestoreReplacedString n st = Ok n0 /\ s0 = a0 ++ n0 ++ b0 /\ bound_l a0 n0 /\ bound_r b0.
Proof.
  intros s0 st t C. induction C as [|st s o t C IH Hst O G R]; intros a n b E BL BR.
  - exists a, n, b. split; [reflexivity|]. split; [exact E|]. split; assumption.
  - pose proof (zlen_nonneg _ st) as P. assert (Hk : 0 <= zlen st < 10 ^ 9) by lia. assert (RB : replaced (word (zlen st)) o t s) by (apply replaced_back; [exact R|apply r_not_in_W; exact Hk|exact O]).
    rewrite app_assoc in E. destruct (back_right _ _ _ _ (a ++ n) b Hk RB E BR) as [m0 [b0 [-> [R2 BR0]]]]. destruct (back_left _ _ _ _ a n Hk R2 eq_refl BL) as [a0 [n0 [-> [_ [R3 BL0]]]]].
    cbn [RestoreReplacedString]. destruct (ReplaceAll_ok n (word (zlen st)) o (word_ne _)) as [n1 [E1 R4]]. rewrite E1. cbn [obind].
    rewrite <- (replaced_fun _ _ _ _ R3 (word_ne _) _ R4). apply (IH a0 n0 b0); [symmetry; apply app_assoc|exact BL0|exact BR0].
Qed.

Lemma cut_name_ok : forall t, exists a b, t = a ++ cut_name t ++ b /\ bound_l a (cut_name t) /\ bound_r b.
Proof.
  intros t. unfold cut_name.
  set (pp := match string_find t (str "(") 0 with Some p => p | None => S (length t) end).
  assert (P : bound_r (skipn pp t)).
  { unfold pp. destruct (string_find t (str "(") 0) as [p|] eqn:F; [|left; apply skipn_all2; lia]. apply string_find_some in F. destruct F as [a [b [E [J _]]]]. right. exists b. rewrite E, J. apply skipn_app_exact'. }
  set (q := match string_rfind t (str " ") (Some pp) with None => 0%nat | Some p => S p end).
  assert (Q : (q <= pp)%nat /\ (q = 0%nat \/ exists a', firstn q t = a' ++ [32])).
  { unfold q. destruct (string_rfind t (str " ") (Some pp)) as [p|] eqn:F; [|split; [lia|left; reflexivity]]. apply rfind_some in F. destruct F as [a [b [E [J [L _]]]]]. cbn in J. subst p. split.
    - unfold pp in *. destruct (string_find t (str "(") 0) as [r|] eqn:G; [|assert (length t = (length a + 1 + length b)%nat) by (rewrite E at 1; rewrite !app_length; cbn; lia); lia].
      apply string_find_some in G. destruct G as [a2 [b2 [E2 [J2 _]]]]. destruct (Nat.eq_dec (length a) r) as [X|X]; [|lia]. exfalso. subst r. rewrite E in E2. apply app_eq_len in E2; [|exact X]. destruct E2 as [_ E2]. discriminate.
    - right. exists a. rewrite E. change (str " ") with [32]. rewrite app_assoc. apply firstn_app_exact'. rewrite app_length. cbn. lia. }
  destruct Q as [Q1 Q2].
  assert (FIN : forall st, (st <= pp)%nat -> bound_l (firstn st t) (firstn (pp - st) (skipn st t)) -> exists a b, t = a ++ firstn (pp - st) (skipn st t) ++ b /\ bound_l a (firstn (pp - st) (skipn st t)) /\ bound_r b).
  { intros st Hst BL. exists (firstn st t), (skipn pp t). split; [|split; [exact BL|exact P]]. rewrite <- (firstn_skipn st t) at 1. f_equal. rewrite <- (firstn_skipn (pp - st) (skipn st t)) at 1. f_equal. rewrite skipn_add. f_equal. lia. }
  destruct ((9 <=? q)%nat && list_eqb (firstn 9 (skipn (q - 9) t)) (str "operator ")) eqn:OP.
  - apply FIN; [lia|]. apply andb_true_iff in OP. destruct OP as [O1 O2]. apply Nat.leb_le in O1. apply list_eqb_eq in O2. right. right. exists (skipn 9 (firstn (pp - (q - 9)) (skipn (q - 9) t))).
    rewrite <- O2. rewrite <- (firstn_skipn 9 (firstn (pp - (q - 9)) (skipn (q - 9) t))) at 1. f_equal. rewrite firstn_firstn. f_equal. lia.
  - apply FIN; [exact Q1|]. destruct Q2 as [->|X]; [left; reflexivity|right; left; exact X].
Qed.
End Words.

Lemma find_random_ok : forall rnd s, (forall k, 0 <= rnd k < 10) -> forall fuel k ds, Forall isdig ds -> (length s + 1 < 6 + length ds + fuel)%nat -> (0 < fuel)%nat ->
  exists ds', Forall isdig ds' /\ find_random fuel rnd k s (base ds) = Ok (base ds') /\ ~ occurs (base ds') s.
Proof.
  intros rnd s Hr. induction fuel as [|fuel IH]; intros k ds Hd Hf Hp; [lia|]. cbn [find_random]. destruct (string_find s (base ds) 0) as [p|] eqn:F.
  - apply string_find_some in F. destruct F as [a [b [E _]]]. assert (L : (6 + length ds <= length s)%nat) by (rewrite E; unfold base; rewrite !app_length; cbn; lia).
    replace (base ds ++ [48 + rnd k]) with (base (ds ++ [48 + rnd k])) by (unfold base; rewrite app_assoc; reflexivity). apply IH.
    + apply Forall_app. split; [exact Hd|]. constructor; [|constructor]. specialize (Hr k). unfold isdig. lia.
    + rewrite app_length. cbn [length]. lia.
    + lia.
  - exists ds. split; [exact Hd|]. split; [reflexivity|]. intros [a [b E]]. pose proof (string_find_none _ _ _ F a b E). lia.
Qed.
Lemma FindRandom_ok : forall rnd s, (forall k, 0 <= rnd k < 10) -> exists ds, Forall isdig ds /\ FindRandomString rnd s = Ok (base ds) /\ ~ occurs (base ds) s.
Proof. intros rnd s Hr. unfold FindRandomString. change (str "r?An_D") with (base []). apply find_random_ok; [exact Hr|constructor|cbn; lia|lia]. Qed.

Definition ANON : list Z := str "(anonymous namespace)".
Lemma good_anon : good ANON.
Proof. exists 40, (str "anonymous namespace"), 41. split; [reflexivity|]. split; [left; reflexivity|left; reflexivity]. Qed.
Lemma start_inv : forall ds s, ~ occurs (base ds) s -> closers_ok s -> zlen s < 3 * 10 ^ 8 -> inv ds s [] s.
Proof.
  intros ds s N C L. split; [constructor| |exact C|].
  - intros x y E. exfalso. apply N. exists x, y. exact E.
  - unfold budget. pose proof (occ_length (str "&(") s). pose proof (occ_length (str "(*)(") s). pose proof (occ_length (str "<") s). unfold zlen in *. cbn [length]. lia.
Qed.
Lemma anon_inv : forall ds s, Forall isdig ds -> ~ occurs (base ds) s -> closers_ok s -> zlen s < 3 * 10 ^ 8 ->
  exists t, ReplaceOccurence s [] (base ds) ANON = Ok (t, [(ANON, word ds 0)]) /\ replaced ANON (word ds 0) s t /\ inv ds s [(ANON, word ds 0)] t.
Proof.
  intros ds s Hd N C L. destruct (occurrence_ok ds Hd s [] s ANON good_anon (start_inv ds s N C L)) as [t [E [R [K [F G]]]]]; [unfold zlen; cbn; lia|].
  exists t. split; [exact E|]. split; [exact R|]. split; [exact K|exact F|exact G|]. pose proof (budget_le ds Hd ANON 0 s t ltac:(lia) R).
  assert (budget s <= 3 * zlen s) by (unfold budget; pose proof (occ_length (str "&(") s); pose proof (occ_length (str "(*)(") s); pose proof (occ_length (str "<") s); unfold zlen; lia).
  unfold zlen at 1. cbn [length]. lia.
Qed.
Lemma ReplacePattern_ok : forall ds left right (Q : list Z -> Prop), Forall isdig ds -> In left lefts -> (exists r0 c, right = r0 ++ [c] /\ (c = 41 \/ c = 62)) ->
  (forall k m s t, 0 <= k < 10 ^ 9 -> replaced (left ++ m ++ right) (word ds k) s t -> Q s -> Q t) ->
  forall s0 st s, inv ds s0 st s -> Q s -> exists t st', ReplacePattern s st (base ds) left right = Ok (t, st') /\ inv ds s0 st' t /\ Q t.
Proof.
  intros ds left right Q Hd HL HR HQ s0 st s I Qs. unfold ReplacePattern. apply (pattern_ok ds Hd left right Q HL HR HQ); [exact I|exact Qs|]. pose proof (occ_length left s). lia.
Qed.
(* every property Q of the signature that the replacements keep holds when the name is cut out *)
Lemma parse_steps : forall rnd s (Q : list Z -> Prop), (forall k, 0 <= rnd k < 10) -> closers_ok s -> zlen s < 3 * 10 ^ 8 ->
  (forall ds k o s t, Forall isdig ds -> 0 <= k < 10 ^ 9 -> o = ANON \/ (exists m, o = str "&(" ++ m ++ str "))") \/ (exists m, o = str "(*)(" ++ m ++ str ")") \/ (exists m, o = str "<" ++ m ++ str ">") ->
     replaced o (word ds k) s t -> Q s -> Q t) -> Q s ->
  exists ds st t, Forall isdig ds /\ ParseFunctionName rnd s = RestoreReplacedString (cut_name t) st /\ inv ds s st t /\ ~ occurs (base ds) s /\ Q t.
Proof.
  intros rnd s Q Hr C L HQ Qs. destruct (FindRandom_ok rnd s Hr) as [ds [Hd [E N]]]. unfold ParseFunctionName. rewrite E. cbn [obind].
  destruct (anon_inv ds s Hd N C L) as [t [E1 [R1 I1]]]. fold ANON. rewrite E1. cbn [obind fst snd]. assert (Q1 : Q t) by (apply (HQ ds 0 ANON s t); [exact Hd|lia|left; reflexivity|exact R1|exact Qs]).
  destruct (ReplacePattern_ok ds (str "&(") (str "))") Q Hd ltac:(cbn; auto) ltac:(exists [41], 41; split; [reflexivity|left; reflexivity])) with (s0 := s) (st := [(ANON, word ds 0)]) (s := t) as [t2 [st2 [E2 [I2 Q2]]]]; [|exact I1|exact Q1|].
  { intros k m u v Hk R Qu. apply (HQ ds k _ u v Hd Hk) with (2 := R); [right; left; exists m; reflexivity|exact Qu]. }
  rewrite E2. cbn [obind fst snd].
  destruct (ReplacePattern_ok ds (str "(*)(") (str ")") Q Hd ltac:(cbn; auto) ltac:(exists [], 41; split; [reflexivity|left; reflexivity])) with (s0 := s) (st := st2) (s := t2) as [t3 [st3 [E3 [I3 Q3]]]]; [|exact I2|exact Q2|].
  { intros k m u v Hk R Qu. apply (HQ ds k _ u v Hd Hk) with (2 := R); [right; right; left; exists m; reflexivity|exact Qu]. }
  rewrite E3. cbn [obind fst snd].
  destruct (ReplacePattern_ok ds (str "<") (str ">") Q Hd ltac:(cbn; auto) ltac:(exists [], 62; split; [reflexivity|right; reflexivity])) with (s0 := s) (st := st3) (s := t3) as [t4 [st4 [E4 [I4 Q4]]]]; [|exact I3|exact Q3|].
  { intros k m u v Hk R Qu. apply (HQ ds k _ u v Hd Hk) with (2 := R); [right; right; right; exists m; reflexivity|exact Qu]. }
  rewrite E4. cbn [obind fst snd]. exists ds, st4, t4. split; [exact Hd|]. split; [reflexivity|]. split; [exact I4|]. split; [exact N|exact Q4].
Qed.
Lemma parse_ok : forall rnd s, (forall k, 0 <= rnd k < 10) -> closers_ok s -> zlen s < 3 * 10 ^ 8 ->
  exists a n b, ParseFunctionName rnd s = Ok n /\ s = a ++ n ++ b /\ bound_l a n /\ bound_r b.
Proof.
  intros rnd s Hr C L. destruct (parse_steps rnd s (fun _ => True) Hr C L) as [ds [st [t [Hd [E [I [_ _]]]]]]]; [auto|exact Logic.I|]. rewrite E.
  destruct (cut_name_ok t) as [a [b [E5 [BL BR]]]]. destruct (restore_ok ds Hd s st t (inv_chain _ _ _ _ I) a (cut_name t) b E5 BL BR) as [a0 [n0 [b0 [E6 [E7 [BL0 BR0]]]]]].
  exists a0, n0, b0. split; [exact E6|]. split; [exact E7|]. split; assumption.
Qed.

(* ---- names without template arguments ---- *)
(* replacing o changes nothing in front of v if o starts nowhere there *)
Lemma replaced_keep : forall o D u v t, replaced o D (u ++ v) t -> (forall u1 u2 r, u = u1 ++ u2 -> u2 <> [] -> u2 ++ v <> o ++ r) -> exists t', t = u ++ t' /\ replaced o D v t'.
Proof.
  induction u as [|c u IH]; intros v t R N; [exists t; split; [reflexivity|exact R]|]. remember ((c :: u) ++ v) as s eqn:E. destruct R as [|s r R|x s r M R].
  - discriminate.
  - exfalso. apply (N [] (c :: u) s eq_refl); [discriminate|symmetry; exact E].
  - injection E as -> ->. destruct (IH v r R) as [t' [-> R2]]; [|exists t'; split; [reflexivity|exact R2]]. intros u1 u2 r' E2 X. apply (N (c :: u1) u2 r'); [cbn; congruence|exact X].
Qed.
Lemma find_char : forall c v w pos, ~ In c v -> find_from (v ++ c :: w) [c] pos = Some (pos + length v)%nat.
Proof.
  induction v as [|x v IH]; intros w pos N; cbn [app find_from is_prefix].
  - rewrite Z.eqb_refl. cbn. f_equal. lia.
  - replace (c =? x) with false by (symmetry; apply Z.eqb_neq; intros ->; apply N; left; reflexivity). cbn [andb]. rewrite IH by (intros X; apply N; right; exact X). cbn [length]. f_equal. lia.
Qed.
Lemma string_find_char : forall c u v w, ~ In c v -> string_find (u ++ v ++ c :: w) [c] (length u) = Some (length u + length v)%nat.
Proof.
  intros c u v w N. unfold string_find. replace (length (u ++ v ++ c :: w) <? length u)%nat with false by (symmetry; apply Nat.ltb_ge; rewrite app_length; lia). rewrite skipn_app_exact'. apply find_char. exact N.
Qed.
Lemma rfind_char_none : forall c v pos limit, ~ In c v -> rfind_from v [c] pos limit = None.
Proof.
  induction v as [|x v IH]; intros pos limit N; cbn [rfind_from is_prefix]; [reflexivity|]. rewrite IH by (intros X; apply N; right; exact X).
  replace (c =? x) with false by (symmetry; apply Z.eqb_neq; intros ->; apply N; left; reflexivity). reflexivity.
Qed.
Lemma rfind_char : forall c u v pos limit, ~ In c v -> match limit with None => True | Some l => (pos + length u <= l)%nat end -> rfind_from (u ++ c :: v) [c] pos limit = Some (pos + length u)%nat.
Proof.
  induction u as [|x u IH]; intros v pos limit N L; cbn [app rfind_from is_prefix length].
  - rewrite rfind_char_none by exact N. rewrite Z.eqb_refl. cbn [andb]. replace (match limit with None => true | Some l => (pos <=? l)%nat end) with true; [f_equal; lia|]. destruct limit; [|reflexivity]. symmetry. apply Nat.leb_le. cbn [length] in L. lia.
  - rewrite IH; [f_equal; lia|exact N|]. destruct limit; [cbn [length] in L; lia|exact I].
Qed.
Lemma rfind_limit : forall c u v pos l, (pos + length u <= S l)%nat -> (l < pos + length u)%nat -> ~ In c v -> rfind_from (u ++ v) [c] pos (Some l) = rfind_from u [c] pos None.
Proof.
  induction u as [|x u IH]; intros v pos l H1 H2 N; cbn [app rfind_from].
  - rewrite rfind_char_none by exact N. reflexivity.
  - cbn [length] in *. destruct u as [|y u].
    + cbn [app rfind_from is_prefix]. rewrite rfind_char_none by exact N. cbn [length] in *. destruct (c =? x); cbn [andb]; [|reflexivity]. replace (pos <=? l)%nat with true by (symmetry; apply Nat.leb_le; lia). reflexivity.
    + rewrite (IH v (S pos) l) by (cbn [length] in *; lia || exact N). cbn [is_prefix]. destruct (rfind_from (y :: u) [c] (S pos) None); [reflexivity|]. destruct (c =? x); cbn [andb]; [|reflexivity].
      replace (pos <=? l)%nat with true by (symmetry; apply Nat.leb_le; cbn [length] in *; lia). reflexivity.
Qed.
(* the name in front of the first parenthesis *)
Lemma cut_name_exact : forall ret n R, ~ In 40 (ret ++ n) -> ~ In 32 n -> ret = [] \/ (exists r, ret = r ++ [32]) -> (forall r, ret <> r ++ str "operator ") -> cut_name (ret ++ n ++ 40 :: R) = n.
Proof.
  intros ret n R N40 N32 HR NO. unfold cut_name. 
  assert (F : string_find (ret ++ n ++ 40 :: R) (str "(") 0 = Some (length (ret ++ n))).
  { rewrite app_assoc. apply (string_find_char 40 [] (ret ++ n) R N40). }
  rewrite F. clear F.
  assert (G : string_rfind (ret ++ n ++ 40 :: R) (str " ") (Some (length (ret ++ n))) = match ret with [] => None | _ => Some (length ret - 1)%nat end).
  { assert (X : forall s l p, string_rfind s (str " ") (Some l) = Some p -> (forall a b, s = a ++ [32] ++ b -> (length a <= l)%nat -> (length a <= p)%nat) /\ (p <= l)%nat /\ exists a b, s = a ++ [32] ++ b /\ p = length a).
    { intros s l p H. apply rfind_some in H. destruct H as [a [b [E [J [Hl M]]]]]. cbn in J. subst p. split; [|split; [exact Hl|exists a, b; split; [exact E|reflexivity]]]. intros a' b' E' L'. apply (M a' b' E'). exact L'. }
    destruct (string_rfind (ret ++ n ++ 40 :: R) (str " ") (Some (length (ret ++ n)))) as [p|] eqn:RF.
    - apply X in RF. destruct RF as [M [Hl [a [b [E ->]]]]].
      assert (LA : (length a < length ret)%nat).
      { destruct (Nat.ltb_spec (length a) (length ret)) as [Y|Y]; [exact Y|]. exfalso. rewrite app_assoc in E.
        assert (Z0 : nth_error ((ret ++ n) ++ 40 :: R) (length a) = Some 32) by (rewrite E, nth_error_app2 by lia; rewrite Nat.sub_diag; reflexivity).
        destruct (Nat.eq_dec (length a) (length (ret ++ n))) as [Q|Q]; [rewrite Q, nth_error_app2 in Z0 by lia; rewrite Nat.sub_diag in Z0; discriminate|].
        rewrite nth_error_app1 in Z0 by lia. rewrite nth_error_app2 in Z0 by lia. apply nth_error_In in Z0. contradiction. }
      destruct HR as [->|[r ->]]; [cbn in LA; lia|]. assert (LR : (length r <= length a)%nat) by (apply (M r (n ++ 40 :: R)); [rewrite <- app_assoc; reflexivity|rewrite !app_length; lia]).
      rewrite app_length in *. cbn [length] in *. destruct (r ++ [32]) eqn:Q; [destruct r; discriminate|]. f_equal. lia.
    - destruct HR as [->|[r ->]]; [reflexivity|]. exfalso. unfold string_rfind in RF. pose proof (rfind_none _ _ _ _ RF r (n ++ 40 :: R)) as Q. cbn beta iota in Q. rewrite <- app_assoc in Q. specialize (Q eq_refl). rewrite !app_length in Q. lia. }
  rewrite G. clear G. set (st := match match ret with [] => None | _ => Some (length ret - 1)%nat end with Some p => S p | None => 0%nat end).
  assert (Est : st = length ret) by (unfold st; destruct ret; cbn [length]; lia). rewrite Est.
  replace ((9 <=? length ret)%nat && list_eqb (firstn 9 (skipn (length ret - 9) (ret ++ n ++ 40 :: R))) (str "operator ")) with false.
  - rewrite skipn_app_exact', app_length. replace (length ret + length n - length ret)%nat with (length n) by lia. apply firstn_app_exact'. reflexivity.
  - symmetry. apply andb_false_iff. destruct (Nat.leb_spec 9 (length ret)) as [L|L]; [right|left; reflexivity]. destruct (list_eqb _ _) eqn:Q; [|reflexivity]. exfalso. apply list_eqb_eq in Q.
    apply (NO (firstn (length ret - 9) ret)). rewrite <- Q. rewrite skipn_app. replace (length ret - 9 - length ret)%nat with 0%nat by lia. cbn [skipn].
    rewrite firstn_app_exact' by (rewrite skipn_length; lia). symmetry. apply firstn_skipn.
Qed.
Lemma restore_same : forall ds s0 st t n, Forall isdig ds -> chain ds s0 st t -> ~ occurs (base ds) n -> RestoreReplacedString n st = Ok n.
Proof.
  intros ds s0 st t n Hd C N. induction C as [|st s o t C IH Hst O G R]; [reflexivity|]. cbn [RestoreReplacedString]. destruct (ReplaceAll_ok n (word ds (zlen st)) o (word_ne ds _)) as [n1 [E1 R4]]. rewrite E1. cbn [obind].
  apply replaced_whole in R4; [|apply word_ne|intros [a [b E]]; apply N; rewrite <- word_eq, <- app_assoc in E; exists a, (itoa (zlen st) ++ b); exact E]. subst n1. exact IH.
Qed.

Lemma parse_plain : forall rnd ret n R, (forall k, 0 <= rnd k < 10) ->
  let s := ret ++ n ++ str "(" ++ R in
  closers_ok s -> zlen s < 3 * 10 ^ 8 -> ret = [] \/ (exists r, ret = r ++ [32]) -> (forall r, ret <> r ++ str "operator ") ->
  ~ In 40 (ret ++ n) -> ~ In 60 (ret ++ n) -> ~ In 32 n -> (forall r, ret ++ n <> r ++ [38]) ->
  (forall r, R <> str "*)(" ++ r) -> (forall r, R <> str "anonymous namespace)" ++ r) ->
  ParseFunctionName rnd s = Ok n.
Proof.
  intros rnd ret n R Hr s C L HR NO N40 N60 N32 N38 H1 H2. set (P := ret ++ n) in *.
  assert (Es : s = P ++ 40 :: R) by (unfold s, P; rewrite <- app_assoc; reflexivity).
  set (Q := fun t => exists R', t = P ++ 40 :: R' /\ (forall r, R' <> str "*)(" ++ r) /\ (forall r, R' <> str "anonymous namespace)" ++ r)).
  destruct (parse_steps rnd s Q Hr C L) as [ds [st [t [Hd [E [I [N [R' [Et _]]]]]]]]].
  - intros ds k o u t Hd Hk Ho RP [R' [-> [A1 A2]]].
    assert (K : exists t', t = (P ++ [40]) ++ t' /\ replaced o (word ds k) R' t').
    { apply replaced_keep; [rewrite <- app_assoc; exact RP|]. intros u1 u2 r Eu Nu X.
      (* a suffix of P, then a parenthesis *)
      destruct (exists_last Nu) as [u3 [z ->]]. rewrite app_assoc in Eu. apply app_inj_tail in Eu. destruct Eu as [EP <-]. rewrite <- app_assoc in X. cbn [app] in X.
      assert (I3 : forall c, In c u3 -> In c P) by (intros c Hc; rewrite EP; apply in_or_app; right; exact Hc).
      destruct Ho as [->|[[m ->]|[[m ->]|[m ->]]]].
      - destruct u3 as [|c u3]; [apply (f_equal (@tl Z)) in X; apply (A2 r); exact X|apply N40; apply I3; left; apply (f_equal (hd 0)) in X; exact X].
      - destruct u3 as [|c u3]; cbn in X; [discriminate|]. injection X as X1 X2. destruct u3 as [|d u3].
        + apply (N38 u1). rewrite EP, X1. reflexivity.
        + apply N40. apply I3. right. left. apply (f_equal (hd 0)) in X2. exact X2.
      - destruct u3 as [|c u3]; [apply (f_equal (@tl Z)) in X; apply (A1 ((m ++ str ")") ++ r)); rewrite <- !app_assoc; rewrite <- !app_assoc in X; exact X|apply N40; apply I3; left; apply (f_equal (hd 0)) in X; exact X].
      - destruct u3 as [|c u3]; cbn in X; [discriminate|]. injection X as X1 X2. apply N60. apply I3. left. exact X1. }
    destruct K as [t' [-> RR]]. exists t'. split; [rewrite <- app_assoc; reflexivity|].
    split; intros r X; [|]; (destruct (replaced_head o 114 (tl (word ds k)) R' t' _ r RR X) as [v0 [Y _]]; [cbn; lia|]); [apply (A1 v0 Y)|apply (A2 v0 Y)].
  - exists R. split; [exact Es|]. split; assumption.
  - rewrite E, Et. unfold P. rewrite <- app_assoc. rewrite cut_name_exact by assumption. apply (restore_same ds s st t n Hd (inv_chain _ _ _ _ I)).
    intros [a [b Eb]]. apply N. exists (ret ++ a), (b ++ 40 :: R). rewrite Es. unfold P. rewrite Eb, <- !app_assoc. reflexivity.
Qed.
