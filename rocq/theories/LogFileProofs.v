From Verif Require Import Base BaseProofs Text LogModel LogSpec LogProofs.
From Coq Require Import Lia List Bool.

Lemma put_end : forall t c, put (zlen c) t c = c ++ t.
Proof.
  intros. unfold put, zlen. rewrite Nat2Z.id, Nat.sub_diag. cbn [repeat]. rewrite app_nil_r, firstn_all, (skipn_all2 c) by lia. rewrite app_nil_r. reflexivity.
Qed.
Lemma stream_log_gen : forall w s t, l_next (stream_log w s t) = l_next w /\ forall g, fst (l_fps (stream_log w s t) g) = fst (l_fps w g).
Proof.
  intros. destruct s; cbn; [auto | | auto]. destruct (l_fps w fp) as (q, o) eqn:E; cbn. split; [reflexivity |]. intros. unfold upd. destruct (g =? fp) eqn:X; [| reflexivity].
  apply Z.eqb_eq in X; subst. rewrite E; reflexivity.
Qed.
Lemma both_gen : forall p a b ss w, l_next (fold_left (both p a b) ss w) = l_next w /\ forall g, fst (l_fps (fold_left (both p a b) ss w) g) = fst (l_fps w g).
Proof.
  induction ss as [| s ss IH]; intros; cbn [fold_left]; [auto |]. destruct (IH (both p a b w s)) as (A & B).
  split.
  - rewrite A. unfold both. destruct p; rewrite !(proj1 (stream_log_gen _ _ _)); reflexivity.
  - intros. rewrite B. unfold both. destruct p; rewrite !(proj2 (stream_log_gen _ _ _)); reflexivity.
Qed.
Lemma stream_log_keeps : forall path fp w s t, (forall f, s = File f -> f <> fp /\ fst (l_fps w f) <> path) ->
  l_files (stream_log w s t) path = l_files w path /\ l_fps (stream_log w s t) fp = l_fps w fp.
Proof.
  intros * H. destruct s as [| f |]; cbn; auto. destruct (H f eq_refl) as (A & B). destruct (l_fps w f) as (q, o) eqn:E; cbn in *. split; apply upd_other; auto.
Qed.
Lemma both_keeps : forall path fp p a b ss w, (forall f, In (File f) ss -> f <> fp /\ fst (l_fps w f) <> path) ->
  l_files (fold_left (both p a b) ss w) path = l_files w path /\ l_fps (fold_left (both p a b) ss w) fp = l_fps w fp.
Proof.
  induction ss as [| s ss IH]; intros * H; cbn [fold_left]; [auto |].
  assert (X : forall f, s = File f -> f <> fp /\ fst (l_fps w f) <> path) by (intros f ->; apply H; left; reflexivity).
  assert (Y : l_files (both p a b w s) path = l_files w path /\ l_fps (both p a b w s) fp = l_fps w fp).
  { unfold both. destruct p.
    - destruct (stream_log_keeps path fp w s a X) as (A & B). destruct (stream_log_keeps path fp (stream_log w s a) s b) as (C & D); [| split; congruence].
      intros f E. rewrite (proj2 (stream_log_gen _ _ _)). apply X; exact E.
    - apply stream_log_keeps; exact X. }
  destruct Y as (A & B). destruct (IH (both p a b w s)) as (C & D); [| split; congruence].
  intros f I. change (both p a b w s) with (fold_left (both p a b) [s] w). rewrite (proj2 (both_gen _ _ _ _ _)). apply H; right; exact I.
Qed.
Lemma stdout_bits_files : forall tag n bs w, let w' := fold_left (fun w i => if Z.testbit tag i then add_stdout n w i else w) bs w in
  l_files w' = l_files w /\ l_fps w' = l_fps w /\ l_next w' = l_next w.
Proof.
  induction bs as [| b bs IH]; intros w; cbn [fold_left]; [auto |]. specialize (IH (if Z.testbit tag b then add_stdout n w b else w)). cbn zeta in *.
  destruct IH as (A & B & C). rewrite A, B, C. destruct (Z.testbit tag b); auto.
Qed.

Lemma ok_inj : forall T (a b : T), Ok a = Ok b -> a = b.
Proof. congruence. Qed.

Section One.
Local Opaque firstn.
Variables (can_open : Z -> bool) (path name i : Z).

(* before the file is named *)
Definition pinv (w : logs) : Prop := forall n j f, In (File f) (streams (l_sets w n) j) -> f < l_next w /\ fst (l_fps w f) <> path.
(* after; k is how often the bit is printed *)
Definition finv (w : logs) (text : list Z) : Prop := exists fp k, fp < l_next w /\ l_fps w fp = (path, zlen text) /\ l_files w path = text /\
  streams (l_sets w name) i = repeat Stdout k ++ [File fp] /\
  forall n j f, In (File f) (streams (l_sets w n) j) -> f < l_next w /\ (f = fp /\ n = name /\ j = i \/ f <> fp /\ fst (l_fps w f) <> path).

Lemma pinv_file : forall n q w b, q <> path -> pinv w -> pinv (add_file can_open n q w b).
Proof.
  intros * Q I n' j f F. rewrite add_file_at in F. unfold add_file, fopen in *. destruct (can_open q); cbn in *.
  - destruct ((n =? n') && (b =? j)).
    + cbn in F. destruct F as [F | []]. injection F as <-. rewrite upd_same. cbn. split; [lia | exact Q].
    + destruct (I _ _ _ F) as (A & B). rewrite upd_other by lia. split; [lia | exact B].
  - destruct ((n =? n') && (b =? j)); [cbn in F; destruct F as [F | []]; discriminate F | exact (I _ _ _ F)].
Qed.
Lemma finv_file : forall n q w b text, q <> path -> ~ (n = name /\ b = i) -> finv w text -> finv (add_file can_open n q w b) text.
Proof.
  intros * Q N (fp & k & L & A & B & C & D). exists fp, k. rewrite add_file_at.
  assert (X : (n =? name) && (b =? i) = false). { destruct (n =? name) eqn:E1; [| reflexivity]. destruct (b =? i) eqn:E2; [| reflexivity]. apply Z.eqb_eq in E1, E2. tauto. }
  rewrite X. assert (Y : forall n' j f, In (File f) (streams (l_sets (add_file can_open n q w b) n') j) -> f < l_next (add_file can_open n q w b) /\
    (f = fp /\ n' = name /\ j = i \/ f <> fp /\ fst (l_fps (add_file can_open n q w b) f) <> path)).
  { intros * F. rewrite add_file_at in F. unfold add_file, fopen in *. destruct (can_open q); cbn in *.
    - destruct ((n =? n') && (b =? j)).
      + cbn in F. destruct F as [F | []]. injection F as <-. rewrite upd_same. cbn. split; [lia | right; split; [lia | exact Q]].
      + destruct (D _ _ _ F) as (E1 & E2). rewrite upd_other by lia. split; [lia | exact E2].
    - destruct ((n =? n') && (b =? j)); [cbn in F; destruct F as [F | []]; discriminate F | exact (D _ _ _ F)]. }
  unfold add_file, fopen in *. destruct (can_open q); cbn in *; repeat split; auto; try lia; try (rewrite upd_other by (auto; lia)); auto; try (intros; apply Y with (1 := H)).
  all: try (apply (proj1 (Y _ _ _ H))); try (apply (proj2 (Y _ _ _ H))).
Qed.
Definition no_file (c : lcall) : Prop := match c with SetLogToFile _ _ q => q <> path | _ => True end.

Lemma pinv_step : forall past w c w', inv past w -> fine past c -> no_file c -> pinv w -> lstep can_open w c = Ok w' -> pinv w'.
Proof.
  intros * I F N P E. destruct c as [n tag | n tag q | n tag p text | n | n]; cbn [lstep no_file] in *.
  - injection E as <-. destruct (stdout_bits tag n tag_bits w bits_nodup) as (_ & _ & C). destruct (stdout_bits_files tag n tag_bits w) as (_ & A & B).
    unfold set_log. intros n' j f X. rewrite C in X. rewrite A, B. destruct (_ && _ && _) in X; [destruct X as [X | X]; [discriminate X |] |]; exact (P _ _ _ X).
  - injection E as <-. unfold set_log. set (w1 := if can_open q then _ else w). assert (P1 : pinv w1) by (unfold w1; destruct (can_open q); exact P). clearbody w1; revert w1 P1.
    induction tag_bits as [| b bs IH]; intros; cbn [fold_left]; [exact P1 |]. apply IH. destruct (Z.testbit tag b); [apply pinv_file; assumption | exact P1].
  - destruct (log_ok can_open _ _ _ _ _ _ I F) as (x & _ & _ & E1). rewrite E1 in E. apply ok_inj in E. subst w'. intros n' j f X. rewrite both_sets in X. destruct (both_gen p x (firstn 511 text) (streams (l_sets w n) (Z.log2 tag)) w) as (A & B). rewrite A, B. exact (P _ _ _ X).
  - destruct (_ =? _) in E; [discriminate E |]. injection E as <-. intros n' j f X. cbn in X |- *. unfold upd in X. destruct (n' =? n); cbn in X; exact (P _ _ _ X).
  - destruct (_ =? _) in E; [discriminate E |]. injection E as <-. intros n' j f X. cbn in X |- *. unfold upd in X. destruct (n' =? n); cbn in X; exact (P _ _ _ X).
Qed.
Lemma one_bit : forall (add : logs -> Z -> logs) bs w, 0 <= i -> NoDup bs ->
  fold_left (fun w b => if Z.testbit (2 ^ i) b then add w b else w) bs w = if existsb (Z.eqb i) bs then add w i else w.
Proof.
  intros add. induction bs as [| b bs IH]; intros w P ND; cbn [fold_left existsb]; [reflexivity |]. inversion ND; subst. rewrite IH by assumption. rewrite Z.pow2_bits_eqb by exact P.
  destruct (i =? b) eqn:E; cbn; [| reflexivity]. apply Z.eqb_eq in E; subst b. destruct (existsb (Z.eqb i) bs) eqn:X; [| reflexivity].
  apply existsb_exists in X. destruct X as (y & Y & Z). apply Z.eqb_eq in Z; subst. contradiction.
Qed.
Lemma finv_open : forall w w', 0 <= i < 31 -> can_open path = true -> pinv w -> lstep can_open w (SetLogToFile name (2 ^ i) path) = Ok w' -> finv w' [].
Proof.
  intros * R O P E. cbn [lstep] in E. rewrite O in E. injection E as <-. unfold set_log. rewrite one_bit, (bits_exists i R) by (lia || apply bits_nodup).
  set (w1 := mk_logs _ _ _ _ _). exists (l_next w), 0%nat. rewrite add_file_at, !Z.eqb_refl. cbn [andb].
  unfold add_file, fopen. rewrite O. cbn. rewrite !upd_same. repeat split; try lia; try reflexivity.
  - intros. revert H. unfold upd. destruct (n =? name) eqn:E1; cbn.
    + destruct (j =? i) eqn:E2; cbn; [intros [X | []]; injection X as <-; lia |]. apply Z.eqb_eq in E1; subst. intros X. destruct (P _ _ _ X). lia.
    + intros X. destruct (P _ _ _ X). lia.
  - revert H. unfold upd. destruct (n =? name) eqn:E1; cbn.
    + destruct (j =? i) eqn:E2; cbn.
      * intros [X | []]. injection X as <-. apply Z.eqb_eq in E1, E2. auto.
      * apply Z.eqb_eq in E1; subst. intros X. destruct (P _ _ _ X). right. replace (f =? l_next w) with false by (symmetry; apply Z.eqb_neq; lia). split; [lia | assumption].
    + intros X. destruct (P _ _ _ X). right. replace (f =? l_next w) with false by (symmetry; apply Z.eqb_neq; lia). split; [lia | assumption].
Qed.
Lemma repeat_no_file : forall k f, ~ In (File f) (repeat Stdout k).
Proof. induction k; cbn; [tauto |]. intros f [X | X]; [discriminate X | exact (IHk _ X)]. Qed.
Lemma file_put : forall w fp (t c : list Z), l_fps w fp = (path, zlen c) -> l_files w path = c ->
  l_fps (stream_log w (File fp) t) fp = (path, zlen (c ++ t)) /\ l_files (stream_log w (File fp) t) path = c ++ t.
Proof.
  intros * A B. cbn. rewrite A. cbn. rewrite !upd_same, B, put_end. split; [| reflexivity]. f_equal. unfold zlen. rewrite app_length. lia.
Qed.
Lemma finv_step : forall past w c w' text, inv past w -> fine past c -> spares path name i c -> finv w text -> lstep can_open w c = Ok w' ->
  finv w' (text ++ match c with Log n tag p text => if (n =? name) && (Z.log2 tag =? i) then line_of (depth n past) tag p text else [] | _ => [] end).
Proof.
  intros * I F N P E. destruct c as [n tag | n tag q | n tag p t | n | n]; cbn [lstep spares] in *; rewrite ?app_nil_r.
  - injection E as <-. destruct (stdout_bits tag n tag_bits w bits_nodup) as (_ & _ & C). destruct (stdout_bits_files tag n tag_bits w) as (A & B & G).
    destruct P as (fp & k & L & P1 & P2 & P3 & P4). unfold set_log. exists fp, (if (n =? name)%Z && Z.testbit tag i && existsb (Z.eqb i) tag_bits then S k else k). rewrite A, B, G, C, P3.
    split; [exact L |]. split; [exact P1 |]. split; [exact P2 |]. split; [destruct (_ && _ && _); reflexivity |].
    intros n' j f H. rewrite C in H. destruct (_ && _ && _) in H; [destruct H as [H | H]; [discriminate H |] |]; exact (P4 _ _ _ H).
  - injection E as <-. destruct N as (N & M). unfold set_log. set (w1 := if can_open q then _ else w).
    assert (P1 : finv w1 text). { unfold w1. destruct (can_open q); [| exact P]. destruct P as (fp & k & P). exists fp, k. cbn. rewrite upd_other by auto. exact P. }
    clearbody w1; revert w1 P1. induction tag_bits as [| b bs IH]; intros; cbn [fold_left]; [exact P1 |]. apply IH. destruct (Z.testbit tag b) eqn:T; [| exact P1].
    apply finv_file; auto. intros (-> & ->). apply M. auto.
  - destruct (log_ok can_open _ _ _ _ _ _ I F) as (x & Q & R & E1). rewrite E1 in E. apply ok_inj in E. subst w'. destruct P as (fp & k & L & P1 & P2 & P3 & P4).
    destruct (both_gen p x (firstn 511 t) (streams (l_sets w n) (Z.log2 tag)) w) as (A & B).
    exists fp, k. rewrite A, both_sets.
    assert (Y : l_fps (fold_left (both p x (firstn 511 t)) (streams (l_sets w n) (Z.log2 tag)) w) fp = (path, zlen (text ++ (if (n =? name) && (Z.log2 tag =? i) then line_of (depth n past) tag p t else []))) /\
                l_files (fold_left (both p x (firstn 511 t)) (streams (l_sets w n) (Z.log2 tag)) w) path = text ++ (if (n =? name) && (Z.log2 tag =? i) then line_of (depth n past) tag p t else [])).
    { destruct ((n =? name) && (Z.log2 tag =? i)) eqn:X.
      - apply andb_true_iff in X. destruct X as (X1 & X2). apply Z.eqb_eq in X1, X2. subst n. rewrite X2, P3, fold_left_app. cbn [fold_left].
        destruct (both_keeps path fp p x (firstn 511 t) (repeat Stdout k) w) as (K1 & K2); [intros f Z; destruct (repeat_no_file _ _ Z) |].
        set (w1 := fold_left _ (repeat Stdout k) w) in *. rewrite <- Q. unfold both. rewrite P1 in K2. rewrite P2 in K1. destruct p.
        + destruct (file_put w1 fp x text K2 K1) as (G1 & G2). rewrite app_assoc. exact (file_put _ fp _ _ G1 G2).
        + exact (file_put _ fp _ _ K2 K1).
      - rewrite app_nil_r. destruct (both_keeps path fp p x (firstn 511 t) (streams (l_sets w n) (Z.log2 tag)) w) as (K1 & K2); [| rewrite K1, K2; auto].
        intros f Z. destruct (P4 _ _ _ Z) as (_ & [(_ & -> & G) | G]); [| exact G]. rewrite G, !Z.eqb_refl in X. discriminate X. }
    destruct Y as (Y1 & Y2). split; [exact L |]. split; [exact Y1 |]. split; [exact Y2 |]. split; [exact P3 |].
    intros n' j f Z. rewrite B. exact (P4 _ _ _ Z).
  - destruct (_ =? _) in E; [discriminate E |]. injection E as <-. destruct P as (fp & k & L & P1 & P2 & P3 & P4). exists fp, k. cbn. unfold upd.
    split; [exact L |]. split; [exact P1 |]. split; [exact P2 |]. split; [destruct (name =? n) eqn:X; cbn; [apply Z.eqb_eq in X; subst; exact P3 | exact P3] |].
    intros n' j f H. destruct (n' =? n) eqn:X; cbn in H; [apply Z.eqb_eq in X; subst |]; exact (P4 _ _ _ H).
  - destruct (_ =? _) in E; [discriminate E |]. injection E as <-. destruct P as (fp & k & L & P1 & P2 & P3 & P4). exists fp, k. cbn. unfold upd.
    split; [exact L |]. split; [exact P1 |]. split; [exact P2 |]. split; [destruct (name =? n) eqn:X; cbn; [apply Z.eqb_eq in X; subst; exact P3 | exact P3] |].
    intros n' j f H. destruct (n' =? n) eqn:X; cbn in H; [apply Z.eqb_eq in X; subst |]; exact (P4 _ _ _ H).
Qed.
Lemma run_before : forall cs past w rest, inv past w -> moderate past (cs ++ rest) -> Forall no_file cs -> pinv w ->
  exists w', lrun can_open w (cs ++ rest) = lrun can_open w' rest /\ inv (rev cs ++ past) w' /\ moderate (rev cs ++ past) rest /\ pinv w'.
Proof.
  induction cs as [| c cs IH]; intros * I M N P; [exists w; auto |]. cbn [app moderate lrun] in *. destruct M as (F & M). inversion N; subst.
  destruct (inv_step can_open _ _ c I F) as (w1 & E & I1 & _). rewrite E. cbn [obind]. pose proof (pinv_step _ _ _ _ I F H1 P E) as P1.
  destruct (IH _ _ _ I1 M H2 P1) as (w2 & A & B & C & D). exists w2. cbn [rev]. rewrite <- app_assoc. auto.
Qed.
Lemma run_after : forall cs past w text, inv past w -> moderate past cs -> Forall (spares path name i) cs -> finv w text ->
  exists w', lrun can_open w cs = Ok w' /\ finv w' (text ++ logged name i past cs).
Proof.
  induction cs as [| c cs IH]; intros * I M N P; cbn [lrun moderate logged] in *; [exists w; rewrite app_nil_r; auto |]. destruct M as (F & M). inversion N; subst.
  destruct (inv_step can_open _ _ c I F) as (w1 & E & I1 & _). rewrite E. cbn [obind]. pose proof (finv_step _ _ _ _ _ I F H1 P E) as P1.
  destruct (IH _ _ _ I1 M H2 P1) as (w2 & A & B). exists w2. rewrite app_assoc. auto.
Qed.
End One.
