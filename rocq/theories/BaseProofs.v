(* Lemmas about Base.v *)
From Verif Require Import Base.
Ltac Zify.zify_post_hook ::= Z.div_mod_to_equations.

Lemma zlen_nil : forall A, zlen (@nil A) = 0.
Proof. reflexivity. Qed.
Lemma zlen_cons : forall A (a : A) l, zlen (a :: l) = 1 + zlen l.
Proof. intros; unfold zlen; cbn [length]; lia. Qed.
Lemma zlen_app : forall A (l m : list A), zlen (l ++ m) = zlen l + zlen m.
Proof. intros; unfold zlen; rewrite app_length; lia. Qed.
Lemma zlen_nonneg : forall A (l : list A), 0 <= zlen l.
Proof. intros; unfold zlen; lia. Qed.
Lemma zlen_map : forall A B (f : A -> B) l, zlen (map f l) = zlen l.
Proof. intros; unfold zlen; rewrite map_length; reflexivity. Qed.
Lemma zlen_rev : forall A (l : list A), zlen (rev l) = zlen l.
Proof. intros; unfold zlen; rewrite rev_length; reflexivity. Qed.
Lemma zlen_repeat : forall A (a : A) n, zlen (repeat a n) = Z.of_nat n.
Proof. intros; unfold zlen; rewrite repeat_length; reflexivity. Qed.
Lemma zlen_0_nil : forall A (l : list A), zlen l = 0 -> l = [].
Proof. intros A [|a l]; [reflexivity|rewrite zlen_cons; pose proof (zlen_nonneg _ l); lia]. Qed.

Lemma znth_in : forall A (l : list A) i, 0 <= i < zlen l -> exists a, znth l i = Some a.
Proof.
  intros A l i Hi. unfold znth. destruct (Z.ltb_spec i 0); [lia|].
  destruct (nth_error l (Z.to_nat i)) as [a|] eqn:E; [eauto|].
  apply nth_error_None in E. unfold zlen in Hi. lia.
Qed.
Lemma znth_range : forall A (l : list A) i a, znth l i = Some a -> 0 <= i < zlen l.
Proof.
  intros A l i a H. unfold znth in H. destruct (Z.ltb_spec i 0); [discriminate|].
  assert (nth_error l (Z.to_nat i) <> None) as E by congruence.
  apply nth_error_Some in E. unfold zlen. lia.
Qed.
Lemma znth_none : forall A (l : list A) i, znth l i = None <-> i < 0 \/ zlen l <= i.
Proof.
  intros A l i. unfold znth, zlen. destruct (Z.ltb_spec i 0) as [H|H].
  - split; [lia|reflexivity].
  - rewrite nth_error_None. lia.
Qed.
Lemma znth_0 : forall A (a : A) l, znth (a :: l) 0 = Some a.
Proof. reflexivity. Qed.
Lemma znth_cons : forall A (a : A) l i, 0 < i -> znth (a :: l) i = znth l (i - 1).
Proof.
  intros A a l i Hi. unfold znth. destruct (Z.ltb_spec i 0); [lia|]. destruct (Z.ltb_spec (i-1) 0); [lia|].
  replace (Z.to_nat i) with (S (Z.to_nat (i - 1))) by lia. reflexivity.
Qed.
Lemma znth_app_l : forall A (l m : list A) i, i < zlen l -> znth (l ++ m) i = znth l i.
Proof.
  intros A l m i Hi. unfold znth. destruct (Z.ltb_spec i 0); [reflexivity|].
  apply nth_error_app1. unfold zlen in Hi. lia.
Qed.
Lemma znth_app_r : forall A (l m : list A) i, zlen l <= i -> znth (l ++ m) i = znth m (i - zlen l).
Proof.
  intros A l m i Hi. pose proof (zlen_nonneg _ l). unfold znth.
  destruct (Z.ltb_spec i 0); [lia|]. destruct (Z.ltb_spec (i - zlen l) 0); [lia|].
  rewrite nth_error_app2 by (unfold zlen in Hi; lia). f_equal. unfold zlen. lia.
Qed.
Lemma znth_In : forall A (l : list A) i a, znth l i = Some a -> In a l.
Proof.
  intros A l i a H. unfold znth in H. destruct (i <? 0); [discriminate|]. eapply nth_error_In; eauto.
Qed.
Lemma In_znth : forall A (l : list A) a, In a l -> exists i, znth l i = Some a.
Proof.
  intros A l a H. apply In_nth_error in H. destruct H as [n Hn]. exists (Z.of_nat n). unfold znth.
  destruct (Z.ltb_spec (Z.of_nat n) 0); [lia|]. rewrite Nat2Z.id. exact Hn.
Qed.
Lemma znth_map : forall A B (f : A -> B) l i,
  znth (map f l) i = match znth l i with Some a => Some (f a) | None => None end.
Proof.
  intros A B f l i. unfold znth. destruct (i <? 0); [reflexivity|].
  rewrite nth_error_map. unfold option_map. reflexivity.
Qed.
Lemma znth_ext : forall A (l m : list A), (forall i, znth l i = znth m i) -> l = m.
Proof.
  intros A l. induction l as [|a l IH]; intros [|b m] H.
  - reflexivity.
  - specialize (H 0). discriminate.
  - specialize (H 0). discriminate.
  - pose proof (H 0) as H0. rewrite !znth_0 in H0. inversion H0; subst. f_equal. apply IH.
    intros i. destruct (Z.ltb_spec i 0) as [Hi|Hi].
    + unfold znth. apply Z.ltb_lt in Hi. rewrite Hi. reflexivity.
    + specialize (H (i + 1)). rewrite !znth_cons in H by lia. replace (i + 1 - 1) with i in H by lia. exact H.
Qed.

(* little endian *)
Lemma le_bytes_length : forall n z, length (le_bytes n z) = n.
Proof. induction n as [|n IH]; intros z; cbn [le_bytes length]; [reflexivity|rewrite IH; reflexivity]. Qed.
Lemma le_bytes_zlen : forall n z, zlen (le_bytes n z) = Z.of_nat n.
Proof. intros; unfold zlen; rewrite le_bytes_length; reflexivity. Qed.
Lemma le_bytes_bytes : forall n z, Forall is_byte (le_bytes n z).
Proof.
  induction n as [|n IH]; intros z; cbn [le_bytes]; constructor; [|apply IH].
  unfold is_byte. lia.
Qed.
Lemma le_val_bytes : forall n z, le_val (le_bytes n z) = z mod 256 ^ Z.of_nat n.
Proof.
  induction n as [|n IH]; intros z.
  - cbn [le_bytes le_val]. change (256 ^ Z.of_nat 0) with 1. rewrite Z.mod_1_r. reflexivity.
  - cbn [le_bytes le_val]. rewrite IH. rewrite Nat2Z.inj_succ, Z.pow_succ_r by lia.
    rewrite Z.rem_mul_r by (try apply Z.pow_pos_nonneg; lia). reflexivity.
Qed.
Lemma le_val_bytes_small : forall n z, 0 <= z < 256 ^ Z.of_nat n -> le_val (le_bytes n z) = z.
Proof. intros n z H. rewrite le_val_bytes. apply Z.mod_small; exact H. Qed.
Lemma le_val_range : forall bs, Forall is_byte bs -> 0 <= le_val bs < 256 ^ zlen bs.
Proof.
  intros bs H. induction H as [|b r Hb Hr IH]; [cbn; lia|].
  cbn [le_val]. rewrite zlen_cons. rewrite Z.add_comm with (n := 1). rewrite Z.pow_add_r by (pose proof (zlen_nonneg _ r); lia).
  change (256 ^ 1) with 256. unfold is_byte in Hb. nia.
Qed.
Lemma le_bytes_val : forall bs, Forall is_byte bs -> le_bytes (length bs) (le_val bs) = bs.
Proof.
  intros bs H. induction H as [|b r Hb Hr IH]; [reflexivity|].
  cbn [length le_bytes le_val]. unfold is_byte in Hb. f_equal.
  - lia.
  - replace ((b + 256 * le_val r) / 256) with (le_val r) by lia. exact IH.
Qed.
Lemma le_val_inj : forall a b, Forall is_byte a -> Forall is_byte b -> length a = length b ->
  le_val a = le_val b -> a = b.
Proof.
  intros a b Ha Hb Hl He. rewrite <- (le_bytes_val a Ha), <- (le_bytes_val b Hb), Hl, He. reflexivity.
Qed.

(* slices *)
Lemma slice_length : forall A (l : list A) off len,
  0 <= off -> 0 <= len -> off + len <= zlen l -> zlen (slice l off len) = len.
Proof.
  intros A l off len H1 H2 H3. unfold slice, zlen in *. rewrite firstn_length, skipn_length. lia.
Qed.
Lemma slice_app_exact : forall A (a b c : list A), slice (a ++ b ++ c) (zlen a) (zlen b) = b.
Proof.
  intros. unfold slice, zlen. rewrite !Nat2Z.id. rewrite skipn_app, skipn_all, Nat.sub_diag.
  cbn [skipn app]. rewrite firstn_app, Nat.sub_diag, firstn_all, firstn_O, app_nil_r. reflexivity.
Qed.
Lemma rd_bytes_app : forall (a b c : list Z) off len,
  off = zlen a -> len = zlen b -> rd_bytes (a ++ b ++ c) off len = Ok b.
Proof.
  intros a b c off len -> ->. unfold rd_bytes. rewrite !zlen_app.
  pose proof (zlen_nonneg _ a). pose proof (zlen_nonneg _ b). pose proof (zlen_nonneg _ c).
  replace ((0 <=? zlen a) && (0 <=? zlen b) && (zlen a + zlen b <=? zlen a + (zlen b + zlen c))) with true by lia.
  rewrite slice_app_exact. reflexivity.
Qed.
Lemma splice_app_exact : forall (a b c bs : list Z) off,
  off = zlen a -> length bs = length b -> splice (a ++ b ++ c) off bs = a ++ bs ++ c.
Proof.
  intros a b c bs off -> Hl. unfold splice, zlen. rewrite Nat2Z.id, Hl.
  rewrite firstn_app, Nat.sub_diag, firstn_all, firstn_O, app_nil_r. f_equal. f_equal.
  rewrite app_assoc. rewrite skipn_app. rewrite app_length.
  rewrite skipn_all2 by (rewrite app_length; lia). rewrite Nat.sub_diag. reflexivity.
Qed.
Lemma wr_bytes_app : forall (a b c bs : list Z) off,
  off = zlen a -> length bs = length b -> wr_bytes (a ++ b ++ c) off bs = Ok (a ++ bs ++ c).
Proof.
  intros a b c bs off -> Hl. unfold wr_bytes. rewrite !zlen_app.
  pose proof (zlen_nonneg _ a). pose proof (zlen_nonneg _ c).
  replace (zlen bs) with (zlen b) by (unfold zlen; lia).
  replace ((0 <=? zlen a) && (zlen a + zlen b <=? zlen a + (zlen b + zlen c))) with true by lia.
  rewrite (splice_app_exact a b c bs) by auto. reflexivity.
Qed.
Lemma splice_length : forall l off bs, 0 <= off -> off + zlen bs <= zlen l -> length (splice l off bs) = length l.
Proof.
  intros l off bs H1 H2. unfold splice, zlen in *. rewrite !app_length, firstn_length, skipn_length. lia.
Qed.
Lemma splice_zlen : forall l off bs, 0 <= off -> off + zlen bs <= zlen l -> zlen (splice l off bs) = zlen l.
Proof. intros. unfold zlen. rewrite splice_length; auto. Qed.
Lemma wr_bytes_ok : forall l off bs l', wr_bytes l off bs = Ok l' ->
  0 <= off /\ off + zlen bs <= zlen l /\ l' = splice l off bs.
Proof.
  intros l off bs l' H. unfold wr_bytes in H.
  destruct ((0 <=? off) && (off + zlen bs <=? zlen l)) eqn:E; [|discriminate].
  inversion H; subst. repeat split; lia.
Qed.
Lemma rd_bytes_ok : forall l off len b, rd_bytes l off len = Ok b ->
  0 <= off /\ 0 <= len /\ off + len <= zlen l /\ b = slice l off len.
Proof.
  intros l off len b H. unfold rd_bytes in H.
  destruct ((0 <=? off) && (0 <=? len) && (off + len <=? zlen l)) eqn:E; [|discriminate].
  inversion H; subst. repeat split; lia.
Qed.
Lemma obind_ok : forall A B (m : outcome A) (f : A -> outcome B) b,
  obind m f = Ok b -> exists a, m = Ok a /\ f a = Ok b.
Proof. intros A B [a| | |] f b H; cbn in H; try discriminate. eauto. Qed.

(* pointwise description of splice *)
Lemma znth_splice : forall l off bs i, 0 <= off -> off + zlen bs <= zlen l ->
  znth (splice l off bs) i =
  if (off <=? i) && (i <? off + zlen bs) then znth bs (i - off) else znth l i.
Proof.
  intros l off bs i H1 H2. unfold splice.
  pose proof (zlen_nonneg _ bs) as Hb.
  assert (Hf : zlen (firstn (Z.to_nat off) l) = off) by (unfold zlen in *; rewrite firstn_length; lia).
  destruct (Z.leb_spec off i) as [Hi|Hi]; cbn [andb].
  - rewrite znth_app_r by lia. rewrite Hf. destruct (Z.ltb_spec i (off + zlen bs)) as [Hj|Hj].
    + rewrite znth_app_l by lia. reflexivity.
    + rewrite znth_app_r by lia. unfold znth.
      destruct (Z.ltb_spec (i - off - zlen bs) 0); [lia|]. destruct (Z.ltb_spec i 0); [lia|].
      assert (Hs : forall (k n : nat), nth_error (skipn k l) n = nth_error l (k + n)).
      { clear. intros k n. revert l. induction k as [|k IH]; intros [|a l]; cbn; try reflexivity.
        - destruct n; reflexivity.
        - apply IH. }
      rewrite Hs. f_equal. unfold zlen in *. lia.
  - rewrite znth_app_l by lia. unfold znth. destruct (Z.ltb_spec i 0); [reflexivity|].
    assert (Hs : forall (k n : nat) (m : list Z), (n < k)%nat -> nth_error (firstn k m) n = nth_error m n).
    { clear. induction k as [|k IH]; intros n m Hn; [lia|]. destruct m as [|a m]; [destruct n; reflexivity|].
      destruct n as [|n]; [reflexivity|]. cbn. apply IH. lia. }
    apply Hs. lia.
Qed.
Lemma znth_slice : forall A (l : list A) off len i, 0 <= off -> 0 <= len ->
  znth (slice l off len) i = if (0 <=? i) && (i <? len) then znth l (off + i) else None.
Proof.
  intros A l off len i H1 H2. unfold slice, znth.
  destruct (Z.leb_spec 0 i) as [Hi|Hi]; cbn [andb].
  2:{ destruct (Z.ltb_spec i 0); [reflexivity|lia]. }
  destruct (Z.ltb_spec i 0); [lia|]. destruct (Z.ltb_spec (off + i) 0); [lia|].
  assert (Hs : forall (k n : nat) (m : list A), nth_error (skipn k m) n = nth_error m (k + n)).
  { clear. intros k n m. revert m. induction k as [|k IH]; intros [|a m]; cbn; try reflexivity.
    - destruct n; reflexivity.
    - apply IH. }
  assert (Hf : forall (k n : nat) (m : list A), nth_error (firstn k m) n = if (n <? k)%nat then nth_error m n else None).
  { clear. induction k as [|k IH]; intros n m; [destruct n; reflexivity|]. destruct m as [|a m].
    - destruct (n <? S k)%nat; destruct n; reflexivity.
    - destruct n as [|n]; [reflexivity|]. cbn. rewrite IH. reflexivity. }
  rewrite Hf, Hs. destruct (Z.ltb_spec i len).
  - destruct (Nat.ltb_spec (Z.to_nat i) (Z.to_nat len)); [|lia]. f_equal. lia.
  - destruct (Nat.ltb_spec (Z.to_nat i) (Z.to_nat len)); [lia|reflexivity].
Qed.
