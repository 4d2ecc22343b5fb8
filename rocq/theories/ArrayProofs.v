From Verif Require Import Base BaseProofs ArrayModel ArraySpec.
From Coq Require Import Lia List Bool.

Lemma upd_same : forall T (f : Z -> T) k v, upd f k v k = v.
Proof. intros; unfold upd; rewrite Z.eqb_refl; reflexivity. Qed.
Lemma upd_other : forall T (f : Z -> T) k v x, x <> k -> upd f k v x = f x.
Proof. intros; unfold upd; apply Z.eqb_neq in H; rewrite H; reflexivity. Qed.

(* lists *)
Lemma replace_split : forall (a b : list Z) x v, replace (zlen a) v (a ++ x :: b) = a ++ v :: b.
Proof.
  intros. unfold replace, zlen. rewrite Nat2Z.id. rewrite firstn_app, Nat.sub_diag, firstn_all, firstn_O, app_nil_r. f_equal. f_equal.
  rewrite skipn_app. rewrite (skipn_all2 a) by lia. replace (S (length a) - length a)%nat with 1%nat by lia. reflexivity.
Qed.
Lemma split_at : forall (l : list Z) i, in_list i l = true -> exists a x b, l = a ++ x :: b /\ i = zlen a.
Proof.
  intros. unfold in_list in H. apply andb_true_iff in H. destruct H as (A & B). apply Z.leb_le in A. apply Z.ltb_lt in B. unfold zlen in B.
  destruct (skipn (Z.to_nat i) l) as [| x b] eqn:E.
  - assert (X := skipn_length (Z.to_nat i) l). rewrite E in X. cbn in X. lia.
  - exists (firstn (Z.to_nat i) l), x, b. rewrite <- E. split; [symmetry; apply firstn_skipn |]. unfold zlen. rewrite firstn_length. lia.
Qed.
Lemma in_list_bounds : forall i l, in_list i l = true -> 0 <= i < zlen l.
Proof. intros. unfold in_list in H. apply andb_true_iff in H. lia. Qed.
Lemma zlen_app : forall (a b : list Z), zlen (a ++ b) = zlen a + zlen b.
Proof. intros. unfold zlen. rewrite app_length. lia. Qed.
Lemma zlen_cons : forall x (b : list Z), zlen (x :: b) = zlen b + 1.
Proof. intros. unfold zlen. cbn [length]. lia. Qed.
Lemma nth_split_at : forall (a b : list Z) x, nth (Z.to_nat (zlen a)) (a ++ x :: b) 0 = x.
Proof. intros. unfold zlen. rewrite Nat2Z.id, app_nth2, Nat.sub_diag by lia. reflexivity. Qed.
Lemma zlen_pos : forall l : list Z, 0 <= zlen l.
Proof. intros. unfold zlen. lia. Qed.

(* one block changed *)
Definition edit (h h' : heap) (b o : Z) (c : list Z) : Prop :=
  h_next h' = h_next h /\ h_arrays h' = h_arrays h /\ h_blocks h' b = Some (o, c) /\ forall x, x <> b -> h_blocks h' x = h_blocks h x.
Lemma read_at : forall h b o x y z, h_blocks h b = Some (o, x ++ y :: z) -> read h b (zlen x) = Ok y.
Proof.
  intros. unfold read. rewrite H. pose proof (zlen_pos x). pose proof (zlen_pos z). rewrite zlen_app, zlen_cons.
  replace ((0 <=? zlen x) && (zlen x <? zlen x + (zlen z + 1))) with true by (symmetry; apply andb_true_iff; split; lia). rewrite nth_split_at. reflexivity.
Qed.
Lemma write_at : forall h b o x y z v, h_blocks h b = Some (o, x ++ y :: z) -> exists h', write h b (zlen x) v = Ok h' /\ edit h h' b o (x ++ v :: z).
Proof.
  intros. unfold write. rewrite H. pose proof (zlen_pos x). pose proof (zlen_pos z). rewrite zlen_app, zlen_cons.
  replace ((0 <=? zlen x) && (zlen x <? zlen x + (zlen z + 1))) with true by (symmetry; apply andb_true_iff; split; lia). eexists; split; [reflexivity |].
  pose proof (replace_split x z y v) as R. unfold replace in R. rewrite R. split; [reflexivity |]. split; [reflexivity |]. split; [apply upd_same |]. intros; apply upd_other; assumption.
Qed.
Lemma shift_ok : forall m h b o x y z, h_blocks h b = Some (o, x ++ y :: m ++ z) -> exists h' t, shift (length m) h b (zlen x) = Ok h' /\ edit h h' b o (x ++ m ++ t).
Proof.
  induction m as [| v m IH]; intros * B.
  - exists h, (y :: z). split; [reflexivity |]. cbn in *. repeat split; auto.
  - cbn [length shift]. assert (B2 : h_blocks h b = Some (o, (x ++ [y]) ++ v :: (m ++ z))) by (rewrite B, <- app_assoc; reflexivity).
    assert (L : zlen (x ++ [y]) = zlen x + 1) by (rewrite zlen_app; reflexivity). rewrite <- L, (read_at _ _ _ _ _ _ B2). cbn [obind].
    destruct (write_at h b o x y ((v :: m) ++ z) v B) as (h1 & E & A1 & A2 & A3 & A4). rewrite E. cbn [obind].
    assert (B3 : h_blocks h1 b = Some (o, (x ++ [v]) ++ v :: m ++ z)) by (rewrite A3, <- app_assoc; reflexivity).
    assert (L3 : zlen (x ++ [v]) = zlen x + 1) by (rewrite zlen_app; reflexivity). rewrite L, <- L3.
    destruct (IH _ _ _ _ _ _ B3) as (h2 & t & E2 & C1 & C2 & C3 & C4). exists h2, t. split; [exact E2 |]. split; [congruence |]. split; [congruence |].
    split; [rewrite C3, <- app_assoc; reflexivity |]. intros k K. rewrite C4, A4; auto.
Qed.
Lemma copy_ok : forall m h d s o o' x x' z y, length m = length y -> zlen x = zlen x' -> d <> s -> h_blocks h s = Some (o, x ++ m ++ z) -> h_blocks h d = Some (o', x' ++ y) ->
  exists h', copy (length m) h d s (zlen x) = Ok h' /\ edit h h' d o' (x' ++ m).
Proof.
  induction m as [| v m IH]; intros * L X D S B; destruct y as [| w y]; try discriminate L.
  - exists h. split; [reflexivity |]. repeat split; auto.
  - cbn [length copy]. rewrite (read_at _ _ _ _ _ _ S). cbn [obind]. rewrite X. destruct (write_at _ _ _ _ _ _ v B) as (h1 & E & A1 & A2 & A3 & A4). rewrite E. cbn [obind].
    assert (L1 : zlen (x ++ [v]) = zlen x' + 1) by (rewrite zlen_app, X; reflexivity). assert (L2 : zlen (x' ++ [v]) = zlen x' + 1) by (rewrite zlen_app; reflexivity).
    destruct (IH h1 d s o o' (x ++ [v]) (x' ++ [v]) z y) as (h2 & E2 & C1 & C2 & C3 & C4); [injection L; auto | congruence | exact D | rewrite A4 by auto; rewrite S, <- app_assoc; reflexivity | rewrite A3, <- app_assoc; reflexivity |].
    exists h2. rewrite <- L1. split; [exact E2 |]. split; [congruence |]. split; [congruence |]. split; [rewrite C3, <- app_assoc; reflexivity |]. intros k K. rewrite C4, A4; auto.
Qed.

(* the arrays of a heap are those lists *)
Definition holds (h : heap) (a : carray) (z : bool) (l : list Z) : Prop :=
  a_size a = zlen l /\ zlen l < 4294967296 /\ (z = true <-> a_alloc a <> 0) /\
  (l = [] /\ z = false /\ a_data a = 0 \/ exists o c, h_blocks h (a_data a) = Some (o, l ++ c) /\ (z = true -> o = a_alloc a)).
Record Inv (h : heap) (s : lists) : Prop := {
  v_arrays : forall t, match h_arrays h t, s t with None, None => True | Some a, Some (z, l) => holds h a z l | _, _ => False end;
  v_apart : forall t t' a a', t <> t' -> h_arrays h t = Some a -> h_arrays h t' = Some a' -> a_data a = a_data a' -> a_data a = 0;
  v_fresh : forall b, b <= 0 \/ h_next h <= b -> h_blocks h b = None;
  v_next : 1 <= h_next h }.
Lemma Inv_start : Inv start no_lists.
Proof. split; cbn; intros; try lia; auto; discriminate. Qed.

Lemma holds_other : forall h h' a z l b, (forall x, x <> b -> h_blocks h' x = h_blocks h x) -> a_data a <> b \/ a_data a = 0 /\ h_blocks h 0 = None -> holds h a z l -> holds h' a z l.
Proof.
  intros * E N (A & B & C & D). split; [exact A |]. split; [exact B |]. split; [exact C |]. destruct D as [D | (o & c & D & F)]; [left; exact D |].
  destruct N as [N | (N & M)]; [right; exists o, c; rewrite E by exact N; auto | rewrite N, M in D; discriminate D].
Qed.
Lemma held : forall h s t a, Inv h s -> h_arrays h t = Some a -> 0 <= a_data a < h_next h.
Proof.
  intros * I A. pose proof (v_arrays _ _ I t) as V. rewrite A in V. destruct (s t) as [(z, l) |]; [| contradiction]. destruct V as (_ & _ & _ & [(_ & _ & E) | (o & c & E & _)]).
  - rewrite E. pose proof (v_next _ _ I). lia.
  - destruct (Z_lt_le_dec (a_data a) (h_next h)) as [X | X]; [| rewrite (v_fresh _ _ I) in E by (right; exact X); discriminate E].
    destruct (Z_le_gt_dec 0 (a_data a)); [lia |]. rewrite (v_fresh _ _ I) in E by (left; lia). discriminate E.
Qed.
(* the block of an array and its size are changed *)
Lemma Inv_edit : forall h s this a z l h' o c l', Inv h s -> h_arrays h this = Some a -> s this = Some (z, l) -> h_blocks h (a_data a) <> None -> (z = true -> o = a_alloc a) ->
  edit h h' (a_data a) o (l' ++ c) -> zlen l' <= zlen l ->
  Inv (set_array h' this (Some (mk_carray (zlen l') (a_data a) (a_alloc a)))) (upd s this (Some (z, l'))).
Proof.
  intros * I A S B O (E1 & E2 & E3 & E4) L. pose proof (v_arrays _ _ I this) as V. rewrite A, S in V. destruct V as (V1 & V2 & V3 & V4).
  assert (P : 0 < a_data a < h_next h). { pose proof (held _ _ _ _ I A). destruct (Z.eq_dec (a_data a) 0) as [X | X]; [| lia]. rewrite X, (v_fresh _ _ I) in B by lia. destruct B; reflexivity. }
  split; cbn.
  - intros t. unfold upd. destruct (t =? this) eqn:T.
    + split; [reflexivity |]. split; [lia |]. split; [exact V3 |]. right. exists o, c. cbn. auto.
    + apply Z.eqb_neq in T. rewrite E2. pose proof (v_arrays _ _ I t) as W. destruct (h_arrays h t) as [a' |] eqn:A'; destruct (s t) as [(z', k) |]; auto.
      apply (holds_other h _ a' z' k (a_data a)); [exact E4 | | exact W]. left. intros X. pose proof (v_apart _ _ I _ _ _ _ T A' A X). lia.
  - intros t t' b b' N. unfold upd. rewrite E2. destruct (t =? this) eqn:T; destruct (t' =? this) eqn:T'; intros X Y Z.
    + apply Z.eqb_eq in T, T'. congruence.
    + injection X as <-. cbn in *. apply Z.eqb_eq in T; subst t. exact (v_apart _ _ I _ _ _ _ N A Y Z).
    + injection Y as <-. cbn in *. apply Z.eqb_eq in T'; subst t'. exact (v_apart _ _ I _ _ _ _ N X A Z).
    + exact (v_apart _ _ I _ _ _ _ N X Y Z).
  - intros b F. rewrite E1 in F. rewrite E4 by lia. apply (v_fresh _ _ I); exact F.
  - rewrite E1. apply I.
Qed.
(* an array with a block that is new *)
Lemma Inv_new : forall h s this (a : carray) z l o h', Inv h s -> h_next h' = h_next h + 1 -> h_arrays h' = upd (h_arrays h) this (Some a) ->
  h_blocks h' (h_next h) = Some (o, l) -> (forall x, x <> h_next h -> h_blocks h' x = h_blocks h x) ->
  a_size a = zlen l -> zlen l < 4294967296 -> (z = true <-> a_alloc a <> 0) -> (z = true -> o = a_alloc a) -> a_data a = h_next h ->
  Inv h' (upd s this (Some (z, l))).
Proof.
  intros * I E1 E2 E3 E4 S L Z O D. pose proof (v_next _ _ I) as N. split.
  - intros t. rewrite E2. unfold upd. destruct (t =? this) eqn:T.
    + split; [exact S |]. split; [exact L |]. split; [exact Z |]. right. exists o, []. rewrite D, app_nil_r. auto.
    + pose proof (v_arrays _ _ I t) as W. destruct (h_arrays h t) as [a' |] eqn:A'; destruct (s t) as [(z', k) |]; auto.
      apply (holds_other h _ a' z' k (h_next h)); [exact E4 | | exact W]. left. pose proof (held _ _ _ _ I A'). lia.
  - intros t t' b b' M. rewrite E2. unfold upd. destruct (t =? this) eqn:T; destruct (t' =? this) eqn:T'; intros X Y W.
    + apply Z.eqb_eq in T, T'. congruence.
    + injection X as <-. pose proof (held _ _ _ _ I Y). lia.
    + injection Y as <-. pose proof (held _ _ _ _ I X). lia.
    + exact (v_apart _ _ I _ _ _ _ M X Y W).
  - intros b F. rewrite E1 in F. rewrite E4 by lia. apply (v_fresh _ _ I). lia.
  - lia.
Qed.
Lemma block_of : forall h a z l i, holds h a z l -> in_list i l = true -> a_size a = zlen l /\ 0 <= i < zlen l /\ zlen l < 4294967296 /\ exists o c, h_blocks h (a_data a) = Some (o, l ++ c) /\ (z = true -> o = a_alloc a).
Proof.
  intros * (A & L & _ & [(-> & _) | B]) I; apply in_list_bounds in I; [unfold zlen in I; cbn in I; lia |]. repeat split; auto; lia.
Qed.
Lemma same_array : forall h a z l, holds h a z l -> a = mk_carray (zlen l) (a_data a) (a_alloc a).
Proof. intros h [x y w] z l (A & _). cbn in *. congruence. Qed.
Lemma Inv_ext : forall h h' s, Inv h s -> h_next h' = h_next h -> h_blocks h' = h_blocks h -> (forall t, h_arrays h' t = h_arrays h t) -> Inv h' s.
Proof.
  intros * I A B C. split; rewrite ?A, ?B; try apply I.
  - intros t. rewrite C. pose proof (v_arrays _ _ I t) as V. destruct (h_arrays h t); destruct (s t) as [(z, l) |]; auto. unfold holds in *. rewrite B. exact V.
  - intros t t' a a' N. rewrite !C. apply I; exact N.
Qed.
Lemma last_split : forall (l : list Z), l <> [] -> exists m, l = m ++ [last l 0].
Proof. intros. exists (removelast l). apply app_removelast_last. exact H. Qed.

Lemma some_pair : forall A B (a a' : A) (b b' : B), Some (a, b) = Some (a', b') -> a = a' /\ b = b'.
Proof. intros * E. split; congruence. Qed.
Lemma step_ok : forall h s c s' v, Inv h s -> list_step s c = Some (s', v) -> exists h', astep h c = Ok (h', v) /\ Inv h' s'.
Proof.
  intros * I E. destruct c as [t | t n al | t i | t i x | t i | t i | d r al | d r | t]; cbn [list_step astep] in *; try discriminate E.
  - pose proof (v_arrays _ _ I t) as V. destruct (s t) as [(z, l) |] eqn:ST; [discriminate E |]. apply some_pair in E; destruct E as (<- & <-). destruct (h_arrays h t) as [a |] eqn:A; [contradiction |].
    eexists; split; [reflexivity |]. split; cbn; try apply I.
    + intros u. unfold upd. destruct (u =? t); [| apply (v_arrays _ _ I u)]. split; [reflexivity |]. split; [cbn; lia |]. split; [cbn; split; [discriminate | intros X; destruct X; reflexivity] |]. left; auto.
    + intros u u' a a' N. unfold upd. destruct (u =? t) eqn:U; destruct (u' =? t) eqn:U'; intros X Y W.
      * injection X as <-. reflexivity.
      * injection X as <-. reflexivity.
      * injection Y as <-. exact W.
      * exact (v_apart _ _ I _ _ _ _ N X Y W).
  - pose proof (v_arrays _ _ I t) as V. destruct (s t) as [(z, l) |] eqn:ST; [discriminate E |]. destruct (h_arrays h t) as [a |] eqn:A; [contradiction |].
    destruct ((0 <=? n) && (n <? 4294967296) && negb (al =? 0)) eqn:G; [| discriminate E]. apply some_pair in E; destruct E as (<- & <-). apply andb_true_iff in G. destruct G as (G & G3). apply andb_true_iff in G. destruct G as (G1 & G2).
    apply negb_true_iff in G3. rewrite G3. cbn [alloc]. apply Z.eqb_neq in G3. eexists; split; [reflexivity |].
    apply (Inv_new h s t (mk_carray n (h_next h) al) true (repeat 0 (Z.to_nat n)) al); cbn; auto; try (unfold zlen; rewrite repeat_length; lia); try tauto.
    + apply upd_same.
    + intros; apply upd_other; assumption.
  - pose proof (v_arrays _ _ I t) as V. destruct (s t) as [(z, l) |] eqn:ST; [| discriminate E]. destruct (in_list i l) eqn:G; [| discriminate E]. apply some_pair in E; destruct E as (<- & <-).
    destruct (h_arrays h t) as [a |] eqn:A; [| contradiction]. destruct (block_of _ _ _ _ _ V G) as (Q & P & L & o & c & B & O). rewrite Q. replace (i <? zlen l) with true by (symmetry; apply Z.ltb_lt; lia). cbn [assert obind].
    destruct (split_at _ _ G) as (x & y & w & -> & ->). rewrite <- app_assoc in B. cbn [app] in B. rewrite (read_at _ _ _ _ _ _ B). cbn [obind]. exists h. rewrite nth_split_at. auto.
  - pose proof (v_arrays _ _ I t) as V. destruct (s t) as [(z, l) |] eqn:ST; [| discriminate E]. destruct (in_list i l) eqn:G; [| discriminate E]. apply some_pair in E; destruct E as (<- & <-).
    destruct (h_arrays h t) as [a |] eqn:A; [| contradiction]. destruct (block_of _ _ _ _ _ V G) as (Q & P & L & o & c & B & O). rewrite Q. replace (i <? zlen l) with true by (symmetry; apply Z.ltb_lt; lia). cbn [assert obind].
    pose proof (same_array _ _ _ _ V) as SA. destruct (split_at _ _ G) as (p & y & w & -> & ->). rewrite <- app_assoc in B. cbn [app] in B. destruct (write_at _ _ _ _ _ _ x B) as (h1 & E1 & E2). rewrite E1. cbn [obind].
    exists h1. split; [reflexivity |]. rewrite replace_split.
    assert (X : Inv (set_array h1 t (Some (mk_carray (zlen (p ++ x :: w)) (a_data a) (a_alloc a)))) (upd s t (Some (z, p ++ x :: w)))).
    { apply (Inv_edit h s t a z (p ++ y :: w) h1 o c (p ++ x :: w) I A ST); auto; [congruence | rewrite <- app_assoc; exact E2 | rewrite !zlen_app, !zlen_cons; lia]. }
    apply (Inv_ext _ _ _ X); try reflexivity. intros u. cbn. unfold upd. destruct (u =? t) eqn:U; [| reflexivity]. apply Z.eqb_eq in U; subst u. destruct E2 as (_ & E2 & _). rewrite E2, A, SA. cbn. rewrite !zlen_app, !zlen_cons. reflexivity.
  - pose proof (v_arrays _ _ I t) as V. destruct (s t) as [(z, l) |] eqn:ST; [| discriminate E]. destruct (in_list i l) eqn:G; [| discriminate E]. apply some_pair in E; destruct E as (<- & <-).
    destruct (h_arrays h t) as [a |] eqn:A; [| contradiction]. destruct (block_of _ _ _ _ _ V G) as (Q & P & L & o & c & B & O). rewrite Q. replace (i <? zlen l) with true by (symmetry; apply Z.ltb_lt; lia). cbn [assert obind].
    destruct (split_at _ _ G) as (p & y & w & -> & ->).
    assert (N : Z.to_nat (u32 (zlen (p ++ y :: w) - 1) - zlen p) = length w). { unfold u32. rewrite Z.mod_small by lia. rewrite zlen_app, zlen_cons. unfold zlen. lia. }
    rewrite N. assert (B2 : h_blocks h (a_data a) = Some (o, p ++ y :: w ++ c)) by (rewrite B, <- app_assoc; reflexivity).
    destruct (shift_ok w h (a_data a) o p y c B2) as (h1 & tl & E1 & E2). rewrite E1. cbn [obind]. eexists; split; [reflexivity |].
    assert (R : firstn (Z.to_nat (zlen p)) (p ++ y :: w) ++ skipn (S (Z.to_nat (zlen p))) (p ++ y :: w) = p ++ w).
    { unfold zlen. rewrite Nat2Z.id, firstn_app, Nat.sub_diag, firstn_all, firstn_O, app_nil_r. f_equal. rewrite skipn_app, (skipn_all2 p) by lia. replace (S (length p) - length p)%nat with 1%nat by lia. reflexivity. }
    rewrite R. replace (zlen (p ++ y :: w) - 1) with (zlen (p ++ w)) by (rewrite !zlen_app, zlen_cons; lia).
    apply (Inv_edit h s t a z (p ++ y :: w) h1 o tl (p ++ w) I A ST); auto; [congruence | rewrite <- app_assoc; exact E2 | rewrite !zlen_app, zlen_cons; lia].
  - pose proof (v_arrays _ _ I t) as V. destruct (s t) as [(z, l) |] eqn:ST; [| discriminate E]. destruct (in_list i l) eqn:G; [| discriminate E]. apply some_pair in E; destruct E as (<- & <-).
    destruct (h_arrays h t) as [a |] eqn:A; [| contradiction]. destruct (block_of _ _ _ _ _ V G) as (Q & P & L & o & c & B & O). rewrite Q. replace (i <? zlen l) with true by (symmetry; apply Z.ltb_lt; lia). cbn [assert obind].
    assert (NE : l <> []) by (intros ->; unfold zlen in P; cbn in P; lia). destruct (last_split l NE) as (m & LM).
    assert (B2 : h_blocks h (a_data a) = Some (o, m ++ last l 0 :: c)) by (rewrite B, LM at 1; rewrite <- app_assoc; reflexivity).
    assert (ZM : zlen l - 1 = zlen m) by (rewrite LM, zlen_app, zlen_cons; unfold zlen; cbn; lia). rewrite ZM, (read_at _ _ _ _ _ _ B2). cbn [obind].
    destruct (split_at _ _ G) as (p & y & w & LS & ->). set (v := last l 0) in *. assert (B3 : h_blocks h (a_data a) = Some (o, p ++ y :: w ++ c)) by (rewrite B, LS, <- app_assoc; reflexivity).
    destruct (write_at _ _ _ _ _ _ v B3) as (h1 & E1 & E2). rewrite E1. cbn [obind]. eexists; split; [reflexivity |].
    assert (R : replace (zlen p) v l = p ++ v :: w) by (rewrite LS; apply replace_split). rewrite R.
    assert (NR : p ++ v :: w <> []) by (destruct p; discriminate). pose proof (app_removelast_last 0 NR) as RL. set (q := removelast (p ++ v :: w)) in *.
    assert (ZQ : zlen q = zlen m). { assert (X : zlen (p ++ v :: w) = zlen q + 1) by (rewrite RL, zlen_app; reflexivity). assert (Y : zlen l = zlen (p ++ v :: w)) by (rewrite LS, !zlen_app, !zlen_cons; reflexivity). lia. }
    rewrite <- ZQ. apply (Inv_edit h s t a z l h1 o (last (p ++ v :: w) 0 :: c) q I A ST); auto; [congruence | | lia].
    replace (q ++ last (p ++ v :: w) 0 :: c) with (p ++ v :: w ++ c); [exact E2 |]. transitivity ((q ++ [last (p ++ v :: w) 0]) ++ c); [rewrite <- RL, <- app_assoc; reflexivity | rewrite <- app_assoc; reflexivity].
  - destruct (s d) as [([|], ld) |] eqn:SD; try discriminate E. destruct (s r) as [(z, l) |] eqn:SR; [| discriminate E].
    destruct (negb (d =? r) && negb (al =? 0)) eqn:G; [| discriminate E]. apply some_pair in E; destruct E as (<- & <-). apply andb_true_iff in G. destruct G as (G1 & G2). rewrite G2. apply negb_true_iff in G1. apply Z.eqb_neq in G1.
    pose proof (v_arrays _ _ I d) as VD. rewrite SD in VD. destruct (h_arrays h d) as [ad |] eqn:AD; [| contradiction]. pose proof (v_arrays _ _ I r) as VR. rewrite SR in VR. destruct (h_arrays h r) as [ar |] eqn:AR; [| contradiction].
    cbn [assert obind alloc set_array h_arrays h_next h_blocks]. rewrite upd_other by auto. rewrite AR. pose proof VR as (Q & L & _ & HB). rewrite Q.
    destruct VD as (_ & _ & ZD & _).
    set (h1 := set_array _ _ _). assert (D1 : h_blocks h1 (h_next h) = Some (al, [] ++ repeat 0 (Z.to_nat (zlen l)))) by apply upd_same.
    assert (C : exists h2, copy (Z.to_nat (zlen l)) h1 (h_next h) (a_data ar) 0 = Ok h2 /\ edit h1 h2 (h_next h) al ([] ++ l)).
    { replace (Z.to_nat (zlen l)) with (length l) in * by (unfold zlen; lia). destruct HB as [(-> & _) | (o & c & HB & _)].
      - exists h1. split; [reflexivity |]. repeat split; auto.
      - pose proof (held _ _ _ _ I AR). apply (copy_ok l h1 (h_next h) (a_data ar) o al [] [] c (repeat 0 (length l))); auto; [rewrite repeat_length; reflexivity | lia |]. cbn. rewrite upd_other by lia. exact HB. }
    destruct C as (h2 & E2 & F1 & F2 & F3 & F4). rewrite E2. cbn [obind]. exists h2. split; [reflexivity |].
    apply (Inv_new h s d (mk_carray (zlen l) (h_next h) (a_alloc ad)) false l al); auto; try discriminate.
    + intros k K. rewrite F4 by exact K. cbn. apply upd_other; exact K.
  - pose proof (v_arrays _ _ I t) as V. destruct (s t) as [(z, l) |] eqn:ST; [| discriminate E]. apply some_pair in E; destruct E as (<- & <-). destruct (h_arrays h t) as [a |] eqn:A; [| contradiction].
    destruct V as (V1 & V2 & V3 & V4).
    assert (X : exists h1, (if a_alloc a =? 0 then Ok h else free h (a_alloc a) (a_data a)) = Ok h1 /\ h_next h1 = h_next h /\ h_arrays h1 = h_arrays h /\ forall k, h_blocks h1 k = h_blocks h k \/ k = a_data a /\ a_data a <> 0 /\ h_blocks h1 k = None).
    { destruct (a_alloc a =? 0) eqn:Z0; [exists h; auto |]. apply Z.eqb_neq in Z0. apply V3 in Z0. subst z. destruct V4 as [(_ & V4 & _) | (o & c & B & O)]; [discriminate V4 |].
      unfold free. rewrite B, (O eq_refl), Z.eqb_refl. eexists; split; [reflexivity |]. split; [reflexivity |]. split; [reflexivity |]. intros k. cbn. unfold upd. destruct (k =? a_data a) eqn:K; [| auto]. apply Z.eqb_eq in K. right. split; [exact K |]. split; [| reflexivity].
      intros W. rewrite W, (v_fresh _ _ I) in B by lia. discriminate B. }
    destruct X as (h1 & E1 & F1 & F2 & F3). rewrite E1. cbn [obind]. eexists; split; [reflexivity |]. split; cbn; rewrite ?F1, ?F2.
    + intros u. unfold upd. destruct (u =? t) eqn:U; [exact Logic.I |]. apply Z.eqb_neq in U. pose proof (v_arrays _ _ I u) as W. destruct (h_arrays h u) as [a' |] eqn:A'; destruct (s u) as [(z', k) |]; auto.
      destruct W as (W1 & W2 & W3 & W4). split; [exact W1 |]. split; [exact W2 |]. split; [exact W3 |]. destruct W4 as [W4 | (o & c & W4 & W5)]; [left; exact W4 |]. right. exists o, c. cbn.
      destruct (F3 (a_data a')) as [F | (F & NZ & _)]; [rewrite F; auto |]. exfalso. apply NZ. rewrite <- F. exact (v_apart _ _ I _ _ _ _ U A' A F).
    + intros u u' b b' N. unfold upd. destruct (u =? t); [discriminate |]. destruct (u' =? t); [discriminate |]. apply (v_apart _ _ I). exact N.
    + intros b F. destruct (F3 b) as [K | (_ & _ & K)]; rewrite K; auto. apply (v_fresh _ _ I). exact F.
    + apply I.
Qed.
Lemma run_ok : forall cs h s s' vs, Inv h s -> list_run s cs = Some (s', vs) -> exists h', arun h cs = Ok (h', vs) /\ Inv h' s'.
Proof.
  induction cs as [| c cs IH]; intros * I E; cbn [list_run arun] in *; [apply some_pair in E; destruct E as (<- & <-); eauto |].
  destruct (list_step s c) as [(s1, v) |] eqn:ST; [| discriminate E]. destruct (list_run s1 cs) as [(s2, ws) |] eqn:R; [| discriminate E]. apply some_pair in E; destruct E as (<- & <-).
  destruct (step_ok _ _ _ _ _ I ST) as (h1 & E1 & I1). destruct (IH _ _ _ _ I1 R) as (h2 & E2 & I2). exists h2. rewrite E1. cbn [obind fst snd]. rewrite E2. auto.
Qed.

(* without copies every live block is of an array that frees it *)
Definition owned (h : heap) : Prop := forall b, h_blocks h b <> None -> exists t a, h_arrays h t = Some a /\ a_data a = b /\ a_alloc a <> 0.
Lemma write_live : forall h b i v h', write h b i v = Ok h' -> h_arrays h' = h_arrays h /\ forall x, h_blocks h' x <> None -> h_blocks h x <> None.
Proof.
  intros * E. unfold write in E. destruct (h_blocks h b) as [(o, c) |] eqn:B; [| discriminate E]. destruct (_ && _); [| discriminate E]. inversion E; subst; clear E. split; [reflexivity |].
  cbn. intros x X. unfold upd in X. destruct (x =? b) eqn:W; [apply Z.eqb_eq in W; congruence | exact X].
Qed.
Lemma shift_live : forall n h b i h', shift n h b i = Ok h' -> h_arrays h' = h_arrays h /\ forall x, h_blocks h' x <> None -> h_blocks h x <> None.
Proof.
  induction n; intros * E; cbn [shift] in E; [inversion E; subst; auto |]. destruct (read h b (i + 1)); try discriminate E. cbn [obind] in E. destruct (write h b i a) as [h1 | | |] eqn:W; try discriminate E. cbn [obind] in E.
  destruct (IHn _ _ _ _ E) as (A & B). destruct (write_live _ _ _ _ _ W) as (C & D). split; [congruence | auto].
Qed.
Lemma owned_sized : forall h h' t a s, owned h -> h_arrays h t = Some a -> h_arrays h' = h_arrays h -> (forall x, h_blocks h' x <> None -> h_blocks h x <> None) ->
  owned (set_array h' t (Some (mk_carray s (a_data a) (a_alloc a)))).
Proof.
  intros * O A E L b B. cbn in *. rewrite E. destruct (O b (L b B)) as (u & x & X1 & X2 & X3). unfold upd. destruct (Z.eq_dec u t) as [-> | N].
  - rewrite A in X1. injection X1 as <-. exists t. eexists. rewrite Z.eqb_refl. auto.
  - exists u, x. apply Z.eqb_neq in N. rewrite N. auto.
Qed.
Lemma owned_step : forall h c h' v, owned h -> copies c = false -> astep h c = Ok (h', v) -> owned h'.
Proof.
  intros * O C E. destruct c as [t | t n al | t i | t i x | t i | t i | d r al | d r | t]; cbn [astep copies] in *; try discriminate C.
  - destruct (h_arrays h t) eqn:A; [discriminate E |]. inversion E; subst; clear E. intros b B. destruct (O b B) as (u & a & X1 & X2). exists u, a. cbn. rewrite upd_other by congruence. auto.
  - destruct (h_arrays h t) eqn:A; [discriminate E |]. destruct (al =? 0) eqn:AL; [discriminate E |]. cbn [alloc] in E. inversion E; subst; clear E. apply Z.eqb_neq in AL. intros b B. cbn in B |- *. destruct (Z.eq_dec b (h_next h)) as [-> | N].
    + exists t. eexists. rewrite upd_same. split; [reflexivity |]. auto.
    + rewrite upd_other in B by exact N. destruct (O b B) as (u & a & X1 & X2). exists u, a. rewrite upd_other by congruence. auto.
  - destruct (h_arrays h t); [| discriminate E]. destruct (assert _); try discriminate E. cbn [obind] in E. destruct (read _ _ _); try discriminate E. inversion E; subst; exact O.
  - destruct (h_arrays h t) eqn:A; [| discriminate E]. destruct (assert _); try discriminate E. cbn [obind] in E. destruct (write _ _ _ _) as [h1 | | |] eqn:W; try discriminate E. inversion E; subst; clear E.
    destruct (write_live _ _ _ _ _ W) as (X & Y). intros b B. rewrite X. exact (O b (Y b B)).
  - destruct (h_arrays h t) as [a |] eqn:A; [| discriminate E]. destruct (assert _); try discriminate E. cbn [obind] in E. destruct (shift _ _ _ _) as [h1 | | |] eqn:W; try discriminate E. inversion E; subst; clear E.
    destruct (shift_live _ _ _ _ _ W) as (X & Y). apply (owned_sized h); auto.
  - destruct (h_arrays h t) as [a |] eqn:A; [| discriminate E]. destruct (assert _); try discriminate E. cbn [obind] in E. destruct (read _ _ _); try discriminate E. cbn [obind] in E. destruct (write _ _ _ _) as [h1 | | |] eqn:W; try discriminate E. inversion E; subst; clear E.
    destruct (write_live _ _ _ _ _ W) as (X & Y). apply (owned_sized h); auto.
  - destruct (h_arrays h t) as [a |] eqn:A; [| discriminate E]. destruct (a_alloc a =? 0) eqn:AL.
    + cbn [obind] in E. inversion E; subst; clear E. apply Z.eqb_eq in AL. intros b B. destruct (O b B) as (u & a' & X1 & X2 & X3). exists u, a'. cbn. rewrite upd_other by congruence. auto.
    + unfold free in E. destruct (h_blocks h (a_data a)) as [(o, c) |]; [| discriminate E]. destruct (o =? a_alloc a); [| discriminate E]. cbn [obind] in E. inversion E; subst; clear E. intros b B. cbn in *.
      destruct (Z.eq_dec b (a_data a)) as [-> | N]; [rewrite upd_same in B; congruence |]. rewrite upd_other in B by exact N. destruct (O b B) as (u & a' & X1 & X2 & X3). exists u, a'. rewrite upd_other by congruence. auto.
Qed.
Lemma owned_run : forall cs h h' vs, owned h -> forallb (fun c => negb (copies c)) cs = true -> arun h cs = Ok (h', vs) -> owned h'.
Proof.
  induction cs as [| c cs IH]; intros * O C E; cbn [arun forallb] in *; [inversion E; subst; exact O |]. apply andb_true_iff in C. destruct C as (C1 & C2). apply negb_true_iff in C1.
  destruct (astep h c) as [(h1, v) | | |] eqn:S; try discriminate E. cbn [obind fst snd] in E. destruct (arun h1 cs) as [(h2, ws) | | |] eqn:R; try discriminate E. cbn [obind fst snd] in E. inversion E; subst; clear E.
  exact (IH _ _ _ (owned_step _ _ _ _ O C1 S) C2 R).
Qed.

Lemma arun_app : forall a b h h' vs, arun h a = Ok (h', vs) -> arun h (a ++ b) = do y <- arun h' b; Ok (fst y, vs ++ snd y).
Proof.
  induction a as [| c a IH]; intros * E; cbn [app arun] in *.
  - inversion E; subst. destruct (arun h' b) as [(h2, ws) | | |]; reflexivity.
  - destruct (astep h c) as [(h1, v) | | |]; try discriminate E. cbn [obind fst snd] in *. destruct (arun h1 a) as [(h2, ws) | | |] eqn:R; try discriminate E. cbn [obind fst snd] in E.
    inversion E; subst. rewrite (IH b _ _ _ R). destruct (arun h' b) as [(h3, us) | | |]; reflexivity.
Qed.
Lemma delete_live : forall h t a c, h_arrays h t = Some a -> (a_alloc a =? 0) = false -> h_blocks h (a_data a) = Some (a_alloc a, c) ->
  exists h', astep h (Delete t) = Ok (h', 0) /\ h_blocks h' (a_data a) = None /\ forall u, u <> t -> h_arrays h' u = h_arrays h u.
Proof.
  intros * A Z B. cbn [astep]. rewrite A, Z. unfold free. rewrite B, Z.eqb_refl. cbn [obind]. eexists; split; [reflexivity |]. split; [cbn; apply upd_same |]. intros u N. cbn. apply upd_other. exact N.
Qed.
Lemma delete_dead : forall h t a, h_arrays h t = Some a -> (a_alloc a =? 0) = false -> h_blocks h (a_data a) = None -> astep h (Delete t) = UB.
Proof. intros * A Z B. cbn [astep]. rewrite A, Z. unfold free. rewrite B. reflexivity. Qed.
