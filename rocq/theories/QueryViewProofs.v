(* Memory of a loaded database in which some numbers have been overwritten. *)
From Coq Require Import String Permutation Sorted.
From Verif Require Import Base BaseProofs Text Maps DatabaseModel ExportModel ExportSpec.
From Verif Require Import ImageLayout ImageModel ImageSpec LaidModel LaidSpec LaidProofs LaidImageProofs LaidLinkProofs LaidReadProofs QueryModel.
#[local] Open Scope string_scope.
#[local] Open Scope Z_scope.
#[local] Open Scope list_scope.

(* leaves of one value do not overlap, and have different names *)
Lemma ordered_apart : forall ls pos size p o w p' o' w', ordered pos ls size = true -> In (p, o, w) ls -> In (p', o', w') ls -> p <> p' -> o + w <= o' \/ o' + w' <= o.
Proof.
  induction ls as [|[[q x] y] ls IH]; intros pos size p o w p' o' w' H I I' N; [contradiction|]. cbn [ordered] in H. apply andb_prop in H. destruct H as [_ H]. destruct (ordered_le _ _ _ H) as [_ B].
  destruct I as [I|I], I' as [I'|I'].
  - congruence.
  - assert (p = q /\ o = x /\ w = y) as (_ & -> & ->) by (repeat split; congruence). left. apply B in I'. lia.
  - assert (p' = q /\ o' = x /\ w' = y) as (_ & -> & ->) by (repeat split; congruence). right. apply B in I. lia.
  - eapply IH; eassumption.
Qed.
Definition unique_check (u : ctype) : bool := forallb (fun x => let '(p, o, w) := x in pair_eqb (leaf_at u p) o w) (leaves u).
Lemma leaf_unique : forall t p o w o' w', In (p, o, w) (leaves (type_of t)) -> In (p, o', w') (leaves (type_of t)) -> o = o' /\ w = w'.
Proof.
  intros t p o w o' w' I I'. assert (C : unique_check (type_of t) = true). { destruct t as [| | |k| | | |h|]; try destruct k; vm_compute; reflexivity. }
  unfold unique_check in C. rewrite forallb_forall in C. pose proof (C _ I) as Q. pose proof (C _ I') as Q'. cbn beta iota in Q, Q'. unfold pair_eqb in Q, Q'. destruct (leaf_at (type_of t) p) as [[a b]|]; [|discriminate Q]. lia.
Qed.
Lemma le_bytes_mod : forall n z, le_bytes n z = le_bytes n (z mod 256 ^ Z.of_nat n).
Proof. intros n z. rewrite <- (le_val_bytes n z). pose proof (le_bytes_val (le_bytes n z) (le_bytes_bytes n z)) as Q. rewrite le_bytes_length in Q. symmetry. exact Q. Qed.

Section View.
Variables (e : export) (heap : list (tag * list Z)) (pad fb base : Z).
Hypothesis LK : linked e.
Hypothesis HO : heap_ok e heap.
Notation img := (image e heap pad fb base).
Notation SIZE := (image_size e heap).

(* number p of element j of allocation t is w bytes at pos and was written as z *)
Definition at_cell (t : tag) (j : nat) (p : list string) (pos w z : Z) : Prop :=
  exists o lo v, offset e heap t = Some o /\ nth_error (elems e heap fb base t) j = Some v /\ In (p, lo, w) (leaves (type_of t)) /\
    pos = o + Z.of_nat j * size_of (type_of t) + lo /\ z = v p.
Lemma cell_img : forall t j p pos w z, at_cell t j p pos w z -> slice img pos w = le_bytes (Z.to_nat w) z /\ 0 <= pos /\ pos + w <= SIZE /\ 1 <= w.
Proof.
  intros t j p pos w z (o & lo & v & O & E & I & -> & ->). destruct (image_slice e heap pad fb LK HO base t o j v p lo w O E I) as (Q1 & Q2 & Q3). pose proof (leaf_range _ (type_of_laid t) p lo w I). tauto.
Qed.
Lemma cell_same : forall t j p pos w z pos' w' z', at_cell t j p pos w z -> at_cell t j p pos' w' z' -> pos = pos' /\ w = w' /\ z = z'.
Proof.
  intros t j p pos w z pos' w' z' (o & lo & v & O & E & I & -> & ->) (o' & lo' & v' & O' & E' & I' & -> & ->). destruct (leaf_unique t p lo w lo' w' I I') as [-> ->]. assert (o = o') by congruence. assert (v = v') by congruence. subst. auto.
Qed.
Lemma cell_apart : forall t j p pos w z t' j' p' pos' w' z', at_cell t j p pos w z -> at_cell t' j' p' pos' w' z' -> (t, j, p) <> (t', j', p') -> pos + w <= pos' \/ pos' + w' <= pos.
Proof.
  intros t j p pos w z t' j' p' pos' w' z' (o & lo & v & O & E & I & -> & _) (o' & lo' & v' & O' & E' & I' & -> & _) N.
  pose proof (leaf_range _ (type_of_laid t) p lo w I) as R. pose proof (leaf_range _ (type_of_laid t') p' lo' w' I') as R'. pose proof (size_pos t) as P. pose proof (size_pos t') as P'.
  assert (J : Z.of_nat j < live e t). { rewrite <- (elems_live e heap fb LK base t). unfold zlen. assert (j < length (elems e heap fb base t))%nat by (apply nth_error_Some; congruence). lia. }
  assert (J' : Z.of_nat j' < live e t'). { rewrite <- (elems_live e heap fb LK base t'). unfold zlen. assert (j' < length (elems e heap fb base t'))%nat by (apply nth_error_Some; congruence). lia. }
  destruct (tag_dec t t') as [<-|NT].
  - assert (o = o') by congruence. subst o'. destruct (Nat.eq_dec j j') as [<-|NJ].
    + assert (NP : p <> p') by congruence. pose proof (ordered_apart _ _ _ _ _ _ _ _ _ (proj1 (leaves_ordered _ (type_of_laid t))) I I' NP). lia.
    + destruct (Nat.lt_ge_cases j j') as [K|K]; [left; nia|right; assert (j' < j)%nat by lia; nia].
  - destruct (ofs_apart e heap pad fb LK HO _ _ _ _ NT O O') as [Q|Q]; [left; nia|right; nia].
Qed.

(* memory where the numbers f names have new values and every other byte is as loaded *)
Definition view (f : tag -> nat -> list string -> option Z) (mem : list Z) : Prop :=
  zlen mem = SIZE /\
  (forall t j p pos w z y, at_cell t j p pos w z -> f t j p = Some y -> slice mem pos w = le_bytes (Z.to_nat w) y) /\
  (forall i, (forall t j p pos w z, at_cell t j p pos w z -> f t j p <> None -> ~ (pos <= i < pos + w)) -> znth mem i = znth img i).
Definition upd (f : tag -> nat -> list string -> option Z) (t : tag) (j : nat) (p : list string) (y : Z) : tag -> nat -> list string -> option Z :=
  fun t' j' p' => if tag_dec t t' then if Nat.eq_dec j j' then if list_eq_dec string_dec p p' then Some y else f t' j' p' else f t' j' p' else f t' j' p'.
Lemma upd_same : forall f t j p y, upd f t j p y t j p = Some y.
Proof. intros. unfold upd. destruct (tag_dec t t); [|congruence]. destruct (Nat.eq_dec j j); [|congruence]. destruct (list_eq_dec string_dec p p); congruence. Qed.
Lemma upd_other : forall f t j p y t' j' p', (t, j, p) <> (t', j', p') -> upd f t j p y t' j' p' = f t' j' p'.
Proof. intros. unfold upd. destruct (tag_dec t t'); [|reflexivity]. destruct (Nat.eq_dec j j'); [|reflexivity]. destruct (list_eq_dec string_dec p p'); [congruence|reflexivity]. Qed.
Lemma view_start : view (fun _ _ _ => None) img.
Proof. split; [exact (image_zlen e heap pad fb LK HO base)|]. split; [discriminate|reflexivity]. Qed.
Lemma view_ext : forall f g mem, (forall t j p, f t j p = g t j p) -> view f mem -> view g mem.
Proof.
  intros f g mem E (V1 & V2 & V3). split; [exact V1|]. split; [intros t j p pos w z y C Q; apply (V2 t j p pos w z y C); rewrite E; exact Q|]. intros i H. apply V3. intros t j p pos w z C Q. apply (H t j p pos w z C). rewrite <- E. exact Q.
Qed.
(* the value a number has now *)
Definition now (f : tag -> nat -> list string -> option Z) (t : tag) (j : nat) (p : list string) (z : Z) : Z := match f t j p with Some y => y | None => z end.
Lemma view_slice : forall f mem t j p pos w z, view f mem -> at_cell t j p pos w z -> slice mem pos w = le_bytes (Z.to_nat w) (now f t j p z).
Proof.
  intros f mem t j p pos w z (V1 & V2 & V3) C. unfold now. destruct (f t j p) as [y|] eqn:E; [exact (V2 t j p pos w z y C E)|]. destruct (cell_img _ _ _ _ _ _ C) as (Q & P0 & P1 & P2). rewrite <- Q.
  apply znth_ext. intros i. rewrite !znth_slice by lia. destruct ((0 <=? i) && (i <? w)) eqn:R; [|reflexivity]. apply V3. intros t' j' p' pos' w' z' C' N H.
  assert (D : (t, j, p) <> (t', j', p')) by (intros D; assert (t = t' /\ j = j' /\ p = p') as (-> & -> & ->) by (repeat split; congruence); congruence).
  pose proof (cell_apart _ _ _ _ _ _ _ _ _ _ _ _ C C' D). lia.
Qed.
Lemma view_load : forall f mem t j p pos w z, view f mem -> at_cell t j p pos w z -> load base mem (base + pos) w = Ok (now f t j p z mod 256 ^ w).
Proof.
  intros f mem t j p pos w z V C. pose proof (view_slice f mem t j p pos w z V C) as Q. destruct (cell_img _ _ _ _ _ _ C) as (_ & P0 & P1 & P2). destruct V as (V1 & _).
  unfold load, rd_bytes. replace (base + pos - base) with pos by lia. rewrite V1. replace ((0 <=? pos) && (0 <=? w) && (pos + w <=? SIZE)) with true by lia. cbn [obind]. rewrite Q, le_val_bytes, Z2Nat.id by lia. reflexivity.
Qed.
Lemma view_store : forall f mem t j p pos w z y, view f mem -> at_cell t j p pos w z -> exists mem', store base mem (base + pos) w y = Ok mem' /\ view (upd f t j p y) mem'.
Proof.
  intros f mem t j p pos w z y V C. destruct (cell_img _ _ _ _ _ _ C) as (_ & P0 & P1 & P2). pose proof V as (V1 & V2 & V3).
  assert (ZL : zlen (le_bytes (Z.to_nat w) y) = w) by (unfold zlen; rewrite le_bytes_length; lia). unfold store, wr_bytes. replace (base + pos - base) with pos by lia. rewrite ZL, V1.
  replace ((0 <=? pos) && (pos + w <=? SIZE)) with true by lia. eexists. split; [reflexivity|]. assert (B : pos + zlen (le_bytes (Z.to_nat w) y) <= zlen mem) by lia.
  split; [rewrite splice_zlen by assumption; exact V1|]. split.
  - intros t' j' p' pos' w' z' y' C' E. destruct (cell_img _ _ _ _ _ _ C') as (_ & P0' & P1' & P2').
    assert (DEC : {(t, j, p) = (t', j', p')} + {(t, j, p) <> (t', j', p')}).
    { destruct (tag_dec t t') as [->|]; [|right; congruence]. destruct (Nat.eq_dec j j') as [->|]; [|right; congruence]. destruct (list_eq_dec string_dec p p') as [->|]; [left; reflexivity|right; congruence]. }
    destruct DEC as [D|D].
    + assert (t = t' /\ j = j' /\ p = p') as (<- & <- & <-) by (repeat split; congruence). rewrite upd_same in E. assert (y' = y) by congruence. subst y'. destruct (cell_same _ _ _ _ _ _ _ _ _ C C') as (<- & <- & _).
      apply znth_ext. intros i. rewrite znth_slice by lia. rewrite znth_splice by assumption. rewrite ZL. destruct (Z.leb_spec 0 i), (Z.ltb_spec i w); cbn [andb].
      * replace ((pos <=? pos + i) && (pos + i <? pos + w)) with true by lia. f_equal. lia.
      * symmetry. unfold znth. destruct (Z.ltb_spec i 0); [reflexivity|]. apply nth_error_None. unfold zlen in ZL. lia.
      * symmetry. unfold znth. destruct (Z.ltb_spec i 0); [reflexivity|lia].
      * symmetry. unfold znth. destruct (Z.ltb_spec i 0); [reflexivity|lia].
    + rewrite upd_other in E by exact D. rewrite <- (V2 t' j' p' pos' w' z' y' C' E). pose proof (cell_apart _ _ _ _ _ _ _ _ _ _ _ _ C C' D) as A. apply znth_ext. intros i. rewrite !znth_slice by lia.
      destruct ((0 <=? i) && (i <? w')) eqn:R; [|reflexivity]. rewrite znth_splice by assumption. rewrite ZL. replace ((pos <=? pos' + i) && (pos' + i <? pos + w)) with false by lia. reflexivity.
  - intros i H. rewrite znth_splice by assumption. rewrite ZL. assert (NI : ~ (pos <= i < pos + w)) by (apply (H t j p pos w z C); rewrite upd_same; discriminate). replace ((pos <=? i) && (i <? pos + w)) with false by lia.
    apply V3. intros t' j' p' pos' w' z' C' N. apply (H t' j' p' pos' w' z' C'). unfold upd. destruct (tag_dec t t'); [|exact N]. destruct (Nat.eq_dec j j'); [|exact N]. destruct (list_eq_dec string_dec p p'); [discriminate|exact N].
Qed.
(* a number that already has the value *)
Lemma view_skip : forall f mem t j p pos w z y, view f mem -> at_cell t j p pos w z -> now f t j p z mod 256 ^ w = y mod 256 ^ w -> view (upd f t j p y) mem.
Proof.
  intros f mem t j p pos w z y V C Q. pose proof V as (V1 & V2 & V3). split; [exact V1|]. split.
  - intros t' j' p' pos' w' z' y' C' E.
    assert (DEC : {(t, j, p) = (t', j', p')} + {(t, j, p) <> (t', j', p')}).
    { destruct (tag_dec t t') as [->|]; [|right; congruence]. destruct (Nat.eq_dec j j') as [->|]; [|right; congruence]. destruct (list_eq_dec string_dec p p') as [->|]; [left; reflexivity|right; congruence]. }
    destruct DEC as [D|D].
    + assert (t = t' /\ j = j' /\ p = p') as (<- & <- & <-) by (repeat split; congruence). rewrite upd_same in E. assert (y' = y) by congruence. subst y'. destruct (cell_same _ _ _ _ _ _ _ _ _ C C') as (<- & <- & _).
      rewrite (view_slice f mem t j p pos w z V C). destruct (cell_img _ _ _ _ _ _ C) as (_ & _ & _ & P2). rewrite le_bytes_mod, (le_bytes_mod _ y). rewrite Z2Nat.id by lia. rewrite Q. reflexivity.
    + rewrite upd_other in E by exact D. exact (V2 t' j' p' pos' w' z' y' C' E).
  - intros i H. apply V3. intros t' j' p' pos' w' z' C' N. apply (H t' j' p' pos' w' z' C'). unfold upd. destruct (tag_dec t t'); [|exact N]. destruct (Nat.eq_dec j j'); [|exact N]. destruct (list_eq_dec string_dec p p'); [discriminate|exact N].
Qed.
(* bytes away from the overwritten numbers *)
Lemma view_elsewhere : forall f mem a n, view f mem -> 0 <= a -> 0 <= n -> (forall t j p pos w z, at_cell t j p pos w z -> f t j p <> None -> pos + w <= a \/ a + n <= pos) -> slice mem a n = slice img a n.
Proof.
  intros f mem a n (V1 & V2 & V3) A N H. apply znth_ext. intros i. rewrite !znth_slice by lia. destruct ((0 <=? i) && (i <? n)) eqn:R; [|reflexivity]. apply V3. intros t j p pos w z C Q K. specialize (H t j p pos w z C Q). lia.
Qed.
End View.
