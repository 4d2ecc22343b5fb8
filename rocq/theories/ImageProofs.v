(* Proofs about the pointers SaveCppExport lists. *)
From Coq Require Import String Permutation.
From Verif Require Import Base BaseProofs MmapModel MmapSpec MmapProofs ImageLayout ImageModel ImageSpec.
#[local] Open Scope string_scope.
#[local] Open Scope Z_scope.
#[local] Open Scope list_scope.

#[global] Arguments size_of : simpl never.
#[global] Arguments pointers : simpl never.
#[global] Arguments arrays : simpl never.
#[global] Arguments align_of : simpl never.
Definition ss0 : list schema := Eval vm_compute in match build_schemas with Ok ss => ss | _ => [] end.
Lemma build_schemas_ok : build_schemas = Ok ss0. Proof. vm_compute. reflexivity. Qed.

Definition handle_of (t : ctype) : Z :=
  match t with
  | Struct DatabaseMem => 0 | Struct Name => 1 | Struct Primitive => 2 | Struct FlagAttribute => 2 | Struct Type_ => 3 | Struct EnumConstant => 4
  | Struct Enum => 5 | Struct Field => 6 | Struct Function_ => 7 | Struct Class => 8 | Struct TemplateType => 9 | Struct Template => 10
  | Struct Namespace => 11 | Struct IntAttribute => 12 | Struct FloatAttribute => 13 | Struct PrimitiveAttribute => 14 | Struct TextAttribute => 15
  | Ptr _ => 16 | Struct ContainerInfo => 17 | _ => 99
  end.
Definition sch (t : ctype) : schema := match znth ss0 (handle_of t) with Some s => s | None => mk_schema 0 [] end.
Definition offs (t : ctype) : list Z := sc_offsets (sch t).

Definition mem_type (t : ctype) : bool := match t with Ptr _ => true | Struct Qualifier => false | Struct _ => true | _ => false end.

(* all the facts about single types, decided *)
Definition inb (x : Z) (l : list Z) : bool := existsb (Z.eqb x) l.
Fixpoint apartb (w : Z) (l : list Z) : bool :=
  match l with [] => true | x :: r => forallb (fun y => (x + w <=? y) || (y + w <=? x)) r && apartb w r end.
Definition type_check (t : ctype) : bool :=
  (match znth ss0 (handle_of t) with Some s => sc_stride s =? size_of t | None => false end) &&
  forallb (fun o => existsb (fun x => (snd x =? o) && negb (outside (fst x))) (pointers t)) (offs t) &&
  forallb (fun x => outside (fst x) || inb (snd x) (offs t)) (pointers t) &&
  apartb 8 (offs t) && apartb 8 (map snd (pointers t)) && apartb 8 (map fst (arrays t)) &&
  forallb (fun x => (0 <=? snd x) && (snd x + 8 <=? size_of t)) (pointers t) &&
  forallb (fun a => (0 <=? fst a) && (fst a + 24 <=? size_of t) && inb (fst a + 8) (map snd (pointers t)) && mem_type (snd a) &&
                    forallb (fun x => (fst a + 4 <=? snd x) || (snd x + 8 <=? fst a)) (pointers t)) (arrays t) &&
  negb (match offs t with [] => true | _ => false end) && (0 <? size_of t).
#[global] Arguments offs : simpl never.
#[global] Arguments sch : simpl never.
#[global] Arguments outside : simpl never.
Lemma type_ok : forall t, mem_type t = true -> type_check t = true.
Proof. intros t H. destruct t as [ | | |s| ]; try discriminate; [vm_compute; reflexivity|]. destruct s; try discriminate; vm_compute; reflexivity. Qed.

Lemma inb_In : forall x l, inb x l = true <-> In x l.
Proof. intros x l. unfold inb. rewrite existsb_exists. split; [intros [y [H E]]; apply Z.eqb_eq in E; subst; exact H|intros H; exists x; split; [exact H|apply Z.eqb_refl]]. Qed.
Lemma apartb_fop : forall w l, apartb w l = true -> ForallOrdPairs (fun p q => p + w <= q \/ q + w <= p) l.
Proof.
  intros w. induction l as [|x r IH]; cbn; intros H; [constructor|]. apply andb_prop in H. destruct H as [H1 H2]. constructor; [|apply IH; exact H2].
  apply Forall_forall. intros y Hy. rewrite forallb_forall in H1. specialize (H1 y Hy). lia.
Qed.
Lemma apartb_nodup : forall w l, 0 < w -> apartb w l = true -> NoDup l.
Proof.
  intros w l Hw. induction l as [|x r IH]; cbn; intros H; [constructor|]. apply andb_prop in H. destruct H as [H1 H2]. constructor; [|apply IH; exact H2].
  intros Hin. rewrite forallb_forall in H1. specialize (H1 x Hin). lia.
Qed.
Lemma fop_in : forall A (R : A -> A -> Prop) l x y, (forall a b, R a b -> R b a) -> ForallOrdPairs R l -> In x l -> In y l -> x = y \/ R x y.
Proof. intros A R l x y S H Hx Hy. destruct (ForallOrdPairs_In H x y Hx Hy) as [E|[E|E]]; auto. Qed.

Lemma sep_sym : forall w a b : Z, a + w <= b \/ b + w <= a -> b + w <= a \/ a + w <= b.
Proof. intros. lia. Qed.

Lemma type_facts : forall t, mem_type t = true ->
  znth ss0 (handle_of t) = Some (sch t) /\ sc_stride (sch t) = size_of t /\
  (forall o, In o (offs t) <-> exists n, In (n, o) (pointers t) /\ outside n = false) /\
  ForallOrdPairs (fun p q => p + 8 <= q \/ q + 8 <= p) (offs t) /\
  (forall n o n' o', In (n, o) (pointers t) -> In (n', o') (pointers t) -> o = o' \/ o + 8 <= o' \/ o' + 8 <= o) /\
  (forall o e e', In (o, e) (arrays t) -> In (o, e') (arrays t) -> e = e') /\
  (forall n o, In (n, o) (pointers t) -> 0 <= o /\ o + 8 <= size_of t) /\
  (forall o e, In (o, e) (arrays t) -> 0 <= o /\ o + 24 <= size_of t /\ (exists n, In (n, o + 8) (pointers t)) /\ mem_type e = true /\
     forall n q, In (n, q) (pointers t) -> o + 4 <= q \/ q + 8 <= o) /\
  offs t <> [] /\ 0 < size_of t.
Proof.
  intros t Ht. pose proof (type_ok t Ht) as H. unfold type_check in H. repeat rewrite andb_true_iff in H.
  destruct H as [[[[[[[[[H1 H2] H3] H4] H5] H6] H7] H8] H9] H10].
  assert (E : znth ss0 (handle_of t) = Some (sch t) /\ sc_stride (sch t) = size_of t).
  { unfold sch. destruct (znth ss0 (handle_of t)) as [s|]; [|discriminate]. split; [reflexivity|]. lia. }
  destruct E as [E1 E2]. split; [exact E1|]. split; [exact E2|].
  rewrite forallb_forall in H2, H3, H7, H8.
  split.
  { intros o. split.
    - intros Ho. specialize (H2 o Ho). rewrite existsb_exists in H2. destruct H2 as [[n q] [X Y]]. cbn in Y. exists n. assert (q = o) by lia. subst q. split; [exact X|]. destruct (outside n); [cbn in Y; rewrite andb_false_r in Y; discriminate|reflexivity].
    - intros [n [X Y]]. specialize (H3 _ X). cbn in H3. rewrite Y in H3. cbn in H3. apply inb_In. exact H3. }
  split; [apply apartb_fop; exact H4|]. split.
  { intros n o n' o' X Y. apply apartb_fop in H5. apply (in_map snd) in X. apply (in_map snd) in Y. cbn in X, Y.
    destruct (fop_in _ _ _ _ _ (sep_sym 8) H5 X Y) as [Q|Q]; auto. }
  split.
  { intros o e e' X Y. assert (N : NoDup (map fst (arrays t))) by (apply (apartb_nodup 8); [lia|exact H6]).
    clear -N X Y. induction (arrays t) as [|[q f] r IH]; [contradiction|]. cbn in N. inversion N as [|? ? N1 N2]; subst.
    destruct X as [X|X], Y as [Y|Y].
    - congruence.
    - exfalso. apply N1. injection X as -> ->. apply (in_map fst) in Y. exact Y.
    - exfalso. apply N1. injection Y as -> ->. apply (in_map fst) in X. exact X.
    - apply IH; assumption. }
  split; [intros n o X; specialize (H7 _ X); cbn in H7; lia|]. split.
  { intros o e X. specialize (H8 _ X). cbn in H8. repeat rewrite andb_true_iff in H8. destruct H8 as [[[[A1 A2] A3] A4] A5].
    split; [lia|]. split; [lia|]. split.
    - apply inb_In in A3. apply in_map_iff in A3. destruct A3 as [[n q] [B1 B2]]. cbn in B1. subst q. exists n. exact B2.
    - split; [exact A4|]. intros n q Y. rewrite forallb_forall in A5. specialize (A5 _ Y). cbn in A5. lia. }
  split; [destruct (offs t); [discriminate|discriminate]|lia].
Qed.

(* ---- reading the image ---- *)
Lemma u32_at_range : forall img p, Forall is_byte img -> 0 <= u32_at img p < 2 ^ 32.
Proof. intros img p H. unfold u32_at. apply le_val4. exact H. Qed.
Lemma read_u32_ok : forall start img a, 0 <= a - start -> a - start + 4 <= zlen img -> read_u32 start img a = Ok (u32_at img (a - start)).
Proof. intros start img a H1 H2. unfold read_u32, rd_bytes. replace ((0 <=? a - start) && (0 <=? 4) && (a - start + 4 <=? zlen img)) with true by lia. reflexivity. Qed.
Lemma read_ptr_ok : forall start img a, 0 <= a - start -> a - start + 8 <= zlen img -> read_ptr start img a = Ok (ptr_at img (a - start)).
Proof. intros start img a H1 H2. unfold read_ptr, rd_bytes. replace ((0 <=? a - start) && (0 <=? 8) && (a - start + 8 <=? zlen img)) with true by lia. reflexivity. Qed.

Lemma array_ofs_8 : array_ofs = 8. Proof. vm_compute. reflexivity. Qed.
Lemma array_size_ofs_0 : array_size_ofs = 0. Proof. vm_compute. reflexivity. Qed.

Lemma fop_app : forall A (R : A -> A -> Prop) l m, ForallOrdPairs R l -> ForallOrdPairs R m -> (forall x y, In x l -> In y m -> R x y) -> ForallOrdPairs R (l ++ m).
Proof.
  intros A R l m H1 H2 H. induction H1 as [|x l Hx Hl IH]; [exact H2|]. cbn [app]. constructor.
  - apply Forall_app. split; [exact Hx|]. apply Forall_forall. intros y Hy. apply H; [left; reflexivity|exact Hy].
  - apply IH. intros a b Ha Hb. apply H; [right; exact Ha|exact Hb].
Qed.
Lemma fop_flat_map : forall A B (R : B -> B -> Prop) (f : A -> list B) l, (forall x, In x l -> ForallOrdPairs R (f x)) ->
  ForallOrdPairs (fun x y => forall a b, In a (f x) -> In b (f y) -> R a b) l -> ForallOrdPairs R (flat_map f l).
Proof.
  intros A B R f l. induction l as [|x l IH]; intros H1 H2; cbn [flat_map]; [constructor|]. inversion H2 as [|? ? X Y]; subst.
  apply fop_app; [apply H1; left; reflexivity|apply IH; [intros z Hz; apply H1; right; exact Hz|exact Y]|].
  intros a b Ha Hb. apply in_flat_map in Hb. destruct Hb as [y [Hy Hb]]. rewrite Forall_forall in X. exact (X y Hy a b Ha Hb).
Qed.
Lemma fop_map : forall A B (R : B -> B -> Prop) (f : A -> B) l, ForallOrdPairs (fun x y => R (f x) (f y)) l -> ForallOrdPairs R (map f l).
Proof. intros A B R f l H. induction H as [|x l Hx Hl IH]; cbn [map]; constructor; [|exact IH]. apply Forall_map. exact Hx. Qed.
Lemma fop_impl : forall A (R S : A -> A -> Prop) l, (forall x y, In x l -> In y l -> R x y -> S x y) -> ForallOrdPairs R l -> ForallOrdPairs S l.
Proof.
  intros A R S l H F. induction F as [|x l Hx Hl IH]; [constructor|]. constructor.
  - rewrite Forall_forall in *. intros y Hy. apply H; [left; reflexivity|right; exact Hy|apply Hx; exact Hy].
  - apply IH. intros a b Ha Hb. apply H; right; assumption.
Qed.
Lemma nodup_fop : forall A (l : list A), NoDup l -> ForallOrdPairs (fun x y => x <> y) l.
Proof. intros A l H. induction H as [|x l Hx Hl IH]; constructor; [|exact IH]. apply Forall_forall. intros y Hy E. subst. contradiction. Qed.
Lemma nodup_flat_map : forall A B (f : A -> list B) l, NoDup l -> (forall x, In x l -> NoDup (f x)) ->
  (forall x y z, In x l -> In y l -> In z (f x) -> In z (f y) -> x = y) -> NoDup (flat_map f l).
Proof.
  intros A B f l H. induction H as [|x l Hx Hl IH]; intros H1 H2; cbn [flat_map]; [constructor|].
  assert (NA : forall (a b : list B), NoDup a -> NoDup b -> (forall z, In z a -> ~ In z b) -> NoDup (a ++ b)).
  { clear. intros a b Ha Hb D. induction Ha as [|y a Hy Ha IHa]; [exact Hb|]. cbn [app]. constructor.
    - intros Hin. apply in_app_or in Hin. destruct Hin as [Hin|Hin]; [contradiction|]. exact (D y (or_introl eq_refl) Hin).
    - apply IHa. intros z Hz. apply D. right. exact Hz. }
  apply NA; [apply H1; left; reflexivity|apply IH|].
  - intros y Hy. apply H1. right. exact Hy.
  - intros y y' z Hy Hy'. apply H2; right; assumption.
  - intros z Hz Hin. apply in_flat_map in Hin. destruct Hin as [y [Hy Hz']]. rewrite (H2 x y z) in Hx; [contradiction|left; reflexivity|right; exact Hy|exact Hz|exact Hz'].
Qed.

Lemma nodup_app : forall A (a b : list A), NoDup a -> NoDup b -> (forall z, In z a -> ~ In z b) -> NoDup (a ++ b).
Proof.
  intros A a b Ha Hb D. induction Ha as [|y a Hy Ha IHa]; [exact Hb|]. cbn [app]. constructor.
  - intros Hin. apply in_app_or in Hin. destruct Hin as [Hin|Hin]; [contradiction|]. exact (D y (or_introl eq_refl) Hin).
  - apply IHa. intros z Hz. apply D. right. exact Hz.
Qed.
Lemma nodup_app_l : forall A (a b : list A), NoDup (a ++ b) -> NoDup a.
Proof. intros A a b H. induction a as [|x a IH]; [constructor|]. cbn [app] in H. inversion H as [|? ? N1 N2]; subst. constructor; [|apply IH; exact N2]. intros Hin. apply N1. apply in_or_app. left. exact Hin. Qed.
Lemma nodup_app_r : forall A (a b : list A), NoDup (a ++ b) -> NoDup b.
Proof. intros A a b H. induction a as [|x a IH]; [exact H|]. cbn [app] in H. inversion H as [|? ? N1 N2]; subst. apply IH. exact N2. Qed.
Lemma nodup_map_on : forall A B (f : A -> B) l, NoDup l -> (forall x y, In x l -> In y l -> f x = f y -> x = y) -> NoDup (map f l).
Proof.
  intros A B f l H. induction H as [|x l Hx Hl IH]; intros I; cbn [map]; constructor.
  - intros Hin. apply in_map_iff in Hin. destruct Hin as [y [E Hy]]. apply Hx. rewrite <- (I y x); [exact Hy|right; exact Hy|left; reflexivity|exact E].
  - apply IH. intros y z Hy Hz. apply I; right; assumption.
Qed.
Lemma nodup_map_inj : forall A B (f : A -> B) l x y, NoDup (map f l) -> In x l -> In y l -> f x = f y -> x = y.
Proof.
  intros A B f l. induction l as [|a l IH]; intros x y H Hx Hy E; [contradiction|]. cbn [map] in H. inversion H as [|? ? N1 N2]; subst.
  destruct Hx as [Hx|Hx], Hy as [Hy|Hy]; subst; [reflexivity| | |].
  - exfalso. apply N1. rewrite E. apply in_map. exact Hy.
  - exfalso. apply N1. rewrite <- E. apply in_map. exact Hx.
  - apply IH; assumption.
Qed.
Lemma fop_map_inv : forall A B (R : B -> B -> Prop) (f : A -> B) l, ForallOrdPairs R (map f l) -> ForallOrdPairs (fun x y => R (f x) (f y)) l.
Proof.
  intros A B R f l. induction l as [|x l IH]; cbn [map]; intros H; [constructor|]. inversion H as [|? ? X Y]; subst. constructor; [|apply IH; exact Y].
  rewrite Forall_map in X. exact X.
Qed.

Section Listed.
Variables (start : Z) (img : list Z).
Hypothesis OK : image_ok start img.
Notation at_ := (block_at start img).
Definition root : block := mk_block start (Struct DatabaseMem) 1.
Definition child (b : block) (j o : Z) (e : ctype) : block :=
  mk_block (ptr_at img (elem b j + o + 8 - start)) e (u32_at img (elem b j + o - start)).

Lemma at_type : forall p b, at_ p b -> mem_type (b_type b) = true.
Proof.
  intros p b H. induction H as [|p b j o e H IH Hj Ho]; [reflexivity|]. cbn [b_type].
  destruct (type_facts _ IH) as (_ & _ & _ & _ & _ & _ & _ & A & _). apply (A o e Ho).
Qed.
Lemma at_fun : forall p b, at_ p b -> forall b', at_ p b' -> b = b'.
Proof.
  intros p b H. induction H as [|p b j o e H IH Hj Ho]; intros b' H'; inversion H' as [|p2 b2 j2 o2 e2 H2 Hj2 Ho2]; subst; [reflexivity|].
  assert (b = b2) by (apply IH; exact H2). subst b2. pose proof (at_type _ _ H) as T. destruct (type_facts _ T) as (_ & _ & _ & _ & _ & A & _).
  rewrite (A o e e2 Ho Ho2). reflexivity.
Qed.
Lemma at_count : forall p b, at_ p b -> 0 <= b_count b < 2 ^ 31.
Proof.
  intros p b H. split; [|apply (io_count _ _ OK p b H)]. inversion H; subst; cbn [b_count]; [lia|]. apply (u32_at_range img). exact (io_bytes _ _ OK).
Qed.
Lemma at_child : forall p b j o e, at_ p b -> 0 <= j < b_count b -> In (o, e) (arrays (b_type b)) -> at_ ((j, o) :: p) (child b j o e).
Proof. intros. apply at_array; assumption. Qed.

(* an element lies inside the image *)
Lemma elem_range : forall p b j, at_ p b -> 0 <= j < b_count b -> 0 <= elem b j - start /\ elem b j - start + size_of (b_type b) <= zlen img.
Proof.
  intros p b j H Hj. destruct (io_inside _ _ OK p b H) as [A B]; [lia|]. destruct (type_facts _ (at_type _ _ H)) as (_ & _ & _ & _ & _ & _ & _ & _ & _ & S).
  unfold elem. assert (0 <= j * size_of (b_type b)) by (apply Z.mul_nonneg_nonneg; lia).
  assert ((j + 1) * size_of (b_type b) <= b_count b * size_of (b_type b)) by (apply Z.mul_le_mono_nonneg_r; lia). lia.
Qed.
(* parts of different elements do not overlap *)
Lemma parts_apart : forall p b j o w p' b' j' o' w', at_ p b -> at_ p' b' -> 0 <= j < b_count b -> 0 <= j' < b_count b' ->
  0 <= o -> 0 <= w -> o + w <= size_of (b_type b) -> 0 <= o' -> 0 <= w' -> o' + w' <= size_of (b_type b') ->
  (p = p' /\ j = j') \/ elem b j + o + w <= elem b' j' + o' \/ elem b' j' + o' + w' <= elem b j + o.
Proof.
  intros p b j o w p' b' j' o' w' H H' Hj Hj' O1 W1 O2 O3 W2 O4.
  assert (D : {p = p'} + {p <> p'}) by (repeat decide equality). destruct D as [E|E].
  - subst p'. rewrite <- (at_fun _ _ H _ H') in *. destruct (Z.eq_dec j j') as [E|E]; [left; split; [reflexivity|exact E]|]. right. unfold elem.
    destruct (Z.lt_ge_cases j j') as [Q|Q].
    + left. assert ((j + 1) * size_of (b_type b) <= j' * size_of (b_type b)) by (apply Z.mul_le_mono_nonneg_r; lia). lia.
    + right. assert ((j' + 1) * size_of (b_type b) <= j * size_of (b_type b)) by (apply Z.mul_le_mono_nonneg_r; lia). lia.
  - right. unfold elem.
    assert (0 <= j * size_of (b_type b)) by (apply Z.mul_nonneg_nonneg; lia). assert (0 <= j' * size_of (b_type b')) by (apply Z.mul_nonneg_nonneg; lia).
    assert ((j + 1) * size_of (b_type b) <= b_count b * size_of (b_type b)) by (apply Z.mul_le_mono_nonneg_r; lia).
    assert ((j' + 1) * size_of (b_type b') <= b_count b' * size_of (b_type b')) by (apply Z.mul_le_mono_nonneg_r; lia).
    destruct (io_apart _ _ OK p b p' b' H H' E) as [A|A]; lia.
Qed.

(* ---- the pointers one relocation lists ---- *)
Definition bslots (b : block) : list Z :=
  flat_map (fun j => map (fun o => elem b (Z.of_nat j) - start + o) (offs (b_type b))) (seq 0 (Z.to_nat (b_count b))).
Lemma in_bslots : forall p b q, at_ p b -> (In q (bslots b) <-> exists j n o, 0 <= j < b_count b /\ In (n, o) (pointers (b_type b)) /\ outside n = false /\ q = elem b j + o - start).
Proof.
  intros p b q H. unfold bslots. rewrite in_flat_map. destruct (type_facts _ (at_type _ _ H)) as (_ & _ & A & _). pose proof (at_count _ _ H) as C. split.
  - intros [j [Hj Hq]]. apply in_seq in Hj. apply in_map_iff in Hq. destruct Hq as [o [E Ho]]. apply A in Ho. destruct Ho as [n [Hn Hout]].
    exists (Z.of_nat j), n, o. split; [lia|]. split; [exact Hn|]. split; [exact Hout|]. lia.
  - intros [j [n [o [Hj [Hn [Hout E]]]]]]. exists (Z.to_nat j). split; [apply in_seq; lia|]. apply in_map_iff. exists o. split; [rewrite Z2Nat.id by lia; lia|]. apply A. exists n. split; assumption.
Qed.

Record tracked (rs : list reloc) (L : list (list (Z * Z) * block)) : Prop := {
  tr_slots : slots ss0 rs = flat_map (fun x => bslots (snd x)) L;
  tr_ok : Forall (fun r => 0 <= rl_handle r < zlen ss0 /\ is_u64 (rl_offset r) /\ is_s32 (rl_nb r) /\ length (rl_pad0 r) = 4%nat /\ length (rl_pad1 r) = 4%nat) rs;
  tr_few : zlen rs <= zlen L;
  tr_at : Forall (fun x => at_ (fst x) (snd x)) L
}.

Variable pad : nat -> list Z * list Z.
Hypothesis pad_ok : forall k, length (fst (pad k)) = 4%nat /\ length (snd (pad k)) = 4%nat.

Lemma handle_range : forall t, mem_type t = true -> 0 <= handle_of t < zlen ss0.
Proof. intros t H. destruct (type_facts t H) as (A & _). exact (znth_range _ _ _ _ A). Qed.

(* one more block: its address is null or in the image *)
Lemma add_block : forall rs L p b, tracked rs L -> at_ p b -> b_addr b = 0 \/ start <= b_addr b <= start + zlen img ->
  tracked (AddObjects start pad rs (handle_of (b_type b)) (b_addr b) (b_count b)) (L ++ [(p, b)]).
Proof.
  intros rs L p b [T1 T2 T3 T4] Hb Ha. pose proof (at_count _ _ Hb) as C. pose proof (at_type _ _ Hb) as Ty. pose proof (handle_range _ Ty) as HR.
  destruct (type_facts _ Ty) as (A1 & A2 & _). pose proof (io_start _ _ OK) as S0. pose proof (io_size _ _ OK) as SZ.
  unfold AddObjects, AddPointers. destruct (b_addr b =? 0) eqn:E0.
  - assert (C0 : b_count b = 0). { destruct (Z.eq_dec (b_count b) 0) as [Q|Q]; [exact Q|]. destruct (io_inside _ _ OK p b Hb) as [X _]; lia. }
    split.
    + rewrite T1. rewrite flat_map_app. cbn [flat_map snd]. unfold bslots at 3. rewrite C0. cbn. rewrite !app_nil_r. reflexivity.
    + exact T2.
    + rewrite zlen_app. change (zlen [(p, b)]) with 1. lia.
    + apply Forall_app. split; [exact T4|]. constructor; [exact Hb|constructor].
  - destruct Ha as [Ha|Ha]; [lia|]. assert (U : u64 (b_addr b - start) = b_addr b - start) by (unfold u64; apply Z.mod_small; lia).
    split.
    + unfold slots. rewrite !flat_map_app. unfold slots in T1. rewrite T1. f_equal. cbn [flat_map snd]. rewrite !app_nil_r.
      unfold reloc_slots. cbn [rl_handle rl_offset rl_nb]. rewrite A1. unfold bslots. rewrite U, A2. apply flat_map_ext. intros j. unfold object_slots. fold (offs (b_type b)).
      apply map_ext. intros o. unfold elem. lia.
    + apply Forall_app. split; [exact T2|]. constructor; [|constructor]. cbn [rl_handle rl_offset rl_nb rl_pad0 rl_pad1]. rewrite U. unfold is_u64, is_s32. destruct (pad_ok (length rs)) as [P0 P1]. split; [exact HR|]. split; [lia|]. split; [lia|]. split; [exact P0|exact P1].
    + rewrite !zlen_app. change (zlen [(p, b)]) with 1. rewrite zlen_cons, zlen_nil. lia.
    + apply Forall_app. split; [exact T4|]. constructor; [exact Hb|constructor].
Qed.

(* one AddPointers call on an array *)
Record call_is (h : Z) (e : ctype) (arr : Z) (item : list (Z * Z) * block) : Prop := {
  ci_ex : exists p b j o e', at_ p b /\ 0 <= j < b_count b /\ In (o, e') (arrays (b_type b)) /\ arr = elem b j + o /\ h = handle_of e' /\ size_of e = size_of e' /\
            item = ((j, o) :: p, child b j o e')
}.
Lemma add_array : forall rs L h e arr item, tracked rs L -> call_is h e arr item ->
  exists rs', AddArray start img ss0 pad rs h e arr = Ok rs' /\ tracked rs' (L ++ [item]).
Proof.
  intros rs L h e arr item T [[p [b [j [o [e' [Hb [Hj [Ho [-> [-> [Se ->]]]]]]]]]]]].
  pose proof (at_child p b j o e' Hb Hj Ho) as Hc. pose proof (at_type _ _ Hc) as Tc. cbn [b_type child] in Tc.
  destruct (type_facts _ Tc) as (A1 & A2 & _). destruct (type_facts _ (at_type _ _ Hb)) as (_ & _ & _ & _ & _ & _ & _ & B & _).
  destruct (B o e' Ho) as (B1 & B2 & [n Bn] & _). destruct (elem_range p b j Hb Hj) as [R1 R2].
  pose proof (at_count _ _ Hc) as C. cbn [b_count child] in C.
  unfold AddArray. unfold rd. rewrite A1. cbn [obind]. rewrite A2, Se, Z.eqb_refl. cbn [assert obind]. rewrite array_ofs_8, array_size_ofs_0.
  rewrite read_ptr_ok by lia. cbn [obind]. rewrite read_u32_ok by lia. cbn [obind]. rewrite Z.add_0_r. eexists. split; [reflexivity|].
  assert (S32 : s32 (u32_at img (elem b j + o - start)) = u32_at img (elem b j + o - start)) by (unfold s32; rewrite Z.mod_small; lia). rewrite S32.
  apply (add_block rs L ((j, o) :: p) (child b j o e') T Hc). cbn [b_addr child].
  destruct (io_pointers _ _ OK n (elem b j + (o + 8) - start)) as [Q|[_ Q]].
  - exists p, b, j, (o + 8). split; [exact Hb|]. split; [exact Hj|]. split; [exact Bn|reflexivity].
  - left. rewrite <- Q. f_equal. lia.
  - right. replace (elem b j + o + 8 - start) with (elem b j + (o + 8) - start) by lia. lia.
Qed.
Lemma add_arrays : forall calls items rs L, tracked rs L -> Forall2 (fun c item => call_is (fst (fst c)) (snd (fst c)) (snd c) item) calls items ->
  exists rs', AddArrays start img ss0 pad rs calls = Ok rs' /\ tracked rs' (L ++ items).
Proof.
  intros calls items rs L T F. revert rs L T. induction F as [|[[h e] arr] item calls items H F IH]; intros rs L T; cbn [AddArrays].
  - exists rs. split; [reflexivity|]. rewrite app_nil_r. exact T.
  - destruct (add_array rs L h e arr item T H) as [rs1 [E1 T1]]. rewrite E1. cbn [obind]. destruct (IH rs1 _ T1) as [rs2 [E2 T2]]. exists rs2. split; [exact E2|]. rewrite <- app_assoc in T2. exact T2.
Qed.

(* a loop that adds some blocks in each round *)
Lemma for_each_ok : forall body (items : Z -> list (list (Z * Z) * block)) n i rs L,
  (forall k rs L, i <= k < i + Z.of_nat n -> tracked rs L -> exists rs', body k rs = Ok rs' /\ tracked rs' (L ++ items k)) ->
  tracked rs L -> exists rs', for_each i n body rs = Ok rs' /\ tracked rs' (L ++ flat_map (fun k => items (i + Z.of_nat k)) (seq 0 n)).
Proof.
  intros body items. induction n as [|n IH]; intros i rs L H T; cbn [for_each seq flat_map].
  - exists rs. rewrite app_nil_r. split; [reflexivity|exact T].
  - destruct (H i rs L) as [rs1 [E1 T1]]; [lia|exact T|]. rewrite E1. cbn [obind].
    destruct (IH (i + 1) rs1 (L ++ items i)) as [rs2 [E2 T2]]; [intros k r2 L2 Hk HT; apply H; [lia|exact HT]|exact T1|]. exists rs2. split; [exact E2|].
    rewrite <- app_assoc in T2. rewrite Z.add_0_r. rewrite <- seq_shift. rewrite flat_map_concat_map, map_map, <- flat_map_concat_map.
    rewrite (flat_map_ext (fun x => items (i + Z.of_nat (S x))) (fun k => items (i + 1 + Z.of_nat k))); [exact T2|]. intros a. f_equal. lia.
Qed.

Lemma elem_root : elem root 0 = start. Proof. unfold elem, root. cbn [b_addr]. lia. Qed.
Lemma root_at : at_ [] root. Proof. apply at_root. Qed.
Lemma root_count : b_count root = 1. Proof. reflexivity. Qed.

(* the arrays of the database object *)
Definition top_item (x : Z * ctype) : list (Z * Z) * block := ([(0, fst x)], child root 0 (fst x) (snd x)).
Lemma top_at : forall o e, In (o, e) (arrays (Struct DatabaseMem)) -> at_ [(0, o)] (child root 0 o e).
Proof. intros o e H. apply at_child; [apply root_at|rewrite root_count; lia|exact H]. Qed.
Lemma top_call : forall o e h e0, In (o, e) (arrays (Struct DatabaseMem)) -> h = handle_of e -> size_of e0 = size_of e -> call_is h e0 (start + o) (top_item (o, e)).
Proof.
  intros o e h e0 H Hh Hs. constructor. exists [], root, 0, o, e. split; [apply root_at|]. split; [rewrite root_count; lia|]. split; [exact H|]. split; [rewrite elem_root; reflexivity|].
  split; [exact Hh|]. split; [exact Hs|reflexivity].
Qed.

(* the arrays inside the elements of an array of the database object *)
Definition nest_items (x : Z * ctype * list (Z * ctype)) : list (list (Z * Z) * block) :=
  let '(o1, e1, o2s) := x in
  flat_map (fun k => map (fun y => ([(Z.of_nat k, fst y); (0, o1)], child (child root 0 o1 e1) (Z.of_nat k) (fst y) (snd y))) o2s)
    (seq 0 (Z.to_nat (b_count (child root 0 o1 e1)))).

(* operator[] on such an array *)
Lemma element_ok : forall p b j o e i e0, at_ p b -> 0 <= j < b_count b -> In (o, e) (arrays (b_type b)) -> 0 <= i < b_count (child b j o e) -> size_of e0 = size_of e ->
  element start img (elem b j + o) i e0 = Ok (elem (child b j o e) i).
Proof.
  intros p b j o e i e0 Hb Hj Ho Hi Se. destruct (type_facts _ (at_type _ _ Hb)) as (_ & _ & _ & _ & _ & _ & _ & B & _). destruct (B o e Ho) as (B1 & B2 & _).
  destruct (elem_range p b j Hb Hj) as [R1 R2]. cbn [b_count child] in Hi.
  unfold element. rewrite array_ofs_8, array_size_ofs_0. rewrite read_u32_ok by lia. cbn [obind]. rewrite Z.add_0_r.
  replace (i <? u32_at img (elem b j + o - start)) with true by lia. cbn [assert obind]. rewrite read_ptr_ok by lia. cbn [obind]. rewrite Se. reflexivity.
Qed.
Lemma top_count : forall o e, In (o, e) (arrays (Struct DatabaseMem)) -> read_u32 start img (start + o + array_size_ofs) = Ok (b_count (child root 0 o e)).
Proof.
  intros o e Ho. destruct (type_facts (Struct DatabaseMem) eq_refl) as (_ & _ & _ & _ & _ & _ & _ & B & _). destruct (B o e Ho) as (B1 & B2 & _).
  destruct (elem_range [] root 0 root_at) as [R1 R2]; [rewrite root_count; lia|]. rewrite elem_root in R1, R2. cbn [b_type root] in R2.
  rewrite array_size_ofs_0. rewrite read_u32_ok by lia. cbn [b_count child]. rewrite elem_root. rewrite Z.add_0_r. reflexivity.
Qed.

Lemma nested_ok : forall m s ms o1 o2s rs L, OffsetOf DatabaseMem m = o1 -> In (o1, Struct s) (arrays (Struct DatabaseMem)) ->
  map (OffsetOf s) ms = map fst o2s -> Forall (fun x => In x (arrays (Struct s)) /\ exists z, snd x = Ptr z) o2s -> tracked rs L ->
  exists rs', AddNested start img ss0 pad start m s ms rs = Ok rs' /\ tracked rs' (L ++ nest_items (o1, Struct s, o2s)).
Proof.
  intros m s ms o1 o2s rs L <- Ho Em F T. set (o1 := OffsetOf DatabaseMem m) in *. unfold AddNested. fold o1. rewrite (top_count o1 (Struct s) Ho). cbn [obind].
  pose proof (top_at o1 (Struct s) Ho) as Hc. pose proof (at_count _ _ Hc) as C.
  apply (for_each_ok _ (fun k => map (fun y => ([(k, fst y); (0, o1)], child (child root 0 o1 (Struct s)) k (fst y) (snd y))) o2s)); [|exact T].
  intros k rs1 L1 Hk T1. pose proof (element_ok [] root 0 o1 (Struct s) k (Struct s) root_at) as EK. rewrite elem_root in EK. rewrite EK; [|rewrite root_count; lia|exact Ho|lia|reflexivity].
  cbn [obind]. apply add_arrays; [exact T1|].
  assert (Em2 : map (fun x => (schema_ptr, Ptr "", elem (child root 0 o1 (Struct s)) k + OffsetOf s x)) ms =
                map (fun y => (schema_ptr, Ptr "", elem (child root 0 o1 (Struct s)) k + fst y)) o2s).
  { transitivity (map (fun o => (schema_ptr, Ptr "", elem (child root 0 o1 (Struct s)) k + o)) (map (OffsetOf s) ms)); [rewrite map_map; reflexivity|]. rewrite Em, map_map. reflexivity. }
  rewrite Em2. clear Em Em2. induction F as [|[o2 e2] o2s [Hin [z Hz]] F IH]; cbn [map]; constructor; [|exact IH].
  cbn [fst snd] in *. subst e2. constructor. exists [(0, o1)], (child root 0 o1 (Struct s)), k, o2, (Ptr z). split; [exact Hc|]. split; [lia|]. split; [exact Hin|]. split; [reflexivity|].
  split; [reflexivity|]. split; reflexivity.
Qed.

(* the base types of everything type_primitives points at *)
Definition typs : list (Z * struct) := [(40, Type_); (160, Class); (88, Enum); (208, TemplateType)].
Definition bt_item (x : Z * struct * Z) : list (Z * Z) * block :=
  let '(o1, s, k) := x in ([(k, 48); (0, o1)], child (child root 0 o1 (Struct s)) k 48 (Ptr "Type")).
Definition bt_addr (x : Z * struct * Z) : Z := let '(o1, s, k) := x in elem (child root 0 o1 (Struct s)) k.
Definition all_types : list (Z * struct * Z) :=
  flat_map (fun y => map (fun k => (fst y, snd y, Z.of_nat k)) (seq 0 (Z.to_nat (b_count (child root 0 (fst y) (Struct (snd y))))))) typs.
Definition tp : block := child root 0 384 (Ptr "Type").

Lemma db_array : forall m o e, In (m, Arr e, o) (placed DatabaseMem) -> length (filter (fun x => String.eqb (fst (fst x)) m) (placed DatabaseMem)) = 1%nat ->
  database_array img m = [child root 0 o e].
Proof.
  intros m o e Hin H1. unfold database_array, child. rewrite elem_root. replace (start + o + 8 - start) with (o + 8) by lia. replace (start + o - start) with o by lia.
  induction (placed DatabaseMem) as [|[[n t] q] r IH]; [contradiction|]. cbn [filter flat_map] in *. cbn [fst] in H1.
  assert (Z0 : forall l, length (filter (fun x : string * ctype * Z => String.eqb (fst (fst x)) m) l) = 0%nat ->
    flat_map (fun x : string * ctype * Z => match x with (n, Arr e, o) => if String.eqb n m then [mk_block (ptr_at img (o + 8)) e (u32_at img o)] else [] | _ => [] end) l = []).
  { clear. induction l as [|[[n t] q] l IHl]; [reflexivity|]. cbn [filter flat_map fst]. destruct (String.eqb n m); [discriminate|]. intros H. rewrite (IHl H), app_nil_r. destruct t; reflexivity. }
  destruct Hin as [E|Hin].
  - injection E as -> -> ->. rewrite String.eqb_refl in *. cbn [length] in H1. rewrite Z0 by lia. reflexivity.
  - destruct (String.eqb n m) eqn:En.
    + exfalso. cbn [length] in H1. assert (N0 : length (filter (fun x : string * ctype * Z => String.eqb (fst (fst x)) m) r) = 0%nat) by lia. apply length_zero_iff_nil in N0.
      assert (In (m, Arr e, o) []) as []. rewrite <- N0. apply filter_In. split; [exact Hin|]. cbn [fst]. apply String.eqb_refl.
    + rewrite (IH Hin H1). destruct t; reflexivity.
Qed.
Ltac db_arr := apply db_array; [vm_compute; tauto|vm_compute; reflexivity].
Lemma tp_array : database_array img "type_primitives" = [tp]. Proof. unfold tp. db_arr. Qed.
Lemma typ_arrays : flat_map (database_array img) ["types"; "classes"; "enums"; "template_types"] = map (fun y => child root 0 (fst y) (Struct (snd y))) typs.
Proof.
  cbn [flat_map map typs fst snd].
  assert (E1 : database_array img "types" = [child root 0 40 (Struct Type_)]) by db_arr.
  assert (E2 : database_array img "classes" = [child root 0 160 (Struct Class)]) by db_arr.
  assert (E3 : database_array img "enums" = [child root 0 88 (Struct Enum)]) by db_arr.
  assert (E4 : database_array img "template_types" = [child root 0 208 (Struct TemplateType)]) by db_arr.
  rewrite E1, E2, E3, E4. reflexivity.
Qed.

Lemma types_listed : exists l, Permutation all_types l /\ map (fun j => ptr_at img (elem tp (Z.of_nat j) - start)) (seq 0 (Z.to_nat (b_count tp))) = map bt_addr l.
Proof.
  pose proof (io_types _ _ OK) as P. rewrite tp_array, typ_arrays in P. cbn [flat_map] in P. rewrite app_nil_r in P. unfold elements in P at 1. rewrite map_map in P.
  assert (E : flat_map elements (map (fun y => child root 0 (fst y) (Struct (snd y))) typs) = map bt_addr all_types).
  { unfold all_types, typs. cbn [flat_map map fst snd]. rewrite !map_app, !map_map. reflexivity. }
  rewrite E in P. apply Permutation_map_inv in P. destruct P as [l [E2 P2]]. exists l. split; [exact P2|exact E2].
Qed.

Lemma bt_call : forall o s k, In (o, s) typs -> 0 <= k < b_count (child root 0 o (Struct s)) ->
  call_is schema_ptr (Ptr "") (elem (child root 0 o (Struct s)) k + 48) (bt_item (o, s, k)).
Proof.
  intros o s k H Hk. constructor. exists [(0, o)], (child root 0 o (Struct s)), k, 48, (Ptr "Type").
  assert (X : In (o, Struct s) (arrays (Struct DatabaseMem)) /\ In (48, Ptr "Type") (arrays (Struct s))).
  { unfold typs in H. cbn [In] in H. destruct H as [E|[E|[E|[E|[]]]]]; injection E as <- <-; (split; vm_compute; repeat (first [left; reflexivity|right])). }
  destruct X as [X1 X2]. split; [apply top_at; exact X1|]. split; [exact Hk|]. split; [exact X2|]. split; [reflexivity|]. split; [reflexivity|]. split; reflexivity.
Qed.
Lemma tp_loop : forall l n i rs L, (forall x, In x l -> In x all_types) -> 0 <= i -> i + Z.of_nat n <= b_count tp ->
  map (fun j => ptr_at img (elem tp (i + Z.of_nat j) - start)) (seq 0 n) = map bt_addr l -> tracked rs L ->
  exists rs', for_each i n (fun i rs =>
    do a <- element start img (start + OffsetOf DatabaseMem "type_primitives") i (Ptr "");
    do t <- read_ptr start img a;
    AddArray start img ss0 pad rs schema_ptr (Ptr "") (t + OffsetOf Type_ "base_types")) rs = Ok rs' /\ tracked rs' (L ++ map bt_item l).
Proof.
  intros l n. revert l. induction n as [|n IH]; intros l i rs L Hl Hi Hn E T; cbn [for_each].
  - cbn in E. destruct l; [|discriminate]. exists rs. cbn [map]. rewrite app_nil_r. split; [reflexivity|exact T].
  - destruct l as [|x l]; [discriminate|]. cbn [seq map] in E. injection E as E1 E2. rewrite Z.add_0_r in E1.
    assert (Htp : In (384, Ptr "Type") (arrays (Struct DatabaseMem))) by (vm_compute; repeat (first [left; reflexivity|right])).
    pose proof (element_ok [] root 0 384 (Ptr "Type") i (Ptr "") root_at) as EK. rewrite elem_root in EK.
    change (OffsetOf DatabaseMem "type_primitives") with 384. rewrite EK; [|rewrite root_count; lia|exact Htp|unfold tp in Hn; lia|reflexivity]. cbn [obind]. fold tp.
    assert (Tat : at_ [(0, 384)] tp) by (apply top_at; exact Htp). destruct (elem_range _ tp i Tat) as [R1 R2]; [lia|]. change (size_of (b_type tp)) with 8 in R2.
    rewrite read_ptr_ok by lia. cbn [obind]. rewrite E1. change (OffsetOf Type_ "base_types") with 48.
    assert (Hx : In x all_types) by (apply Hl; left; reflexivity). unfold all_types in Hx. apply in_flat_map in Hx. destruct Hx as [[o s] [Hos Hx]]. apply in_map_iff in Hx. destruct Hx as [k [<- Hk]]. apply in_seq in Hk.
    cbn [fst snd] in *.
    destruct (add_array rs L schema_ptr (Ptr "") (elem (child root 0 o (Struct s)) (Z.of_nat k) + 48) (bt_item (o, s, Z.of_nat k)) T) as [rs1 [X1 X2]].
    { apply bt_call; [exact Hos|]. lia. }
    unfold bt_addr at 1. rewrite X1. cbn [obind].
    destruct (IH l (i + 1) rs1 (L ++ [bt_item (o, s, Z.of_nat k)])) as [rs2 [Y1 Y2]]; [intros y Hy; apply Hl; right; exact Hy|lia|lia| |exact X2|].
    + rewrite <- E2. rewrite <- seq_shift, map_map. apply map_ext. intros a. f_equal. f_equal. f_equal. lia.
    + exists rs2. split; [exact Y1|]. rewrite <- app_assoc in Y2. exact Y2.
Qed.

Definition tops : list (Z * ctype) :=
  [(16, Struct Name); (40, Struct Type_); (64, Struct EnumConstant); (88, Struct Enum); (112, Struct Field); (136, Struct Function_); (160, Struct Class);
   (208, Struct TemplateType); (184, Struct Template); (232, Struct Namespace); (264, Struct FlagAttribute); (288, Struct IntAttribute); (312, Struct FloatAttribute);
   (336, Struct PrimitiveAttribute); (360, Struct TextAttribute); (384, Ptr "Type"); (408, Struct ContainerInfo)].
Definition globs : list (Z * ctype) :=
  [(472, Ptr "Namespace"); (496, Ptr "Type"); (520, Ptr "Enum"); (544, Ptr "Class"); (568, Ptr "Function"); (592, Ptr "Template")].
Definition nests : list (Z * ctype * list (Z * ctype)) :=
  [(88, Struct Enum, [(80, Ptr "EnumConstant"); (104, Ptr "Attribute")]); (112, Struct Field, [(64, Ptr "Attribute")]);
   (136, Struct Function_, [(64, Ptr "Field"); (88, Ptr "Attribute")]);
   (160, Struct Class, [(96, Ptr "Enum"); (120, Ptr "Class"); (144, Ptr "Function"); (168, Ptr "Field"); (192, Ptr "Attribute"); (216, Ptr "Template")]);
   (184, Struct Template, [(40, Ptr "TemplateType")]);
   (232, Struct Namespace, [(40, Ptr "Namespace"); (64, Ptr "Type"); (88, Ptr "Enum"); (112, Ptr "Class"); (136, Ptr "Function"); (160, Ptr "Template")])].
Definition listed (l : list (Z * struct * Z)) : list (list (Z * Z) * block) :=
  ([], root) :: map top_item tops ++ flat_map nest_items nests ++ map top_item globs ++ map bt_item l.

Ltac in_list := vm_compute; repeat (first [left; reflexivity|right]).
Lemma list_pointers_ok : exists rs l, Permutation all_types l /\ list_pointers start img ss0 pad start = Ok rs /\ tracked rs (listed l).
Proof.
  destruct types_listed as [l [P E]].
  assert (T0 : tracked [] []) by (split; [reflexivity|constructor|unfold zlen; cbn; lia|constructor]).
  assert (T1 : tracked (AddObjects start pad [] schema_database start 1) [([], root)]).
  { apply (add_block [] [] [] root T0 root_at). right. cbn [b_addr root]. pose proof (zlen_nonneg _ img). lia. }
  unfold list_pointers. cbv zeta.
  match goal with |- context [AddArrays start img ss0 pad ?r ?c] => destruct (add_arrays c (map top_item tops) r _ T1) as [rs2 [E2 T2]] end.
  { unfold tops. cbn [map].
    repeat (apply Forall2_cons; [cbn [fst snd]; apply top_call; [in_list|reflexivity|reflexivity]|]). apply Forall2_nil. }
  rewrite E2. cbn [obind]. clear E2.
  assert (nest : forall m s ms o1 o2s rs L, OffsetOf DatabaseMem m = o1 -> In (o1, Struct s) (arrays (Struct DatabaseMem)) ->
    map (OffsetOf s) ms = map fst o2s -> forallb (fun x => match snd x with Ptr z => true | _ => false end) o2s = true -> Forall (fun x => In x (arrays (Struct s))) o2s -> tracked rs L ->
    exists rs', AddNested start img ss0 pad start m s ms rs = Ok rs' /\ tracked rs' (L ++ nest_items (o1, Struct s, o2s))).
  { intros m s ms o1 o2s rs L A1 A2 A3 A4 A5 A6. apply nested_ok; try assumption. rewrite forallb_forall in A4. rewrite Forall_forall in *. intros x Hx. split; [apply A5; exact Hx|].
    specialize (A4 x Hx). destruct (snd x); try discriminate. eexists. reflexivity. }
  destruct (nest "enums" Enum ["constants"; "attributes"] 88 [(80, Ptr "EnumConstant"); (104, Ptr "Attribute")] _ _ eq_refl ltac:(in_list) eq_refl eq_refl ltac:(repeat (constructor; [in_list|]); constructor) T2) as [rs3 [E3 T3]].
  rewrite E3. cbn [obind]. clear E3 T2.
  destruct (nest "fields" Field ["attributes"] 112 [(64, Ptr "Attribute")] _ _ eq_refl ltac:(in_list) eq_refl eq_refl ltac:(repeat (constructor; [in_list|]); constructor) T3) as [rs4 [E4 T4]].
  rewrite E4. cbn [obind]. clear E4 T3.
  destruct (nest "functions" Function_ ["parameters"; "attributes"] 136 [(64, Ptr "Field"); (88, Ptr "Attribute")] _ _ eq_refl ltac:(in_list) eq_refl eq_refl ltac:(repeat (constructor; [in_list|]); constructor) T4) as [rs5 [E5 T5]].
  rewrite E5. cbn [obind]. clear E5 T4.
  destruct (nest "classes" Class ["enums"; "classes"; "methods"; "fields"; "attributes"; "templates"] 160
    [(96, Ptr "Enum"); (120, Ptr "Class"); (144, Ptr "Function"); (168, Ptr "Field"); (192, Ptr "Attribute"); (216, Ptr "Template")] _ _ eq_refl ltac:(in_list) eq_refl eq_refl ltac:(repeat (constructor; [in_list|]); constructor) T5) as [rs6 [E6 T6]].
  rewrite E6. cbn [obind]. clear E6 T5.
  destruct (nest "templates" Template ["instances"] 184 [(40, Ptr "TemplateType")] _ _ eq_refl ltac:(in_list) eq_refl eq_refl ltac:(repeat (constructor; [in_list|]); constructor) T6) as [rs7 [E7 T7]].
  rewrite E7. cbn [obind]. clear E7 T6.
  destruct (nest "namespaces" Namespace ["namespaces"; "types"; "enums"; "classes"; "functions"; "templates"] 232
    [(40, Ptr "Namespace"); (64, Ptr "Type"); (88, Ptr "Enum"); (112, Ptr "Class"); (136, Ptr "Function"); (160, Ptr "Template")] _ _ eq_refl ltac:(in_list) eq_refl eq_refl ltac:(repeat (constructor; [in_list|]); constructor) T7) as [rs8 [E8 T8]].
  rewrite E8. cbn [obind]. clear E8 T7.
  match goal with |- context [AddArrays start img ss0 pad ?r ?c] => destruct (add_arrays c (map top_item globs) r _ T8) as [rs9 [E9 T9]] end.
  { unfold globs. cbn [map].
    repeat (apply Forall2_cons; [cbn [fst snd]; rewrite <- Z.add_assoc; apply top_call; [in_list|reflexivity|reflexivity]|]). apply Forall2_nil. }
  rewrite E9. cbn [obind]. clear E9 T8.
  assert (Htp : In (384, Ptr "Type") (arrays (Struct DatabaseMem))) by in_list.
  change (OffsetOf DatabaseMem "type_primitives") with 384 at 1. rewrite (top_count 384 (Ptr "Type") Htp). cbn [obind]. fold tp.
  assert (Tat : at_ [(0, 384)] tp) by (apply top_at; exact Htp). pose proof (at_count _ _ Tat) as C.
  destruct (tp_loop l (Z.to_nat (b_count tp)) 0 rs9 _ ltac:(intros x Hx; exact (Permutation_in _ (Permutation_sym P) Hx)) ltac:(lia) ltac:(lia) E T9) as [rs10 [E10 T10]].
  exists rs10, l. split; [exact P|]. split; [exact E10|].
  unfold listed. rewrite <- !app_assoc in T10. cbn [nests flat_map app] in *. rewrite <- ?app_assoc. exact T10.
Qed.

(* ---- every block is listed ---- *)
Lemma arrays_db : arrays (Struct DatabaseMem) =
  [(16, Struct Name); (40, Struct Type_); (64, Struct EnumConstant); (88, Struct Enum); (112, Struct Field); (136, Struct Function_); (160, Struct Class);
   (184, Struct Template); (208, Struct TemplateType); (232, Struct Namespace); (264, Struct FlagAttribute); (288, Struct IntAttribute); (312, Struct FloatAttribute);
   (336, Struct PrimitiveAttribute); (360, Struct TextAttribute); (384, Ptr "Type"); (408, Struct ContainerInfo); (472, Ptr "Namespace"); (496, Ptr "Type");
   (520, Ptr "Enum"); (544, Ptr "Class"); (568, Ptr "Function"); (592, Ptr "Template")].
Proof. vm_compute. reflexivity. Qed.
Lemma top_listed : forall o e, In (o, e) (arrays (Struct DatabaseMem)) -> In (o, e) (tops ++ globs).
Proof.
  intros o e H. rewrite arrays_db in H. cbn [In] in H.
  repeat match goal with H : _ \/ _ |- _ => destruct H as [H|H]; [injection H as <- <-; cbn [tops globs app In]; tauto|] end. contradiction.
Qed.
(* the arrays inside each of those, apart from base_types *)
Definition nest_check (x : Z * ctype) : bool :=
  match snd x with
  | Struct s =>
      forallb (fun y => match snd y with
        | Ptr z => (fst y =? 48) && existsb (fun t => (fst t =? fst x)) typs && String.eqb z "Type" ||
                   existsb (fun n => (fst (fst n) =? fst x) && existsb (fun w => (fst w =? fst y) && match snd w with Ptr z' => String.eqb z z' | _ => false end) (snd n)) nests
        | _ => false
        end) (arrays (Struct s))
  | Ptr _ => true
  | _ => false
  end.
Lemma nest_checked : forall x, In x (arrays (Struct DatabaseMem)) -> nest_check x = true.
Proof. apply forallb_forall. vm_compute. reflexivity. Qed.
Lemma nest_types : forall n, In n nests -> In (fst n) (arrays (Struct DatabaseMem)).
Proof. intros n H. cbn [nests In] in H. repeat match goal with H : _ \/ _ |- _ => destruct H as [H|H]; [subst n; in_list|] end. contradiction. Qed.
Lemma typs_types : forall t, In t typs -> In (fst t, Struct (snd t)) (arrays (Struct DatabaseMem)).
Proof. intros n H. cbn [typs In] in H. repeat match goal with H : _ \/ _ |- _ => destruct H as [H|H]; [subst n; in_list|] end. contradiction. Qed.
Lemma db_arrays_fun : forall o e e', In (o, e) (arrays (Struct DatabaseMem)) -> In (o, e') (arrays (Struct DatabaseMem)) -> e = e'.
Proof. destruct (type_facts (Struct DatabaseMem) eq_refl) as (_ & _ & _ & _ & _ & A & _). exact A. Qed.
Lemma arrays_ptr : forall z, arrays (Ptr z) = []. Proof. reflexivity. Qed.

Lemma shape : forall p b, at_ p b ->
  match p with [] => b = root | [_] => exists o, In (o, b_type b) (arrays (Struct DatabaseMem)) | [_; _] => arrays (b_type b) = [] | _ => False end.
Proof.
  intros p b H. induction H as [|p b j o e H IH Hj Ho]; [reflexivity|]. destruct p as [|x [|y [|z p]]].
  - subst b. exists o. exact Ho.
  - destruct IH as [o' Ho']. pose proof (nest_checked _ Ho') as K. unfold nest_check in K. cbn [snd fst b_type] in *. destruct (b_type b) as [ |q| |s| ]; try discriminate; [rewrite arrays_ptr in Ho; contradiction|].
    rewrite forallb_forall in K. specialize (K _ Ho). cbn [snd fst] in K. destruct e; try discriminate. reflexivity.
  - rewrite IH in Ho. contradiction.
  - contradiction.
Qed.
Lemma complete : forall l p b, Permutation all_types l -> at_ p b -> In (p, b) (listed l).
Proof.
  intros l p b P H. inversion H as [|p1 b1 j1 o1 e1 H1 Hj1 Ho1]; subst; [left; reflexivity|].
  inversion H1 as [|p2 b2 j2 o2 e2 H2 Hj2 Ho2]; subst.
  - fold root in *. rewrite root_count in Hj1. assert (j1 = 0) by lia. subst j1. right. cbn [b_type] in Ho1. apply top_listed in Ho1.
    apply in_app_or in Ho1. destruct Ho1 as [Ho1|Ho1].
    + apply in_or_app. left. exact (in_map top_item _ _ Ho1).
    + apply in_or_app. right. apply in_or_app. right. apply in_or_app. left. exact (in_map top_item _ _ Ho1).
  - inversion H2 as [|p3 b3 j3 o3 e3 H3 Hj3 Ho3]; subst.
    + cbn [b_count] in Hj2. assert (j2 = 0) by lia. subst j2. cbn [b_type] in *. fold root in *. change (mk_block _ e2 _) with (child root 0 o2 e2) in *.
      pose proof (nest_checked _ Ho2) as K. unfold nest_check in K. cbn [snd fst] in K. destruct e2 as [ |z| |s| ]; try discriminate; [rewrite arrays_ptr in Ho1; contradiction|].
      rewrite forallb_forall in K. specialize (K _ Ho1). cbn [snd fst] in K. destruct e1 as [ |z| | | ]; try discriminate.
      apply orb_prop in K. destruct K as [K|K].
      * apply andb_prop in K. destruct K as [K K3]. apply andb_prop in K. destruct K as [K1 K2]. apply String.eqb_eq in K3. subst z. assert (o1 = 48) by lia. subst o1.
        apply existsb_exists in K2. destruct K2 as [[o s'] [Hin Eo]]. cbn [fst] in Eo. assert (o = o2) by lia. subst o. pose proof (typs_types _ Hin) as Ht. cbn [fst snd] in Ht.
        pose proof (db_arrays_fun _ _ _ Ho2 Ht) as Es. injection Es as <-.
        right. apply in_or_app. right. apply in_or_app. right. apply in_or_app. right. apply (in_map bt_item l (o2, s, j1)). apply (Permutation_in _ P). unfold all_types. apply in_flat_map. exists (o2, s). split; [exact Hin|].
        apply in_map_iff. exists (Z.to_nat j1). cbn [fst snd]. split; [f_equal; lia|]. apply in_seq. lia.
      * apply existsb_exists in K. destruct K as [[[o e] o2s] [Hin K]]. cbn [fst snd] in K. apply andb_prop in K. destruct K as [K1 K2]. assert (o = o2) by lia. subst o.
        pose proof (nest_types _ Hin) as Ht. cbn [fst] in Ht. pose proof (db_arrays_fun _ _ _ Ho2 Ht) as Es. subst e.
        apply existsb_exists in K2. destruct K2 as [[q e] [Hq K2]]. cbn [fst snd] in K2. apply andb_prop in K2. destruct K2 as [K2 K3]. assert (q = o1) by lia. subst q.
        destruct e as [ |z'| | | ]; try discriminate. apply String.eqb_eq in K3. subst z'.
        right. apply in_or_app. right. apply in_or_app. left. apply in_flat_map. exists (o2, Struct s, o2s). split; [exact Hin|]. unfold nest_items. apply in_flat_map. exists (Z.to_nat j1). split; [apply in_seq; lia|].
        rewrite Z2Nat.id by lia. apply (in_map (fun y => ([(j1, fst y); (0, o2)], child (child root 0 o2 (Struct s)) j1 (fst y) (snd y))) _ _ Hq).
    + exfalso. exact (shape _ _ H).
Qed.

(* ---- no block is listed twice ---- *)
Definition nest_paths (x : Z * ctype * list (Z * ctype)) : list (list (Z * Z)) :=
  flat_map (fun k => map (fun y => [(Z.of_nat k, fst y); (0, fst (fst x))]) (snd x)) (seq 0 (Z.to_nat (b_count (child root 0 (fst (fst x)) (snd (fst x)))))).
Lemma map_flat_map : forall A B C (f : B -> C) (g : A -> list B) l, map f (flat_map g l) = flat_map (fun x => map f (g x)) l.
Proof. intros. induction l as [|x l IH]; cbn [flat_map map]; [reflexivity|]. rewrite map_app, IH. reflexivity. Qed.
Lemma nest_paths_eq : forall x, map fst (nest_items x) = nest_paths x.
Proof. intros [[o e] l]. unfold nest_items, nest_paths. rewrite map_flat_map. apply flat_map_ext. intros k. rewrite map_map. reflexivity. Qed.
Lemma paths_eq : forall l, map fst (listed l) = [] :: map (fun x => [(0, fst x)]) tops ++ flat_map nest_paths nests ++ map (fun x => [(0, fst x)]) globs ++ map (fun x => [(snd x, 48); (0, fst (fst x))]) l.
Proof.
  intros l. unfold listed. cbn [map fst]. rewrite !map_app.
  assert (E1 : map fst (map top_item tops) = map (fun x => [(0, fst x)]) tops) by reflexivity.
  assert (E2 : map fst (flat_map nest_items nests) = flat_map nest_paths nests) by (rewrite map_flat_map; apply flat_map_ext; exact nest_paths_eq).
  assert (E3 : map fst (map top_item globs) = map (fun x => [(0, fst x)]) globs) by reflexivity.
  assert (E4 : map fst (map bt_item l) = map (fun x => [(snd x, 48); (0, fst (fst x))]) l) by (rewrite map_map; apply map_ext; intros [[o s] k]; reflexivity).
  rewrite E1, E2, E3, E4. reflexivity.
Qed.
Lemma nests_48 : forall n y, In n nests -> In y (snd n) -> fst y <> 48.
Proof.
  assert (H : forallb (fun n => forallb (fun y => negb (fst y =? 48)) (snd n)) nests = true) by (vm_compute; reflexivity).
  intros n y Hn Hy. rewrite forallb_forall in H. specialize (H n Hn). rewrite forallb_forall in H. specialize (H y Hy). lia.
Qed.
Lemma nest_nodup : forall n, In n nests -> NoDup (map fst (snd n)).
Proof.
  assert (H : forallb (fun n => apartb 1 (map fst (snd n))) nests = true) by (vm_compute; reflexivity).
  intros n Hn. rewrite forallb_forall in H. apply (apartb_nodup 1); [lia|]. apply H. exact Hn.
Qed.
Lemma nests_nodup : NoDup (map (fun n => fst (fst n)) nests).
Proof. apply (apartb_nodup 1); [lia|]. vm_compute. reflexivity. Qed.
Lemma typs_nodup : NoDup (map fst typs).
Proof. apply (apartb_nodup 1); [lia|]. vm_compute. reflexivity. Qed.
Lemma tops_globs_nodup : NoDup (map fst (tops ++ globs)).
Proof. apply (apartb_nodup 1); [lia|]. vm_compute. reflexivity. Qed.
Lemma all_types_in : forall o s k, In (o, s, k) all_types <-> In (o, s) typs /\ 0 <= k < b_count (child root 0 o (Struct s)).
Proof.
  intros o s k. unfold all_types. rewrite in_flat_map. split.
  - intros [[o' s'] [Hin H]]. apply in_map_iff in H. destruct H as [k' [E Hk]]. cbn [fst snd] in *. injection E as -> -> <-. apply in_seq in Hk. split; [exact Hin|]. lia.
  - intros [Hin Hk]. exists (o, s). split; [exact Hin|]. apply in_map_iff. exists (Z.to_nat k). cbn [fst snd]. split; [f_equal; lia|]. apply in_seq. lia.
Qed.
Lemma all_types_nodup : NoDup all_types.
Proof.
  unfold all_types. apply nodup_flat_map.
  - apply (NoDup_map_inv fst). exact typs_nodup.
  - intros x Hx. apply nodup_map_on; [apply seq_NoDup|]. intros a b _ _ E. injection E as E. lia.
  - intros x y z Hx Hy H1 H2. apply in_map_iff in H1. destruct H1 as [a [<- _]]. apply in_map_iff in H2. destruct H2 as [b [E _]]. injection E as E1 E2 _. destruct x, y. cbn [fst snd] in *. congruence.
Qed.
Lemma paths_nodup : forall l, Permutation all_types l -> NoDup (map fst (listed l)).
Proof.
  intros l P. rewrite paths_eq.
  assert (N : NoDup (map (fun x => [(0, fst x)]) (tops ++ globs))).
  { apply nodup_map_on; [apply (NoDup_map_inv fst); exact tops_globs_nodup|]. intros x y Hx Hy E. injection E as E. apply (nodup_map_inj _ _ fst (tops ++ globs)); [exact tops_globs_nodup|exact Hx|exact Hy|exact E]. }
  rewrite map_app in N.
  assert (Nn : NoDup (flat_map nest_paths nests)).
  { apply nodup_flat_map.
    - apply (NoDup_map_inv (fun n => fst (fst n))). exact nests_nodup.
    - intros x Hx. unfold nest_paths. apply nodup_flat_map; [apply seq_NoDup| |].
      + intros k _. apply nodup_map_on; [apply (NoDup_map_inv fst); apply nest_nodup; exact Hx|]. intros a b Ha Hb E. injection E as E. apply (nodup_map_inj _ _ fst (snd x)); [apply nest_nodup; exact Hx|exact Ha|exact Hb|exact E].
      + intros a b z _ _ H1 H2. apply in_map_iff in H1. destruct H1 as [c [<- _]]. apply in_map_iff in H2. destruct H2 as [d [E _]]. injection E as E1 E2. lia.
    - intros x y z Hx Hy H1 H2. unfold nest_paths in H1, H2. apply in_flat_map in H1. destruct H1 as [a [_ H1]]. apply in_map_iff in H1. destruct H1 as [c [<- _]].
      apply in_flat_map in H2. destruct H2 as [b [_ H2]]. apply in_map_iff in H2. destruct H2 as [d [E _]]. injection E as _ _ E.
      apply (nodup_map_inj _ _ (fun n => fst (fst n)) nests); [exact nests_nodup|exact Hx|exact Hy|]. symmetry. exact E. }
  assert (Nl : NoDup (map (fun x : Z * struct * Z => [(snd x, 48); (0, fst (fst x))]) l)).
  { apply nodup_map_on; [apply (Permutation_NoDup P); exact all_types_nodup|]. intros [[o s] k] [[o' s'] k'] Hx Hy E. cbn [fst snd] in E. injection E as -> ->.
    apply (Permutation_in _ (Permutation_sym P)) in Hx. apply (Permutation_in _ (Permutation_sym P)) in Hy. apply all_types_in in Hx. apply all_types_in in Hy.
    assert (Es : (o', s) = (o', s')) by (apply (nodup_map_inj _ _ fst typs); [exact typs_nodup|apply Hx|apply Hy|reflexivity]). congruence. }
  assert (In1 : forall (m : list (Z * ctype)) z, In z (map (fun x => [(0, fst x)]) m) -> exists o, z = [(0, o)]).
  { intros m z Hz. apply in_map_iff in Hz. destruct Hz as [x [<- _]]. exists (fst x). reflexivity. }
  assert (In2 : forall z, In z (flat_map nest_paths nests) -> exists k o1 o2, z = [(k, o2); (0, o1)] /\ o2 <> 48).
  { intros z Hz. apply in_flat_map in Hz. destruct Hz as [n [Hn Hz]]. unfold nest_paths in Hz. apply in_flat_map in Hz. destruct Hz as [k [_ Hz]]. apply in_map_iff in Hz. destruct Hz as [y [<- Hy]].
    exists (Z.of_nat k), (fst (fst n)), (fst y). split; [reflexivity|]. apply (nests_48 n); assumption. }
  assert (In3 : forall z, In z (map (fun x : Z * struct * Z => [(snd x, 48); (0, fst (fst x))]) l) -> exists k o1, z = [(k, 48); (0, o1)]).
  { intros z Hz. apply in_map_iff in Hz. destruct Hz as [x [<- _]]. eexists. eexists. reflexivity. }
  constructor.
  - intros H. apply in_app_or in H. destruct H as [H|H]; [destruct (In1 _ _ H) as [o E]; discriminate|].
    apply in_app_or in H. destruct H as [H|H]; [destruct (In2 _ H) as (k & o1 & o2 & E & _); discriminate|].
    apply in_app_or in H. destruct H as [H|H]; [destruct (In1 _ _ H) as [o E]; discriminate|]. destruct (In3 _ H) as (k & o1 & E). discriminate.
  - apply nodup_app; [apply (nodup_app_l _ _ _ N)|apply nodup_app; [exact Nn|apply nodup_app; [apply (nodup_app_r _ _ _ N)|exact Nl|]|]|].
    + intros z H1 H2. destruct (In1 _ _ H1) as [o E]. destruct (In3 _ H2) as (k & o1 & E'). subst z. discriminate.
    + intros z H1 H2. destruct (In2 _ H1) as (k & o1 & o2 & E & Q). apply in_app_or in H2. destruct H2 as [H2|H2].
      * destruct (In1 _ _ H2) as [o E']. subst z. discriminate.
      * destruct (In3 _ H2) as (k' & o1' & E'). subst z. injection E' as _ E' _. contradiction.
    + intros z H1 H2. apply in_app_or in H2. destruct H2 as [H2|H2].
      * destruct (In1 _ _ H1) as [o E]. destruct (In2 _ H2) as (k & o1 & o2 & E' & _). subst z. discriminate.
      * apply in_app_or in H2. destruct H2 as [H2|H2].
        -- apply in_split in H2. destruct H2 as [a [c Ec]]. rewrite Ec in N. apply in_split in H1. destruct H1 as [a' [c' Ec']]. rewrite Ec' in N.
           rewrite <- app_assoc in N. cbn [app] in N. apply NoDup_remove_2 in N. apply N. apply in_or_app. right. apply in_or_app. right. apply in_or_app. right. left. reflexivity.
        -- destruct (In1 _ _ H1) as [o E]. destruct (In3 _ H2) as (k & o1 & E'). subst z. discriminate.
Qed.

(* ---- what the relocations list ---- *)
Lemma listed_slots : forall rs l, Permutation all_types l -> tracked rs (listed l) -> forall q, In q (slots ss0 rs) <-> exists n, pointer_at start img n q /\ outside n = false.
Proof.
  intros rs l P [T1 _ _ T4] q. rewrite T1, in_flat_map. split.
  - intros [[p b] [Hin Hq]]. rewrite Forall_forall in T4. specialize (T4 _ Hin). cbn [fst snd] in *. apply (in_bslots p b q T4) in Hq. destruct Hq as [j [n [o [Hj [Hn [Ho E]]]]]].
    exists n. split; [|exact Ho]. exists p, b, j, o. split; [exact T4|]. split; [exact Hj|]. split; [exact Hn|exact E].
  - intros [n [[p [b [j [o [Hb [Hj [Hn E]]]]]]] Ho]]. exists (p, b). split; [apply complete; assumption|]. cbn [snd]. apply (in_bslots p b q Hb). exists j, n, o. split; [exact Hj|]. split; [exact Hn|]. split; assumption.
Qed.
Lemma places_apart : forall n q n' q', pointer_at start img n q -> pointer_at start img n' q' -> q = q' \/ q + 8 <= q' \/ q' + 8 <= q.
Proof.
  intros n q n' q' [p [b [j [o [Hb [Hj [Hn ->]]]]]]] [p' [b' [j' [o' [Hb' [Hj' [Hn' ->]]]]]]].
  destruct (type_facts _ (at_type _ _ Hb)) as (_ & _ & _ & _ & A & _ & B & _). destruct (type_facts _ (at_type _ _ Hb')) as (_ & _ & _ & _ & _ & _ & B' & _).
  destruct (B n o Hn) as [B1 B2]. destruct (B' n' o' Hn') as [B3 B4].
  destruct (parts_apart p b j o 8 p' b' j' o' 8 Hb Hb' Hj Hj' B1 ltac:(lia) B2 B3 ltac:(lia) B4) as [[<- <-]|[Q|Q]]; [|lia|lia].
  rewrite <- (at_fun _ _ Hb _ Hb') in *. destruct (A n o n' o' Hn Hn') as [->|[Q|Q]]; lia.
Qed.
Lemma bslots_apart : forall p b, at_ p b -> ForallOrdPairs (fun x y => x + 8 <= y \/ y + 8 <= x) (bslots b).
Proof.
  intros p b H. destruct (type_facts _ (at_type _ _ H)) as (_ & _ & F & A & _ & _ & B & _). unfold bslots. apply fop_flat_map.
  - intros j _. apply fop_map. revert A. apply fop_impl. intros x y _ _ h. lia.
  - apply (fop_impl _ (fun x y => x <> y)); [|apply nodup_fop; apply seq_NoDup]. intros x y Hx Hy Nxy a c Ha Hc. apply in_seq in Hx. apply in_seq in Hy. pose proof (at_count _ _ H).
    apply in_map_iff in Ha. destruct Ha as [o [<- Ho]]. apply in_map_iff in Hc. destruct Hc as [o' [<- Ho']]. apply F in Ho. apply F in Ho'. destruct Ho as [n [Hn _]]. destruct Ho' as [n' [Hn' _]].
    destruct (B n o Hn) as [B1 B2]. destruct (B n' o' Hn') as [B3 B4].
    destruct (parts_apart p b (Z.of_nat x) o 8 p b (Z.of_nat y) o' 8 H H ltac:(lia) ltac:(lia) B1 ltac:(lia) B2 B3 ltac:(lia) B4) as [[_ Q]|[Q|Q]]; lia.
Qed.
Lemma listed_ok : forall rs l, Permutation all_types l -> tracked rs (listed l) -> slots_ok (zlen img) (slots ss0 rs).
Proof.
  intros rs l P T. split.
  - intros q Hq. apply (listed_slots rs l P T) in Hq. destruct Hq as [n [[p [b [j [o [Hb [Hj [Hn ->]]]]]]] _]].
    destruct (type_facts _ (at_type _ _ Hb)) as (_ & _ & _ & _ & _ & _ & B & _). destruct (B n o Hn) as [B1 B2]. destruct (elem_range p b j Hb Hj) as [R1 R2]. lia.
  - pose proof (paths_nodup l P) as N. destruct T as [T1 _ _ T4]. rewrite T1. rewrite Forall_forall in T4. apply fop_flat_map.
    + intros x Hx. apply (bslots_apart (fst x)). apply T4. exact Hx.
    + apply nodup_fop in N. apply fop_map_inv in N. revert N. apply fop_impl. intros [p b] [p' b'] Hx Hy Nxy a c Ha Hc. cbn [fst snd] in *.
      pose proof (T4 _ Hx) as Hb. pose proof (T4 _ Hy) as Hb'. cbn [fst snd] in *. apply (in_bslots p b a Hb) in Ha. apply (in_bslots p' b' c Hb') in Hc.
      destruct Ha as [j [n [o [Hj [Hn [_ ->]]]]]]. destruct Hc as [j' [n' [o' [Hj' [Hn' [_ ->]]]]]].
      destruct (type_facts _ (at_type _ _ Hb)) as (_ & _ & _ & _ & _ & _ & B & _). destruct (type_facts _ (at_type _ _ Hb')) as (_ & _ & _ & _ & _ & _ & B' & _).
      destruct (B n o Hn) as [B1 B2]. destruct (B' n' o' Hn') as [B3 B4].
      destruct (parts_apart p b j o 8 p' b' j' o' 8 Hb Hb' Hj Hj' B1 ltac:(lia) B2 B3 ltac:(lia) B4) as [[E _]|[Q|Q]]; [contradiction|lia|lia].
Qed.
Lemma nest_length : forall x, length (nest_items x) = (Z.to_nat (b_count (child root 0 (fst (fst x)) (snd (fst x)))) * length (snd x))%nat.
Proof.
  intros [[o e] l]. unfold nest_items. cbn [fst snd]. rewrite <- (seq_length (Z.to_nat (b_count (child root 0 o e))) 0) at 2.
  induction (seq 0 (Z.to_nat (b_count (child root 0 o e)))) as [|k r IH]; cbn [flat_map length Nat.mul]; [reflexivity|]. rewrite app_length, map_length, IH. reflexivity.
Qed.
Lemma listed_few : forall l, Permutation all_types l -> length l = Z.to_nat (b_count tp) -> zlen (listed l) < 2 ^ 31.
Proof.
  intros l P El. pose proof (io_few _ _ OK) as F. cbn [map fst snd] in F.
  assert (E1 : database_array img "enums" = [child root 0 88 (Struct Enum)]) by db_arr.
  assert (E2 : database_array img "fields" = [child root 0 112 (Struct Field)]) by db_arr.
  assert (E3 : database_array img "functions" = [child root 0 136 (Struct Function_)]) by db_arr.
  assert (E4 : database_array img "classes" = [child root 0 160 (Struct Class)]) by db_arr.
  assert (E5 : database_array img "templates" = [child root 0 184 (Struct Template)]) by db_arr.
  assert (E6 : database_array img "namespaces" = [child root 0 232 (Struct Namespace)]) by db_arr.
  rewrite E1, E2, E3, E4, E5, E6, tp_array in F. cbn [map fold_right] in F.
  assert (C : forall o e, In (o, e) (arrays (Struct DatabaseMem)) -> 0 <= b_count (child root 0 o e)) by (intros o e H; apply (at_count _ _ (top_at o e H))).
  pose proof (C 88 (Struct Enum) ltac:(in_list)). pose proof (C 112 (Struct Field) ltac:(in_list)). pose proof (C 136 (Struct Function_) ltac:(in_list)).
  pose proof (C 160 (Struct Class) ltac:(in_list)). pose proof (C 184 (Struct Template) ltac:(in_list)). pose proof (C 232 (Struct Namespace) ltac:(in_list)).
  pose proof (C 384 (Ptr "Type") ltac:(in_list)). fold tp in *.
  unfold listed. rewrite zlen_cons, !zlen_app, !zlen_map. cbn [nests flat_map]. rewrite !zlen_app. unfold zlen at 2 3 4 5 6 7 8. rewrite !nest_length. cbn [fst snd length].
  unfold zlen. rewrite El. cbn [tops globs length]. lia.
Qed.
Lemma tables_are_ok : forall rs l, Permutation all_types l -> length l = Z.to_nat (b_count tp) -> tracked rs (listed l) -> tables_ok ss0 rs.
Proof.
  intros rs l P El T. pose proof (listed_few l P El) as F. pose proof T as T'. destruct T as [T1 T2 T3 T4].
  split; [discriminate|]. split.
  { intros E. subst rs. assert (X : In 8 (slots ss0 [])); [|exact X]. apply (listed_slots [] l P T'). exists ["name_text_data"]. split; [|vm_compute; reflexivity].
    exists [], root, 0, 8. split; [apply root_at|]. split; [rewrite root_count; lia|]. split; [in_list|]. rewrite elem_root. lia. }
  split; [vm_compute; reflexivity|]. split; [lia|]. split; [vm_compute; reflexivity|]. split; [|exact T2].
  assert (B : forallb (fun s => (0 <=? sc_stride s) && (sc_stride s <? 2 ^ 64) && negb (match sc_offsets s with [] => true | _ => false end) && forallb (fun o => (0 <=? o) && (o <? 2 ^ 64)) (sc_offsets s)) ss0 = true) by (vm_compute; reflexivity).
  rewrite forallb_forall in B. apply Forall_forall. intros s Hs. specialize (B s Hs). repeat rewrite andb_true_iff in B. destruct B as [[[B1 B2] B3] B4]. unfold is_u64. split; [lia|]. split; [destruct (sc_offsets s); discriminate|].
  rewrite forallb_forall in B4. apply Forall_forall. intros o Ho. specialize (B4 o Ho). lia.
Qed.
Lemma pointers_are_ok : forall rs l, Permutation all_types l -> tracked rs (listed l) -> pointers_ok start img (slots ss0 rs).
Proof.
  intros rs l P T q Hq. apply (listed_slots rs l P T) in Hq. destruct Hq as [n [Hn _]]. destruct (io_pointers _ _ OK n q Hn) as [Q|[_ Q]]; [left; exact Q|right; exact Q].
Qed.
Lemma types_length : forall l, Permutation all_types l -> length l = Z.to_nat (b_count tp).
Proof.
  intros l P. destruct types_listed as [l0 [P0 E]]. apply (f_equal (@length Z)) in E. rewrite !map_length, seq_length in E. rewrite <- (Permutation_length P), (Permutation_length P0). lia.
Qed.

(* ---- the image after loading ---- *)
Section Moved.
Variables (base : Z) (img' : list Z) (ps : list Z).
Hypothesis PS : forall q, In q ps <-> exists n, pointer_at start img n q /\ outside n = false.
Hypothesis MV : moved start base ps img img'.

Lemma moved_pointers : forall n q, pointer_at start img n q -> ptr_at img' q = relocated start base (ptr_at img q).
Proof.
  intros n q H. destruct MV as [M1 [M2 M3]]. destruct (in_dec Z.eq_dec q ps) as [I|I]; [exact (M2 q I)|].
  assert (Z0 : ptr_at img q = 0). { destruct (io_pointers _ _ OK n q H) as [Q|[Q _]]; [exact Q|]. exfalso. apply I. apply PS. exists n. split; assumption. }
  assert (R : 0 <= q). { destruct H as [p [b [j [o [Hb [Hj [Hn ->]]]]]]]. destruct (type_facts _ (at_type _ _ Hb)) as (_ & _ & _ & _ & _ & _ & B & _). destruct (B n o Hn). destruct (elem_range p b j Hb Hj). lia. }
  unfold relocated. rewrite Z0. cbn. rewrite <- Z0. apply ptr_at_ext; [exact R|]. intros i Hi. apply M3. intros q' Hq' Hi'. pose proof Hq' as Hs. apply PS in Hq'. destruct Hq' as [n' [Hn' _]].
  destruct (places_apart n q n' q' H Hn') as [<-|[Q|Q]]; [contradiction|lia|lia].
Qed.
Lemma moved_bytes : forall i, (forall n q, pointer_at start img n q -> ~ (q <= i < q + 8)) -> znth img' i = znth img i.
Proof. intros i H. destruct MV as [_ [_ M3]]. apply M3. intros q Hq. apply PS in Hq. destruct Hq as [n [Hn _]]. exact (H n q Hn). Qed.
Definition mv (b : block) : block := mk_block (relocated start base (b_addr b)) (b_type b) (b_count b).
Lemma elem_mv : forall p b j, at_ p b -> 0 <= j < b_count b -> elem (mv b) j - base = elem b j - start.
Proof.
  intros p b j Hb Hj. destruct (io_inside _ _ OK p b Hb) as [A _]; [lia|]. pose proof (io_start _ _ OK). unfold elem, mv, relocated. cbn [b_addr b_type]. replace (b_addr b =? 0) with false by lia. lia.
Qed.
Lemma u32_at_ext : forall a b p, 0 <= p -> (forall i, p <= i < p + 4 -> znth a i = znth b i) -> u32_at a p = u32_at b p.
Proof.
  intros a b p Hp H. unfold u32_at. f_equal. apply znth_ext. intros i. rewrite !znth_slice by lia. destruct ((0 <=? i) && (i <? 4)) eqn:E; [|reflexivity]. apply H. lia.
Qed.
Lemma child_mv : forall p b j o e, at_ p b -> 0 <= j < b_count b -> In (o, e) (arrays (b_type b)) ->
  mk_block (ptr_at img' (elem (mv b) j + o + 8 - base)) e (u32_at img' (elem (mv b) j + o - base)) = mv (child b j o e).
Proof.
  intros p b j o e Hb Hj Ho. pose proof (elem_mv p b j Hb Hj) as E. unfold mv at 3. cbn [b_addr b_type b_count child].
  destruct (type_facts _ (at_type _ _ Hb)) as (_ & _ & _ & _ & _ & _ & B & A & _). destruct (A o e Ho) as (A1 & A2 & [n An] & _ & A5). destruct (elem_range p b j Hb Hj) as [R1 R2].
  replace (elem (mv b) j + o + 8 - base) with (elem b j + (o + 8) - start) by lia. replace (elem (mv b) j + o - base) with (elem b j + o - start) by lia.
  replace (elem b j + o + 8 - start) with (elem b j + (o + 8) - start) by lia.
  assert (Hp : pointer_at start img n (elem b j + (o + 8) - start)) by (exists p, b, j, (o + 8); auto). rewrite (moved_pointers _ _ Hp).
  assert (U : u32_at img' (elem b j + o - start) = u32_at img (elem b j + o - start)).
  { apply u32_at_ext; [lia|]. intros i Hi. apply moved_bytes. intros n' q' [p' [b' [j' [o' [Hb' [Hj' [Hn' ->]]]]]]] Hq.
    destruct (type_facts _ (at_type _ _ Hb')) as (_ & _ & _ & _ & _ & _ & B' & _). destruct (B' n' o' Hn') as [B3 B4].
    destruct (parts_apart p b j o 4 p' b' j' o' 8 Hb Hb' Hj Hj' A1 ltac:(lia) ltac:(lia) B3 ltac:(lia) B4) as [[<- <-]|[Q|Q]]; [|lia|lia].
    rewrite <- (at_fun _ _ Hb _ Hb') in *. destruct (A5 n' o' Hn'); lia. }
  rewrite U. reflexivity.
Qed.
Lemma root_mv : base <> 0 \/ True -> mv root = mk_block base (Struct DatabaseMem) 1.
Proof. intros _. unfold mv, root, relocated. cbn [b_addr b_type b_count]. pose proof (io_start _ _ OK). replace (start =? 0) with false by lia. f_equal. lia. Qed.
Lemma blocks_moved : forall p b', block_at base img' p b' <-> exists b, at_ p b /\ b' = mv b.
Proof.
  intros p b'. split.
  - intros H. induction H as [|p b' j o e H [b [Hb ->]] Hj Ho].
    + exists root. split; [apply root_at|]. symmetry. apply root_mv. right. exact I.
    + cbn [b_count b_type mv] in Hj, Ho. exists (child b j o e). split; [apply at_child; assumption|]. apply (child_mv p); assumption.
  - intros [b [Hb ->]]. induction Hb as [|p b j o e Hb IH Hj Ho].
    + change (mk_block start (Struct DatabaseMem) 1) with root. rewrite root_mv by (right; exact I). apply at_root.
    + change (mk_block _ e _) with (child b j o e). rewrite <- (child_mv p b j o e Hb Hj Ho). apply at_array; [exact IH|exact Hj|exact Ho].
Qed.
Lemma same_moved : same_database start img base img'.
Proof.
  split; [apply MV|]. split; [exact blocks_moved|]. split; [exact moved_pointers|exact moved_bytes].
Qed.
End Moved.
End Listed.

Lemma export_load_bytes : forall start img pad, image_ok start img -> (forall k, length (fst (pad k)) = 4%nat /\ length (snd (pad k)) = 4%nat) ->
  exists file, SaveCppExport start img pad = Ok file /\
    forall addr rest next live, 0 <= addr next -> addr next + zlen img < 2 ^ 64 -> Forall (fun b => b < next) live ->
    exists img', LoadMemoryMappedDatabase addr (mk_env (file ++ rest) next live) = Ok (Some (next, img'), mk_env rest (next + 4) (live ++ [next])) /\
      same_database start img (addr next) img' /\ Forall is_byte img'.
Proof.
  intros start img pad OK PAD. destruct (list_pointers_ok start img OK pad PAD) as [rs [l [P [E T]]]].
  pose proof (tables_are_ok start img OK rs l P (types_length start img OK l P) T) as TB. pose proof (listed_ok start img OK pad PAD rs l P T) as SL. pose proof (pointers_are_ok start img OK rs l P T) as PT.
  pose proof (io_start _ _ OK) as Hs. assert (Hs0 : 0 <= start) by lia.
  destruct (save_ok start ss0 rs img TB (io_bytes _ _ OK) (io_size _ _ OK) Hs0 SL PT) as [im [F _]].
  eexists. split.
  - unfold SaveCppExport. rewrite build_schemas_ok. cbn [obind]. rewrite E. cbn [obind]. exact F.
  - intros addr rest next live H1 H2 H3.
    destruct (load_saved_bytes addr start ss0 rs img rest next live _ TB (io_bytes _ _ OK) (io_size _ _ OK) Hs0 SL PT F H1 H2 H3) as [img' [L [M B]]].
    exists img'. split; [exact L|]. split; [|exact B]. apply (same_moved start img OK (addr next) img' (slots ss0 rs)); [|exact M]. apply (listed_slots start img OK rs l P T).
Qed.
Lemma export_load : forall start img pad, image_ok start img -> (forall k, length (fst (pad k)) = 4%nat /\ length (snd (pad k)) = 4%nat) ->
  exists file, SaveCppExport start img pad = Ok file /\
    forall addr rest next live, 0 <= addr next -> addr next + zlen img < 2 ^ 64 -> Forall (fun b => b < next) live ->
    exists img', LoadMemoryMappedDatabase addr (mk_env (file ++ rest) next live) = Ok (Some (next, img'), mk_env rest (next + 4) (live ++ [next])) /\
      same_database start img (addr next) img'.
Proof.
  intros start img pad OK PAD. destruct (export_load_bytes start img pad OK PAD) as [file [S H]]. exists file. split; [exact S|]. intros addr rest next live H1 H2 H3.
  destruct (H addr rest next live H1 H2 H3) as [img' [E [D _]]]. exists img'. split; assumption.
Qed.
