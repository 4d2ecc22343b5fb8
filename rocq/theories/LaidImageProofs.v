(* The image of an exported database is well-formed, and moving it is the same as making it elsewhere. *)
From Coq Require Import String Permutation Sorted.
From Verif Require Import Base BaseProofs Text DatabaseModel ExportModel.
From Verif Require Import MmapModel MmapSpec MmapProofs ImageLayout ImageModel ImageSpec ImageProofs LaidModel LaidSpec LaidProofs.
#[local] Open Scope string_scope.
#[local] Open Scope Z_scope.
#[local] Open Scope list_scope.

(* every reference of the export leads somewhere in it *)
Definition valid (e : export) (l : loc) : Prop := (snd l < length (x_rows e (fst l)))%nat.
Definition ref_ok (e : export) (r : ref) : Prop := match r with ExportModel.Int z => z = 0 | ExportModel.Ptr l => valid e l end.
Definition ofs_ok (n : Z) (o : option Z) : Prop := match o with Some o => 0 <= o <= n | None => True end.
Record linked (e : export) : Prop := {
  lk_iters : length (x_iters e) = length (x_infos e);
  lk_parent : forall l, valid e l -> ref_ok e (x_parent e l);
  lk_type : forall l, valid e l -> ref_ok e (x_type e l);
  lk_args : forall l, valid e l -> Forall (ref_ok e) (x_args e l);
  lk_ret : forall l, fst l = KFunction -> valid e l -> ref_ok e (x_ret e l);
  lk_ctor : forall l, fst l = KClass \/ fst l = KTemplateType -> valid e l -> ref_ok e (x_ctor e l) /\ ref_ok e (x_dtor e l);
  lk_prim : forall l, valid e l -> ref_ok e (x_prim e l);
  lk_arr : forall c, Forall (ref_ok e) (x_arr e c);
  lk_global : forall a, Forall (valid e) (x_global e a);
  lk_iter : Forall (fun x => ref_ok e (fst x) /\ ref_ok e (snd x)) (x_iters e);
  lk_ci : forall l i, x_ci e l = Some i -> (i < length (x_infos e))%nat;
  lk_text : forall k r, In r (x_rows e k) -> ofs_ok (zlen (x_name_text e)) (r_text r);
  lk_names : forall n, In n (x_names e) -> ofs_ok (zlen (x_name_text e)) (snd n);
  lk_infos : forall i, In i (x_infos e) -> ofs_ok (zlen (x_name_text e)) (i_text i);
  lk_vals : forall o, In o (x_attr_vals e) -> 0 <= o <= zlen (x_attr_text e);
  lk_types : Permutation (map snd (x_types e)) (map ExportModel.Ptr (locs (x_rows e) KType ++ locs (x_rows e) KClass ++ locs (x_rows e) KEnum ++ locs (x_rows e) KTemplateType)) }.

Definition type_of (t : tag) : ctype :=
  match t with
  | SDb => Struct DatabaseMem | SNameText | SAttrText => Scalar 1 | SNames => Struct Name | STable k => Struct (struct_of k)
  | SInfos => Struct ContainerInfo | STypes | SHeap _ | SJunk => Ptr ""
  end.
Lemma type_of_laid : forall t, laid_type (type_of t) = true.
Proof. intros []; reflexivity. Qed.
(* where an array is: the way to it from the database *)
Definition ofs_of (u : ctype) (m : list string) : Z := match leaf_at u (m ++ ["size"]) with Some (o, _) => o | None => -1 end.
Definition tag_eqb (a b : tag) : bool := if tag_dec a b then true else false.
Definition db_member (t : tag) : list string := match find (fun x => tag_eqb (snd x) t) db_arrays with Some x => fst x | None => [] end.
Definition kind_member (k : kind) (a : ak) : list string := match find (fun x => ak_eqb (snd x) a) (kind_arrays k) with Some x => fst x | None => [] end.
Definition db_ofs (t : tag) : Z := ofs_of (Struct DatabaseMem) (db_member t).
Definition path_of (t : tag) : list (Z * Z) :=
  match t with
  | SDb => []
  | SHeap (Cell (a, (k, j))) => [(Z.of_nat j, ofs_of (Struct (struct_of k)) (kind_member k a)); (0, db_ofs (STable k))]
  | _ => [(0, db_ofs t)]
  end.
Definition struct_dec (a b : struct) : {a = b} + {a <> b}.
Proof. decide equality. Defined.
Definition alikeb (u u' : ctype) : bool :=
  match u, u' with
  | Ptr _, Ptr _ => true
  | Struct s, Struct s' => if struct_dec s s' then true else false
  | _, _ => false
  end.
Definition alike (u u' : ctype) : Prop := u = u' \/ exists z z', u = Ptr z /\ u' = Ptr z'.
Lemma alikeb_alike : forall u u', alikeb u u' = true -> alike u u'.
Proof. intros [n|z|u|x|u] [n'|z'|u'|x'|u'] H; try discriminate H; [right; eauto|]. cbn [alikeb] in H. destruct (struct_dec x x') as [->|]; [left; reflexivity|discriminate H]. Qed.
Lemma alike_facts : forall u u', alike u u' -> size_of u = size_of u' /\ pointers u = pointers u' /\ arrays u = arrays u'.
Proof. intros u u' [->|(z & z' & -> & ->)]; repeat split; reflexivity. Qed.
Fixpoint forallb2 {A B} (f : A -> B -> bool) (l : list A) (m : list B) : bool :=
  match l, m with
  | [], [] => true
  | a :: l', b :: m' => f a b && forallb2 f l' m'
  | _, _ => false
  end.
Lemma forallb2_left : forall A B (f : A -> B -> bool) l m a, forallb2 f l m = true -> In a l -> exists b, In b m /\ f a b = true.
Proof.
  induction l as [|x l IH]; intros [|y m] a H I; try discriminate H; [contradiction|]. cbn [forallb2] in H. apply andb_prop in H. destruct H as [H1 H2]. destruct I as [<-|I].
  - exists y. split; [left; reflexivity|exact H1].
  - destruct (IH m a H2 I) as [b [Q1 Q2]]. exists b. split; [right; exact Q1|exact Q2].
Qed.
Lemma forallb2_right : forall A B (f : A -> B -> bool) l m b, forallb2 f l m = true -> In b m -> exists a, In a l /\ f a b = true.
Proof.
  induction l as [|x l IH]; intros [|y m] b H I; try discriminate H; [contradiction|]. cbn [forallb2] in H. apply andb_prop in H. destruct H as [H1 H2]. destruct I as [<-|I].
  - exists x. split; [left; reflexivity|exact H1].
  - destruct (IH m b H2 I) as [a [Q1 Q2]]. exists a. split; [right; exact Q1|exact Q2].
Qed.
Definition pair_eqb (a : option (Z * Z)) (o w : Z) : bool := match a with Some (o', w') => (o' =? o) && (w' =? w) | None => false end.
Definition arr_check (u : ctype) (x : Z * ctype) (m : list string) (u' : ctype) : bool :=
  pair_eqb (leaf_at u (m ++ ["size"])) (fst x) 4 && pair_eqb (leaf_at u (m ++ ["data"])) (fst x + 8) 8 && alikeb (snd x) u'.
Lemma leaf_at_in : forall u p o w, pair_eqb (leaf_at u p) o w = true -> In (p, o, w) (leaves u).
Proof.
  intros u p o w H. unfold leaf_at in H. destruct (find _ (leaves u)) as [[[p' o'] w']|] eqn:E; [|discriminate H]. apply find_some in E. destruct E as [E1 E2]. apply path_eqb_eq in E2. cbn [fst] in E2. subst p'.
  cbn [pair_eqb] in H. replace o with o' by lia. replace w with w' by lia. exact E1.
Qed.
Lemma db_checked : forallb2 (fun x y => arr_check (Struct DatabaseMem) x (fst y) (type_of (snd y)) && (db_ofs (snd y) =? fst x)) (arrays (Struct DatabaseMem)) db_arrays = true.
Proof. vm_compute. reflexivity. Qed.
Lemma kind_checked : forall k, forallb2 (fun x y => arr_check (Struct (struct_of k)) x (fst y) (Ptr "") && (ofs_of (Struct (struct_of k)) (kind_member k (snd y)) =? fst x)) (arrays (Struct (struct_of k))) (kind_arrays k) = true.
Proof. intros k. destruct k; vm_compute; reflexivity. Qed.
Lemma no_arrays : forall t, type_of t = Struct DatabaseMem \/ (exists k, t = STable k) \/ arrays (type_of t) = [].
Proof. intros []; cbn [type_of]; eauto. Qed.

Section One.
Variables (e : export) (heap : list (tag * list Z)) (pad fb : Z).
Hypothesis LK : linked e.
Hypothesis HO : heap_ok e heap.
Notation cont := (contents e heap fb).
Notation lv := (live e).
Notation ofs := (offset e heap).
Notation adr := (address e heap).
Notation SIZE := (image_size e heap).

Definition elems (s : Z) (t : tag) : list val :=
  match t with
  | SDb => [lookup (db_values e heap fb s)]
  | SNameText => map single (x_name_text e)
  | SNames => map (fun n => lookup (name_values e heap s n)) (x_names e)
  | STable k => map (fun x => lookup (prim_values e heap s k x)) (combine (seq 0 (length (x_rows e k))) (x_rows e k))
  | SInfos => map (fun x => lookup (info_values e heap s x)) (combine (x_infos e) (x_iters e))
  | SAttrText => map single (x_attr_text e)
  | STypes => map (fun x => single (ref_addr e heap s (snd x))) (x_types e)
  | SHeap _ => map single (heap_words e heap s t)
  | SJunk => []
  end.
Lemma elems_live : forall s t, zlen (elems s t) = lv t.
Proof.
  intros s t. pose proof (lk_iters e LK). unfold zlen. destruct t as [| | |k| | | |[c|a]|]; cbn [elems live heap_words]; unfold zlen; rewrite ?map_length, ?combine_length, ?seq_length; try reflexivity; lia.
Qed.
Lemma heap_tag : forall h, In h heap -> fst h = SJunk \/ exists x, fst h = SHeap x.
Proof. intros [t w] I. cbn [fst]. destruct (ho_tags _ _ HO t w I) as [->|[(a & _ & ->)|(a & k & j & _ & _ & ->)]]; eauto. Qed.
Lemma cont_elem : forall s t u es, In (t, u, es) (cont s) -> u = type_of t /\ exists w, es = elems s t ++ map single w.
Proof.
  intros s t u es H. unfold contents in H. apply in_app_or with (l := _ :: _ :: _ :: map _ built) in H. destruct H as [H|H].
  - destruct H as [H|[H|[H|H]]]; try (injection H as <- <- <-; split; [reflexivity|]; exists []; rewrite app_nil_r; reflexivity).
    apply in_map_iff in H. destruct H as [k [H _]]. injection H as <- <- <-. split; [reflexivity|]. exists []. rewrite app_nil_r. reflexivity.
  - destruct H as [H|[H|[H|H]]]; try (injection H as <- <- <-; split; [reflexivity|]; exists []; rewrite app_nil_r; reflexivity).
    apply in_map_iff in H. destruct H as [h [H I]]. injection H as <- <- <-. split; [destruct (heap_tag h I) as [->|[x ->]]; reflexivity|]. exists (snd h). rewrite map_app. f_equal.
    destruct (heap_tag h I) as [->|[x ->]]; reflexivity.
Qed.
Lemma cont_ok : forall s, segs_ok (cont s).
Proof. intros s [[t u] es] H. destruct (cont_elem s t u es H) as [-> _]. apply type_of_laid. Qed.
Lemma cont_shape : forall s, map shp (cont s) = shape e heap.
Proof.
  intros s. unfold contents, shape. cbn [map]. rewrite map_app. cbn [map]. rewrite !map_map.
  assert (Q : forall t, shp (t, type_of t, elems s t) = (t, type_of t, lv t)) by (intros t; unfold shp; cbn [fst snd]; rewrite elems_live; reflexivity).
  apply f_equal2; [exact (Q SDb)|]. apply f_equal2; [exact (Q SNameText)|]. apply f_equal2; [exact (Q SNames)|]. apply f_equal2; [apply map_ext; intros k; exact (Q (STable k))|].
  apply f_equal2; [exact (Q SInfos)|]. apply f_equal2; [exact (Q SAttrText)|]. apply f_equal2; [exact (Q STypes)|]. apply map_ext_in. intros h I. unfold shp. cbn [fst snd]. apply f_equal2; [reflexivity|]. rewrite map_app.
  unfold zlen. rewrite app_length, map_length, Nat2Z.inj_add, map_length. f_equal. destruct (heap_tag h I) as [->|[[c|a] ->]]; cbn [heap_words live]; unfold zlen; rewrite ?map_length; reflexivity.
Qed.
Definition tags : list tag := [SDb; SNameText; SNames] ++ map STable built ++ [SInfos; SAttrText; STypes] ++ map fst heap.
Lemma cont_tags : forall s, map (fun x => fst (fst x)) (cont s) = tags.
Proof. intros s. unfold contents, tags. cbn [map app fst]. rewrite map_app. cbn [map fst]. rewrite !map_map. cbn [fst]. reflexivity. Qed.
Lemma image_zlen : forall s, zlen (image e heap pad fb s) = SIZE.
Proof. intros s. unfold image_size. rewrite <- (cont_shape s). apply (region_zlen pad). apply cont_ok. Qed.
Lemma ofs_some : forall t, In t tags <-> exists o, ofs t = Some o.
Proof.
  intros t. unfold offset. rewrite <- (cont_shape 0), offset_found. rewrite <- (cont_tags 0). split.
  - intros I. destruct (found_some (cont 0) t 0 I) as (o & u & es & ->). exists o. reflexivity.
  - intros [o H]. destruct (found (cont 0) t 0) as [[o' [u es]]|] eqn:E; [|discriminate H]. apply found_in in E. apply in_map_iff. exists (t, u, es). auto.
Qed.
Lemma ofs_found : forall s t o, ofs t = Some o -> exists w, found (cont s) t 0 = Some (o, (type_of t, elems s t ++ map single w)).
Proof.
  intros s t o H. unfold offset in H. rewrite <- (cont_shape s), offset_found in H. destruct (found (cont s) t 0) as [[o' [u es]]|] eqn:E; [|discriminate H]. injection H as ->.
  destruct (cont_elem s t u es (found_in _ _ _ _ _ _ E)) as [-> [w ->]]. exists w. reflexivity.
Qed.
Lemma size_pos : forall t, 0 < size_of (type_of t).
Proof. intros t. apply leaves_ordered. apply type_of_laid. Qed.
Lemma ofs_range : forall t o, ofs t = Some o -> 0 <= o /\ o + lv t * size_of (type_of t) <= SIZE.
Proof.
  intros t o H. destruct (ofs_found 0 t o H) as [w F]. destruct (found_region pad _ _ _ _ _ _ (cont_ok 0) F) as (A & B & _). split; [exact A|].
  change (flat_map (seg_bytes pad) (cont 0)) with (image e heap pad fb 0) in B. rewrite image_zlen, zlen_app, elems_live in B. pose proof (zlen_nonneg _ (map single w)). pose proof (size_pos t). nia.
Qed.
Lemma ofs_apart : forall t t' o o', t <> t' -> ofs t = Some o -> ofs t' = Some o' -> o + lv t * size_of (type_of t) <= o' \/ o' + lv t' * size_of (type_of t') <= o.
Proof.
  intros t t' o o' N H H'. destruct (ofs_found 0 t o H) as [w F]. destruct (ofs_found 0 t' o' H') as [w' F']. pose proof (found_apart pad _ _ _ _ _ _ _ _ _ _ (cont_ok 0) N F F') as Q.
  rewrite !zlen_app, !elems_live in Q. pose proof (zlen_nonneg _ (map single w)). pose proof (zlen_nonneg _ (map single w')). pose proof (size_pos t). pose proof (size_pos t'). nia.
Qed.
Lemma live_nonneg : forall t, 0 <= lv t.
Proof. intros t. rewrite <- (elems_live 0 t). apply zlen_nonneg. Qed.
(* reading the numbers of an element *)
Lemma image_slice : forall s t o j v p lo w, ofs t = Some o -> nth_error (elems s t) j = Some v -> In (p, lo, w) (leaves (type_of t)) ->
  slice (image e heap pad fb s) (o + Z.of_nat j * size_of (type_of t) + lo) w = le_bytes (Z.to_nat w) (v p) /\
  0 <= o + Z.of_nat j * size_of (type_of t) + lo /\ o + Z.of_nat j * size_of (type_of t) + lo + w <= SIZE.
Proof.
  intros s t o j v p lo w H E I. destruct (ofs_found s t o H) as [x F]. destruct (found_region pad _ _ _ _ _ _ (cont_ok s) F) as (A & B & C).
  pose proof (leaf_range _ (type_of_laid t) p lo w I) as R. pose proof (size_pos t) as P.
  assert (J : Z.of_nat j < zlen (elems s t)) by (unfold zlen; apply inj_lt; apply nth_error_Some; congruence).
  assert (B2 : Z.of_nat j * size_of (type_of t) + lo + w <= zlen (elems s t) * size_of (type_of t)) by nia.
  assert (B3 : 0 <= Z.of_nat j * size_of (type_of t)) by nia.
  pose proof (ofs_range t o H) as [O1 O2]. rewrite <- (elems_live s) in O2. split; [|lia].
  replace (o + Z.of_nat j * size_of (type_of t) + lo) with (o - 0 + (Z.of_nat j * size_of (type_of t) + lo)) by lia. unfold image.
  change (flat_map (fun s0 : seg => flat_map (encode pad (snd (fst s0))) (snd s0)) (cont s)) with (flat_map (seg_bytes pad) (cont s)).
  rewrite C by (rewrite ?zlen_app; pose proof (zlen_nonneg _ (map single x)); nia). apply elems_slice; [apply type_of_laid| |exact I]. rewrite nth_error_app1 by (apply nth_error_Some; congruence). exact E.
Qed.

(* ---- what can be reached ---- *)
Definition reach (t : tag) : Prop :=
  t = SDb \/ In t (map snd db_arrays) \/ exists a k j, t = SHeap (Cell (a, (k, j))) /\ In a (map snd (kind_arrays k)) /\ (j < length (x_rows e k))%nat.
Definition fixed_tags : list tag := [SDb; SNameText; SNames] ++ map STable built ++ [SInfos; SAttrText; STypes].
Lemma fixed_has : forall t, In t fixed_tags -> exists o, ofs t = Some o.
Proof. intros t I. apply ofs_some. unfold tags. rewrite !app_assoc. apply in_or_app. left. rewrite <- !app_assoc. exact I. Qed.
Lemma table_fixed : forall k, In (STable k) fixed_tags.
Proof. intros k. apply in_or_app. right. apply in_or_app. left. apply in_map. destruct k; cbn; tauto. Qed.
Lemma db_tags : forall t, In t (map snd db_arrays) -> In t fixed_tags \/ exists a, In a global_arrays /\ t = SHeap (Glob a).
Proof.
  intros t I. unfold db_arrays in I. rewrite map_app, map_map in I. apply in_app_or in I. destruct I as [I|I].
  - left. repeat (destruct I as [<-|I]; [first [apply table_fixed | cbn; tauto]|]). contradiction.
  - right. apply in_map_iff in I. destruct I as [[m a] [<- I]]. exists a. split; [|reflexivity]. cbn in I. repeat (destruct I as [I|I]; [injection I as _ <-; cbn; tauto|]). contradiction.
Qed.
Lemma reach_has : forall t, reach t -> 0 < lv t -> exists o, ofs t = Some o.
Proof.
  intros t R P. destruct R as [->|[I|(a & k & j & -> & I & J)]].
  - apply fixed_has. left. reflexivity.
  - destruct (db_tags t I) as [F|(a & G & ->)]; [apply fixed_has; exact F|]. apply ofs_some. unfold tags. rewrite !app_assoc. apply in_or_app. right. apply (ho_global _ _ HO). exact G.
  - apply ofs_some. unfold tags. rewrite !app_assoc. apply in_or_app. right. apply (ho_cells _ _ HO); [exact I|exact J|]. intros Q. cbn [live] in P. rewrite Q in P. cbn in P. lia.
Qed.
Lemma live_small : forall t, reach t -> 0 <= lv t <= CAPACITY.
Proof.
  intros t R. pose proof (live_nonneg t) as L. split; [exact L|]. destruct (Z.eq_dec (lv t) 0) as [->|N]; [unfold CAPACITY; lia|]. destruct (reach_has t R) as [o O]; [lia|].
  destruct (ofs_range t o O) as [O1 O2]. pose proof (ho_fits _ _ HO). pose proof (size_pos t). nia.
Qed.

Fixpoint nodupb (l : list (list string)) : bool := match l with [] => true | x :: r => negb (existsb (path_eqb x) r) && nodupb r end.
Lemma nodupb_ok : forall l, nodupb l = true -> NoDup l.
Proof.
  induction l as [|x l IH]; intros H; [constructor|]. cbn [nodupb] in H. apply andb_prop in H. destruct H as [H1 H2]. constructor; [|apply IH; exact H2]. intros I.
  apply negb_true_iff in H1. assert (Q : existsb (path_eqb x) l = true) by (apply existsb_exists; exists x; split; [exact I|]; unfold path_eqb; destruct (list_eq_dec string_dec x x); congruence). congruence.
Qed.
Lemma db_keys : forall s, NoDup (map fst (db_values e heap fb s)).
Proof. intros s. apply nodupb_ok. unfold db_values, array_values. generalize (adr s) as ad. generalize lv as lvv. intros. vm_compute. reflexivity. Qed.
Lemma prim_keys : forall s k x, NoDup (map fst (prim_values e heap s k x)).
Proof.
  intros s k [j r]. apply nodupb_ok. unfold prim_values, own_values, array_values, text_addr, info_addr. generalize (ref_addr e heap s) as ra. generalize (adr s) as ad. generalize lv as lvv. intros.
  destruct k; vm_compute; reflexivity.
Qed.
Lemma name_keys : forall s n, NoDup (map fst (name_values e heap s n)).
Proof. intros s n. apply nodupb_ok. reflexivity. Qed.
Lemma info_keys : forall s x, NoDup (map fst (info_values e heap s x)).
Proof. intros s [i x]. apply nodupb_ok. reflexivity. Qed.
Lemma row_elem : forall s k j r, nth_error (x_rows e k) j = Some r -> nth_error (elems s (STable k)) j = Some (lookup (prim_values e heap s k (j, r))).
Proof.
  intros s k j r H. cbn [elems]. apply map_nth_error with (f := fun x => lookup (prim_values e heap s k x)).
  assert (G : forall (l : list row) n j r, nth_error l j = Some r -> nth_error (combine (seq n (length l)) l) j = Some ((n + j)%nat, r)).
  { clear. induction l as [|x l IH]; intros n [|j] r H; try discriminate H; cbn [length seq combine nth_error] in *.
    - injection H as ->. f_equal. f_equal. lia.
    - rewrite (IH (S n) j r H). f_equal. f_equal. lia. }
  exact (G (x_rows e k) 0%nat j r H).
Qed.

Section At.
Variable s : Z.
Hypothesis S0 : 0 < s.
Hypothesis S1 : s + SIZE < 2 ^ 64.
Notation img := (image e heap pad fb s).
Definition good (z : Z) : Prop := z = 0 \/ s < z <= s + SIZE.

Lemma ofs_db : ofs SDb = Some 0.
Proof. reflexivity. Qed.
Lemma ofs_past : forall t o, t <> SDb -> ofs t = Some o -> 616 <= o.
Proof.
  intros t o N H. destruct (ofs_found 0 t o H) as [w F]. unfold contents in F. cbn [found fst snd] in F. destruct (tag_dec SDb t) as [E|_]; [congruence|].
  assert (K : segs_ok (tl (cont 0))) by (intros x Hx; apply (cont_ok 0); right; exact Hx).
  destruct (found_region pad (tl (cont 0)) t _ _ _ _ K F) as [A _]. exact A.
Qed.
Lemma adr_good : forall t, t <> SDb -> good (adr s t).
Proof.
  intros t N. unfold address, good. destruct (ofs t) as [o|] eqn:E; [|left; reflexivity]. right. pose proof (ofs_past t o N E). destruct (ofs_range t o E). pose proof (live_nonneg t). pose proof (size_pos t). nia.
Qed.
Lemma adr_has : forall t o, ofs t = Some o -> adr s t = s + o.
Proof. intros t o H. unfold address. rewrite H. reflexivity. Qed.
Lemma place_good : forall l, valid e l -> s < place e heap s l <= s + SIZE.
Proof.
  intros [k j] V. unfold valid in V. cbn [fst snd] in V. destruct (fixed_has _ (table_fixed k)) as [o O]. unfold place. cbn [fst snd]. rewrite (adr_has _ _ O).
  pose proof (ofs_past (STable k) o ltac:(discriminate) O). destruct (ofs_range _ _ O) as [O1 O2]. cbn [live type_of] in O2. pose proof (size_pos (STable k)) as P. cbn [type_of] in P. unfold zlen in O2. nia.
Qed.

(* reading the parts of an array *)
Lemma good_range : forall z, good z -> 0 <= z < 2 ^ 64.
Proof. intros z [->|H]; lia. Qed.
Lemma adr_range : forall t, 0 <= adr s t < 2 ^ 64.
Proof.
  intros t. destruct (tag_dec t SDb) as [->|N]; [|apply good_range, adr_good; exact N]. unfold address. rewrite ofs_db. pose proof (ofs_range SDb 0 ofs_db) as [_ Q]. cbn [live type_of] in Q. change (size_of (Struct DatabaseMem)) with 616 in Q. lia.
Qed.
Lemma read_word : forall t o j v p lo, ofs t = Some o -> nth_error (elems s t) j = Some v -> In (p, lo, 8) (leaves (type_of t)) -> 0 <= v p < 2 ^ 64 ->
  ptr_at img (o + Z.of_nat j * size_of (type_of t) + lo) = v p.
Proof.
  intros t o j v p lo O E I R. unfold ptr_at. rewrite (proj1 (image_slice s t o j v p lo 8 O E I)). apply le_val_bytes_small. exact R.
Qed.
Lemma read_u32 : forall t o j v p lo, ofs t = Some o -> nth_error (elems s t) j = Some v -> In (p, lo, 4) (leaves (type_of t)) ->
  u32_at img (o + Z.of_nat j * size_of (type_of t) + lo) = u32 (v p).
Proof.
  intros t o j v p lo O E I. unfold u32_at. rewrite (proj1 (image_slice s t o j v p lo 4 O E I)). apply le_val_bytes.
Qed.
Lemma read_array : forall t o j v m x t', ofs t = Some o -> nth_error (elems s t) j = Some v -> arr_check (type_of t) x m (type_of t') = true -> reach t' ->
  v (m ++ ["size"]) = lv t' -> v (m ++ ["data"]) = adr s t' ->
  u32_at img (o + Z.of_nat j * size_of (type_of t) + fst x) = lv t' /\ ptr_at img (o + Z.of_nat j * size_of (type_of t) + (fst x + 8)) = adr s t' /\ alike (snd x) (type_of t').
Proof.
  intros t o j v m x t' O E C R E1 E2. unfold arr_check in C. apply andb_prop in C. destruct C as [C C3]. apply andb_prop in C. destruct C as [C1 C2]. split; [|split].
  - rewrite (read_u32 t o j v _ _ O E (leaf_at_in _ _ _ _ C1)), E1. pose proof (live_small t' R). unfold CAPACITY in *. apply Z.mod_small. lia.
  - rewrite (read_word t o j v _ _ O E (leaf_at_in _ _ _ _ C2)); [exact E2|]. rewrite E2. apply adr_range.
  - apply alikeb_alike. exact C3.
Qed.
Lemma db_path : forall t, In t (map snd db_arrays) -> path_of t = [(0, db_ofs t)].
Proof. intros t I. destruct (db_tags t I) as [F|(a & _ & ->)]; [|reflexivity]. destruct t as [| | |k| | | |[[a [k j]]|a]|]; try reflexivity; cbn in I, F; intuition discriminate. Qed.
Lemma db_lookup : forall m t, In (m, t) db_arrays -> lookup (db_values e heap fb s) (m ++ ["size"]) = lv t /\ lookup (db_values e heap fb s) (m ++ ["data"]) = adr s t.
Proof.
  intros m t I. split; (apply lookup_nodup; [apply db_keys|]; unfold db_values; apply in_or_app; right; apply in_flat_map; exists (m, t); split; [exact I|]; cbn; tauto).
Qed.
Lemma cell_lookup : forall k j r m a, In (m, a) (kind_arrays k) -> lookup (prim_values e heap s k (j, r)) (m ++ ["size"]) = lv (SHeap (Cell (a, (k, j)))) /\
  lookup (prim_values e heap s k (j, r)) (m ++ ["data"]) = adr s (SHeap (Cell (a, (k, j)))).
Proof.
  intros k j r m a I. split; (apply lookup_nodup; [apply prim_keys|]; unfold prim_values; apply in_or_app; right; apply in_or_app; left; apply in_flat_map; exists (m, a); split; [exact I|]; cbn [array_values fst snd In]; tauto).
Qed.
Definition is_block (t : tag) (bl : block) : Prop := b_addr bl = adr s t /\ alike (b_type bl) (type_of t) /\ b_count bl = lv t.
Lemma elem_at : forall t bl o j, is_block t bl -> ofs t = Some o -> elem bl j - s = o + j * size_of (type_of t).
Proof. intros t bl o j (A & B & _) O. unfold elem. rewrite A, (adr_has _ _ O), (proj1 (alike_facts _ _ B)). lia. Qed.
Lemma db_block : forall x m t, In (m, t) db_arrays -> arr_check (Struct DatabaseMem) x m (type_of t) = true ->
  is_block t (mk_block (ptr_at img (s + fst x + 8 - s)) (snd x) (u32_at img (s + fst x - s))).
Proof.
  intros x m t I C. assert (Rt : reach t) by (right; left; apply in_map_iff; exists (m, t); auto). destruct (db_lookup m t I) as [L1 L2].
  destruct (read_array SDb 0 0 _ m x t ofs_db eq_refl C Rt L1 L2) as (Q1 & Q2 & Q3). split; [|split]; cbn [b_addr b_type b_count]; [|exact Q3|].
  - rewrite <- Q2. f_equal. lia.
  - rewrite <- Q1. f_equal. lia.
Qed.
Lemma block_tag : forall p bl, block_at s img p bl -> exists t, reach t /\ p = path_of t /\ is_block t bl.
Proof.
  intros p bl H. induction H as [|p bl j o u H (t & R & E & B) Hj Ho].
  - exists SDb. split; [left; reflexivity|]. split; [reflexivity|]. split; [|split]; cbn [b_addr b_type b_count]; [unfold address; rewrite ofs_db; lia|left; reflexivity|reflexivity].
  - assert (P : 0 < lv t) by (destruct B as (_ & _ & B3); rewrite <- B3; lia). destruct (reach_has t R P) as [ot O]. pose proof (elem_at t bl ot j B O) as El.
    replace (b_count bl) with (lv t) in Hj by (symmetry; apply B). rewrite (proj2 (proj2 (alike_facts _ _ (proj1 (proj2 B))))) in Ho.
    replace (elem bl j + o + 8 - s) with (ot + j * size_of (type_of t) + (o + 8)) by lia. replace (elem bl j + o - s) with (ot + j * size_of (type_of t) + o) by lia.
    destruct R as [->|[I|(a & k & j' & -> & _)]].
    + cbn [live] in Hj. replace j with 0 by lia. assert (ot = 0) by (rewrite ofs_db in O; congruence). subst ot. destruct (forallb2_left _ _ _ _ _ _ db_checked Ho) as ((m & t') & I & C). apply andb_prop in C. destruct C as [C1 C2]. cbn [fst snd] in C1, C2.
      exists t'. assert (It : In t' (map snd db_arrays)) by (apply in_map_iff; exists (m, t'); auto). split; [right; left; exact It|]. split; [rewrite (db_path t' It), E; replace (db_ofs t') with o by lia; reflexivity|].
      pose proof (db_block (o, u) m t' I C1) as Q. cbn [fst snd] in Q. replace (0 + 0 * size_of (type_of SDb) + (o + 8)) with (s + o + 8 - s) by lia. replace (0 + 0 * size_of (type_of SDb) + o) with (s + o - s) by lia. exact Q.
    + destruct (no_arrays t) as [Et|[[k ->]|Et]].
      * assert (t = SDb) by (destruct t as [| | |k| | | |h|]; try discriminate Et; [reflexivity|destruct k; discriminate Et]). subst t. cbn in I. intuition discriminate.
      * destruct (forallb2_left _ _ _ _ _ _ (kind_checked k) Ho) as ((m & a) & Ia & C). apply andb_prop in C. destruct C as [C1 C2]. cbn [fst snd] in C1, C2.
        cbn [live] in Hj. unfold zlen in Hj. destruct (nth_error (x_rows e k) (Z.to_nat j)) as [r|] eqn:Er; [|apply nth_error_None in Er; lia].
        assert (Rt : reach (SHeap (Cell (a, (k, Z.to_nat j))))). { right. right. exists a, k, (Z.to_nat j). split; [reflexivity|]. split; [apply in_map_iff; exists (m, a); auto|lia]. }
        exists (SHeap (Cell (a, (k, Z.to_nat j)))). split; [exact Rt|]. split.
        { rewrite E, (db_path _ I). cbn [path_of]. rewrite Z2Nat.id by lia. replace (ofs_of (Struct (struct_of k)) (kind_member k a)) with o by lia. reflexivity. }
        destruct (cell_lookup k (Z.to_nat j) r m a Ia) as [L1 L2].
        destruct (read_array (STable k) ot (Z.to_nat j) _ m (o, u) (SHeap (Cell (a, (k, Z.to_nat j)))) O (row_elem s k _ r Er) C1 Rt L1 L2) as (Q1 & Q2 & Q3).
        rewrite Z2Nat.id in Q1, Q2 by lia. cbn [fst snd] in Q1, Q2, Q3. split; [|split]; cbn [b_addr b_type b_count]; assumption.
      * rewrite Et in Ho. contradiction.
    + cbn [type_of] in Ho. contradiction.
Qed.
(* and everything in the list is reached *)
Lemma tag_block : forall t, reach t -> exists bl, block_at s img (path_of t) bl /\ is_block t bl.
Proof.
  assert (D : forall m t, In (m, t) db_arrays -> exists bl, block_at s img (path_of t) bl /\ is_block t bl).
  { intros m t I. destruct (forallb2_right _ _ _ _ _ _ db_checked I) as ((o & u) & Ho & C). apply andb_prop in C. destruct C as [C1 C2]. cbn [fst snd] in C1, C2.
    rewrite (db_path t) by (apply in_map_iff; exists (m, t); auto). replace (db_ofs t) with o by lia. eexists. split; [apply at_array; [apply at_root|cbn; lia|exact Ho]|].
    unfold elem. cbn [b_addr b_type]. replace (s + 0 * size_of (Struct DatabaseMem) + o) with (s + o) by lia. exact (db_block (o, u) m t I C1). }
  intros t [->|[I|(a & k & j & -> & Ia & J)]].
  - eexists. split; [apply at_root|]. split; [|split]; cbn [b_addr b_type b_count]; [unfold address; rewrite ofs_db; lia|left; reflexivity|reflexivity].
  - apply in_map_iff in I. destruct I as [[m t'] [<- I]]. apply (D m t' I).
  - assert (It : exists m, In (m, STable k) db_arrays) by (destruct k; eexists; cbn; tauto). destruct It as [mk Ik]. destruct (D mk (STable k) Ik) as (bl & Hb & B).
    apply in_map_iff in Ia. destruct Ia as [[m a'] [Ea Ia]]. cbn [snd] in Ea. subst a'. destruct (forallb2_right _ _ _ _ _ _ (kind_checked k) Ia) as ((o & u) & Ho & C). apply andb_prop in C. destruct C as [C1 C2]. cbn [fst snd] in C1, C2.
    cbn [path_of]. replace (ofs_of (Struct (struct_of k)) (kind_member k a)) with o by lia. destruct (fixed_has _ (table_fixed k)) as [ot O].
    destruct (nth_error (x_rows e k) j) as [r|] eqn:Er; [|apply nth_error_None in Er; lia].
    assert (Rt : reach (SHeap (Cell (a, (k, j))))). { right. right. exists a, k, j. split; [reflexivity|]. split; [apply in_map_iff; exists (m, a); auto|lia]. }
    destruct (cell_lookup k j r m a Ia) as [L1 L2]. destruct (read_array (STable k) ot j _ m (o, u) (SHeap (Cell (a, (k, j)))) O (row_elem s k _ r Er) C1 Rt L1 L2) as (Q1 & Q2 & Q3).
    cbn [fst snd] in Q1, Q2, Q3. pose proof (elem_at _ bl ot (Z.of_nat j) B O) as El. eexists. split.
    + apply at_array; [rewrite (db_path (STable k)) in Hb by (apply in_map_iff; exists (mk, STable k); auto); exact Hb| |].
      * destruct B as (_ & _ & ->). cbn [live]. unfold zlen. lia.
      * rewrite (proj2 (proj2 (alike_facts _ _ (proj1 (proj2 B))))). exact Ho.
    + split; [|split]; cbn [b_addr b_type b_count]; [|exact Q3|].
      * rewrite <- Q2. f_equal. lia.
      * rewrite <- Q1. f_equal. lia.
Qed.
End At.

(* ---- pointers, here and elsewhere ---- *)
Section Two.
Variables s b : Z.
Hypothesis S0 : 0 < s.
Hypothesis S1 : s + SIZE < 2 ^ 64.
Definition mvd (z z' : Z) : Prop := good s z /\ z' = relocated s b z.
Definition slot (u : ctype) (p : list string) (z z' : Z) : Prop :=
  match ptr_leaf u p with
  | None => z = z'
  | Some n => mvd z z' /\ (outside n = true -> z = 0)
  end.
Lemma mvd_0 : mvd 0 0. Proof. split; [left; reflexivity|reflexivity]. Qed.
Lemma slot_0 : forall u p, slot u p 0 0.
Proof. intros u p. unfold slot. destruct (ptr_leaf u p); [|reflexivity]. split; [apply mvd_0|auto]. Qed.
Lemma mvd_shift : forall o, 0 < o <= SIZE -> mvd (s + o) (b + o).
Proof. intros o H. split; [right; lia|]. unfold relocated. replace (s + o =? 0) with false by lia. lia. Qed.
Lemma mvd_adr : forall t, t <> SDb -> mvd (adr s t) (adr b t).
Proof.
  intros t N. unfold address. destruct (ofs t) as [o|] eqn:E; [|apply mvd_0]. apply mvd_shift. pose proof (ofs_past t o N E). destruct (ofs_range t o E). pose proof (live_nonneg t). pose proof (size_pos t). nia.
Qed.
Lemma mvd_place : forall l, valid e l -> mvd (place e heap s l) (place e heap b l).
Proof.
  intros l V. pose proof (place_good s l V) as P. unfold place in *. destruct (fixed_has _ (table_fixed (fst l))) as [o O]. unfold address in *. rewrite O in *.
  replace (s + o + Z.of_nat (snd l) * size_of (Struct (struct_of (fst l)))) with (s + (o + Z.of_nat (snd l) * size_of (Struct (struct_of (fst l))))) in * by lia.
  replace (b + o + Z.of_nat (snd l) * size_of (Struct (struct_of (fst l)))) with (b + (o + Z.of_nat (snd l) * size_of (Struct (struct_of (fst l))))) by lia. apply mvd_shift. lia.
Qed.
Lemma mvd_ref : forall r, ref_ok e r -> mvd (ref_addr e heap s r) (ref_addr e heap b r).
Proof. intros [z|l] H; cbn [ref_ok ref_addr] in *; [subst z; apply mvd_0|apply mvd_place; exact H]. Qed.
Lemma mvd_text : forall t o, In t [SNameText; SAttrText] -> ofs_ok (lv t) o -> mvd (text_addr e heap s t o) (text_addr e heap b t o).
Proof.
  intros t [o|] I H; [|apply mvd_0]. cbn [ofs_ok text_addr] in *. assert (F : In t fixed_tags) by (destruct I as [<-|[<-|[]]]; cbn; tauto). destruct (fixed_has t F) as [ot O]. unfold address. rewrite O.
  replace (s + ot + o) with (s + (ot + o)) by lia. replace (b + ot + o) with (b + (ot + o)) by lia. apply mvd_shift.
  assert (N : t <> SDb) by (destruct I as [<-|[<-|[]]]; discriminate). pose proof (ofs_past t ot N O). destruct (ofs_range t ot O) as [_ R]. assert (size_of (type_of t) = 1) by (destruct I as [<-|[<-|[]]]; reflexivity). nia.
Qed.
Lemma mvd_info : forall i, (forall n, i = Some n -> (n < length (x_infos e))%nat) -> mvd (info_addr e heap s i) (info_addr e heap b i).
Proof.
  intros [i|] H; [|apply mvd_0]. specialize (H i eq_refl). cbn [info_addr]. assert (F : In SInfos fixed_tags) by (cbn; tauto). destruct (fixed_has _ F) as [ot O]. unfold address. rewrite O.
  pose proof (ofs_past SInfos ot ltac:(discriminate) O). destruct (ofs_range SInfos ot O) as [_ R]. cbn [live type_of] in R. change (size_of (Struct ContainerInfo)) with 40 in *. unfold zlen in R.
  replace (s + ot + Z.of_nat i * 40) with (s + (ot + Z.of_nat i * 40)) by lia. replace (b + ot + Z.of_nat i * 40) with (b + (ot + Z.of_nat i * 40)) by lia. apply mvd_shift. lia.
Qed.
Definition slots_of (u : ctype) : list (list string * Z) -> list (list string * Z) -> Prop := Forall2 (fun x y => fst x = fst y /\ slot u (fst x) (snd x) (snd y)).
Lemma slot_ptr : forall u p n z z', ptr_leaf u p = Some n -> outside n = false -> mvd z z' -> slot u p z z'.
Proof. intros u p n z z' E O M. unfold slot. rewrite E. split; [exact M|congruence]. Qed.
Lemma slot_num : forall u p z, ptr_leaf u p = None -> slot u p z z.
Proof. intros u p z E. unfold slot. rewrite E. reflexivity. Qed.
Ltac one_slot := split; [reflexivity|]; cbn [fst snd];
  match goal with |- slot ?u ?p _ _ =>
    let c := eval vm_compute in (ptr_leaf u p) in
    match c with
    | None => apply slot_num; vm_compute; reflexivity
    | Some ?n => apply (slot_ptr u p n); [vm_compute; reflexivity|vm_compute; reflexivity|]
    end
  end.
Ltac all_slots := repeat (apply Forall2_cons; [one_slot|]); try apply Forall2_nil.
Lemma db_slots : slots_of (Struct DatabaseMem) (db_values e heap fb s) (db_values e heap fb b).
Proof. unfold slots_of, db_values, array_values, db_arrays. cbn [app map flat_map fst snd kind_arrays]. all_slots; apply mvd_adr; discriminate. Qed.
Lemma name_slots : forall n, In n (x_names e) -> slots_of (Struct Name) (name_values e heap s n) (name_values e heap b n).
Proof. intros n I. unfold slots_of, name_values. all_slots. apply mvd_text; [left; reflexivity|]. exact (lk_names _ LK n I). Qed.
Lemma info_slots : forall x, In x (combine (x_infos e) (x_iters e)) -> slots_of (Struct ContainerInfo) (info_values e heap s x) (info_values e heap b x).
Proof.
  intros [i [r w]] I. pose proof (in_combine_l _ _ _ _ I) as I1. pose proof (in_combine_r _ _ _ _ I) as I2. pose proof (lk_iter _ LK) as Q. rewrite Forall_forall in Q. destruct (Q _ I2) as [Q1 Q2]. cbn [fst snd] in Q1, Q2.
  unfold slots_of, info_values. cbn [fst snd]. all_slots.
  - apply mvd_text; [left; reflexivity|]. exact (lk_infos _ LK i I1).
  - apply mvd_ref. exact Q1.
  - apply mvd_ref. exact Q2.
Qed.
Lemma prim_slots : forall k j r, nth_error (x_rows e k) j = Some r -> slots_of (Struct (struct_of k)) (prim_values e heap s k (j, r)) (prim_values e heap b k (j, r)).
Proof.
  intros k j r E. assert (V : valid e (k, j)) by (unfold valid; cbn [fst snd]; apply nth_error_Some; congruence). pose proof (nth_error_In _ _ E) as I.
  assert (M1 : mvd (text_addr e heap s SNameText (r_text r)) (text_addr e heap b SNameText (r_text r))) by (apply mvd_text; [left; reflexivity|exact (lk_text _ LK k r I)]).
  assert (M2 : mvd (ref_addr e heap s (x_parent e (k, j))) (ref_addr e heap b (x_parent e (k, j)))) by (apply mvd_ref; apply (lk_parent _ LK); exact V).
  assert (M3 : mvd (info_addr e heap s (x_ci e (k, j))) (info_addr e heap b (x_ci e (k, j)))) by (apply mvd_info; intros n; apply (lk_ci _ LK)).
  assert (M4 : mvd (ref_addr e heap s (x_type e (k, j))) (ref_addr e heap b (x_type e (k, j)))) by (apply mvd_ref; apply (lk_type _ LK); exact V).
  assert (M5 : mvd (ref_addr e heap s (x_prim e (k, j))) (ref_addr e heap b (x_prim e (k, j)))) by (apply mvd_ref; apply (lk_prim _ LK); exact V).
  assert (M6 : forall i, mvd (ref_addr e heap s (nth i (x_args e (k, j)) (ExportModel.Int 0))) (ref_addr e heap b (nth i (x_args e (k, j)) (ExportModel.Int 0)))).
  { intros i. apply mvd_ref. destruct (Nat.ltb_spec i (length (x_args e (k, j)))) as [Q|Q].
    - pose proof (lk_args _ LK (k, j) V) as W. rewrite Forall_forall in W. apply W. apply nth_In. exact Q.
    - rewrite nth_overflow by exact Q. reflexivity. }
  assert (M7 : mvd (text_addr e heap s SAttrText (nth_error (x_attr_vals e) j)) (text_addr e heap b SAttrText (nth_error (x_attr_vals e) j))).
  { apply mvd_text; [right; left; reflexivity|]. destruct (nth_error (x_attr_vals e) j) eqn:Q; [|exact Logic.I]. apply nth_error_In in Q. exact (lk_vals _ LK _ Q). }
  assert (M8 : forall h, mvd (adr s (SHeap h)) (adr b (SHeap h))) by (intros h; apply mvd_adr; discriminate).
  assert (M9 : k = KFunction -> mvd (ref_addr e heap s (x_ret e (k, j))) (ref_addr e heap b (x_ret e (k, j)))) by (intros Q; apply mvd_ref; apply (lk_ret _ LK); [exact Q|exact V]).
  assert (M10 : k = KClass \/ k = KTemplateType -> mvd (ref_addr e heap s (x_ctor e (k, j))) (ref_addr e heap b (x_ctor e (k, j))) /\ mvd (ref_addr e heap s (x_dtor e (k, j))) (ref_addr e heap b (x_dtor e (k, j)))).
  { intros Q. destruct (lk_ctor _ LK (k, j) Q V). split; apply mvd_ref; assumption. }
  unfold slots_of, prim_values, own_values, array_values. destruct k; cbn [app map flat_map fst snd kind_arrays struct_of seq];
    all_slots; match goal with
      | |- mvd (ref_addr _ _ _ (x_ret _ _)) _ => apply M9; reflexivity
      | |- mvd (ref_addr _ _ _ (x_ctor _ _)) _ => apply M10; tauto
      | |- mvd (ref_addr _ _ _ (x_dtor _ _)) _ => apply M10; tauto
      | |- mvd (ref_addr _ _ _ (nth _ _ _)) _ => apply M6
      | |- mvd (address _ _ _ _) _ => apply M8
      | |- mvd (info_addr _ _ _ _) _ => exact M3
      | |- mvd (text_addr _ _ _ SNameText _) _ => exact M1
      | |- mvd (text_addr _ _ _ SAttrText _) _ => exact M7
      | |- mvd (ref_addr _ _ _ (x_parent _ _)) _ => exact M2
      | |- mvd (ref_addr _ _ _ (x_type _ _)) _ => exact M4
      | |- mvd (ref_addr _ _ _ (x_prim _ _)) _ => exact M5
      end.
Qed.
Lemma ptr_leaf_scalar : forall p, ptr_leaf (Scalar 1) p = None.
Proof. intros p. unfold ptr_leaf, leaf_at. cbn [leaves leaves_in DEPTH find fst]. destruct (path_eqb [] p); reflexivity. Qed.
Lemma elem_slots : forall t j v v' p lo w, nth_error (elems s t) j = Some v -> nth_error (elems b t) j = Some v' -> In (p, lo, w) (leaves (type_of t)) -> slot (type_of t) p (v p) (v' p).
Proof.
  assert (MAP : forall A (f g : A -> val) l j v v', nth_error (map f l) j = Some v -> nth_error (map g l) j = Some v' -> exists x, nth_error l j = Some x /\ v = f x /\ v' = g x).
  { intros A f g l j v v' H H'. rewrite nth_error_map in H, H'. destruct (nth_error l j) as [x|]; [|discriminate H]. injection H as <-. injection H' as <-. eauto. }
  assert (PTR : forall z z' p lo w, mvd z z' -> In (p, lo, w) (leaves (Ptr "")) -> slot (Ptr "") p z z').
  { intros z z' p lo w M [Q|[]]. injection Q as <- _ _. apply (slot_ptr _ _ []); [reflexivity|reflexivity|exact M]. }
  intros t j v v' p lo w H H' I. destruct t as [| | |k| | | |[c|a]|]; cbn [elems type_of heap_words] in *.
  - destruct j as [|j]; [|destruct j; discriminate H]. injection H as <-. injection H' as <-. exact (lookup_rel (slot (Struct DatabaseMem)) (slot_0 _) _ _ p db_slots).
  - destruct (MAP _ _ _ _ _ _ _ H H') as (x & _ & -> & ->). apply slot_num, ptr_leaf_scalar.
  - destruct (MAP _ _ _ _ _ _ _ H H') as (x & Hx & -> & ->). exact (lookup_rel (slot (Struct Name)) (slot_0 _) _ _ p (name_slots x (nth_error_In _ _ Hx))).
  - assert (J : (j < length (x_rows e k))%nat). { assert (Q : (j < length (elems s (STable k)))%nat) by (apply nth_error_Some; cbn [elems]; congruence). pose proof (elems_live s (STable k)) as L. cbn [live] in L. unfold zlen in L. lia. }
    destruct (nth_error (x_rows e k) j) as [r|] eqn:Er; [|apply nth_error_None in Er; lia].
    pose proof (row_elem s k j r Er) as Q. pose proof (row_elem b k j r Er) as Q'. cbn [elems] in Q, Q'. rewrite Q in H. rewrite Q' in H'. injection H as <-. injection H' as <-.
    exact (lookup_rel (slot (Struct (struct_of k))) (slot_0 _) _ _ p (prim_slots k j r Er)).
  - destruct (MAP _ _ _ _ _ _ _ H H') as (x & Hx & -> & ->). exact (lookup_rel (slot (Struct ContainerInfo)) (slot_0 _) _ _ p (info_slots x (nth_error_In _ _ Hx))).
  - destruct (MAP _ _ _ _ _ _ _ H H') as (x & _ & -> & ->). apply slot_num, ptr_leaf_scalar.
  - destruct (MAP _ _ _ _ _ _ _ H H') as (x & Hx & -> & ->). apply (PTR _ _ p lo w); [|exact I]. apply mvd_ref. apply nth_error_In in Hx. apply (in_map snd) in Hx. pose proof (Permutation_in _ (lk_types _ LK) Hx) as Q.
    apply in_map_iff in Q. destruct Q as [l [<- Q]]. cbn [ref_ok]. unfold valid. rewrite !in_app_iff in Q. unfold locs in Q. rewrite !in_map_iff in Q.
    destruct Q as [[n [<- Q]]|[[n [<- Q]]|[[n [<- Q]]|[n [<- Q]]]]]; apply in_seq in Q; cbn [fst snd]; lia.
  - rewrite map_map in H, H'. destruct (MAP _ _ _ _ _ _ _ H H') as (x & Hx & -> & ->). apply (PTR _ _ p lo w); [|exact I]. apply mvd_ref. pose proof (lk_arr _ LK c) as Q. rewrite Forall_forall in Q. apply Q. exact (nth_error_In _ _ Hx).
  - rewrite map_map in H, H'. destruct (MAP _ _ _ _ _ _ _ H H') as (x & Hx & -> & ->). apply (PTR _ _ p lo w); [|exact I]. apply mvd_place. pose proof (lk_global _ LK a) as Q. rewrite Forall_forall in Q. apply Q. exact (nth_error_In _ _ Hx).
  - destruct j; discriminate H.
Qed.
(* every pointer of the database *)
Lemma pointer_slot : forall n q, pointer_at s (image e heap pad fb s) n q -> exists t o j v v' p lo, reach t /\ ofs t = Some o /\ nth_error (elems s t) j = Some v /\ nth_error (elems b t) j = Some v' /\
  In (p, lo, 8) (leaves (type_of t)) /\ ptr_leaf (type_of t) p = Some n /\ q = o + Z.of_nat j * size_of (type_of t) + lo /\ mvd (v p) (v' p) /\ (outside n = true -> v p = 0).
Proof.
  intros n q (p & bl & j & lo & Hb & Hj & Hn & ->). destruct (block_tag s S0 S1 p bl Hb) as (t & R & _ & B). replace (b_count bl) with (lv t) in Hj by (symmetry; apply B).
  destruct (reach_has t R) as [o O]; [lia|]. rewrite (proj1 (proj2 (alike_facts _ _ (proj1 (proj2 B))))) in Hn. destruct (pointer_ptr_leaf _ n lo (type_of_laid t) Hn) as (p' & I & E).
  assert (L1 : (Z.to_nat j < length (elems s t))%nat) by (pose proof (elems_live s t) as Q; unfold zlen in Q; lia). assert (L2 : (Z.to_nat j < length (elems b t))%nat) by (pose proof (elems_live b t) as Q; unfold zlen in Q; lia).
  destruct (nth_error (elems s t) (Z.to_nat j)) as [v|] eqn:E1; [|apply nth_error_None in E1; lia]. destruct (nth_error (elems b t) (Z.to_nat j)) as [v'|] eqn:E2; [|apply nth_error_None in E2; lia].
  pose proof (elem_slots t _ v v' p' lo 8 E1 E2 I) as Q. unfold slot in Q. rewrite E in Q. destruct Q as [Q1 Q2].
  exists t, o, (Z.to_nat j), v, v', p', lo. repeat (split; [assumption|]). split; [|split; assumption]. pose proof (elem_at s t bl o j B O). rewrite Z2Nat.id by lia. lia.
Qed.
End Two.

(* ---- a well-formed image ---- *)
Section Whole.
Variable s : Z.
Hypothesis S0 : 0 < s.
Hypothesis S1 : s + SIZE < 2 ^ 64.
Notation img := (image e heap pad fb s).
Lemma named_array : forall m t o u, In (m, Arr u, o) (placed DatabaseMem) -> length (filter (fun x => String.eqb (fst (fst x)) m) (placed DatabaseMem)) = 1%nat ->
  In ([m], t) db_arrays -> arr_check (Struct DatabaseMem) (o, u) [m] (type_of t) = true ->
  exists bl, database_array img m = [bl] /\ is_block s t bl.
Proof.
  intros m t o u I N D C. exists (child s img (root s) 0 o u). split; [apply (db_array s); assumption|]. unfold child. rewrite elem_root. exact (db_block s S0 S1 (o, u) [m] t D C).
Qed.
Lemma block_elements : forall t bl, is_block s t bl -> elements bl = map (fun j => adr s t + Z.of_nat j * size_of (type_of t)) (seq 0 (Z.to_nat (lv t))).
Proof. intros t bl (A & B & C). unfold elements, elem. rewrite A, C, (proj1 (alike_facts _ _ B)). reflexivity. Qed.
Lemma table_elements : forall k bl, is_block s (STable k) bl -> elements bl = map (place e heap s) (locs (x_rows e) k).
Proof. intros k bl B. rewrite (block_elements _ _ B). cbn [live]. unfold zlen, locs. rewrite Nat2Z.id, map_map. reflexivity. Qed.
Lemma types_elements : forall bl, is_block s STypes bl -> map (fun a => ptr_at img (a - s)) (elements bl) = map (ref_addr e heap s) (map snd (x_types e)).
Proof.
  intros bl B. rewrite (block_elements _ _ B). cbn [live]. unfold zlen. rewrite Nat2Z.id, !map_map.
  assert (F : In STypes fixed_tags) by (cbn; tauto). destruct (fixed_has _ F) as [o O]. rewrite (adr_has s _ _ O).
  assert (G : forall A B (f : nat -> B) (g : A -> B) (l : list A), (forall j x, nth_error l j = Some x -> f j = g x) -> map f (seq 0 (length l)) = map g l).
  { clear. intros A B f g l. assert (H : forall n, (forall j x, nth_error l j = Some x -> f (n + j)%nat = g x) -> map f (seq n (length l)) = map g l); [|intros Q; apply H; exact Q].
    induction l as [|x l IH]; intros n Q; cbn [length seq map]; [reflexivity|]. f_equal; [specialize (Q O x eq_refl); rewrite Nat.add_0_r in Q; exact Q|]. apply IH. intros j y Hy. specialize (Q (S j) y Hy). rewrite Nat.add_succ_r in Q. exact Q. }
  apply G. intros j x Hx. assert (E : nth_error (elems s STypes) j = Some (single (ref_addr e heap s (snd x)))) by (cbn [elems]; apply (map_nth_error (fun x => single (ref_addr e heap s (snd x)))); exact Hx).
  replace (s + o + Z.of_nat j * size_of (type_of STypes) - s) with (o + Z.of_nat j * size_of (type_of STypes) + 0) by lia.
  rewrite (read_word s STypes o j _ [] 0 O E); [reflexivity|left; reflexivity|]. apply (good_range s S0 S1). pose proof (elem_slots s s S0 STypes j _ _ [] 0 8 E E (or_introl eq_refl)) as Q. exact (proj1 (proj1 Q)).
Qed.
Lemma image_is_ok : image_ok s img.
Proof.
  pose proof (ho_fits _ _ HO) as FIT. unfold CAPACITY in FIT. split.
  - apply region_bytes.
  - exact S0.
  - rewrite image_zlen. lia.
  - intros p bl Hb Hc. destruct (block_tag s S0 S1 p bl Hb) as (t & R & _ & B). destruct B as (B1 & B2 & B3). destruct (reach_has t R) as [o O]; [lia|].
    rewrite B1, B3, (adr_has s t o O), (proj1 (alike_facts _ _ B2)), image_zlen. destruct (ofs_range t o O). lia.
  - intros p bl Hb. destruct (block_tag s S0 S1 p bl Hb) as (t & R & _ & B). destruct B as (_ & _ & ->). pose proof (live_small t R) as Q. unfold CAPACITY in Q. lia.
  - intros p bl p' bl' Hb Hb' N C C'. destruct (block_tag s S0 S1 p bl Hb) as (t & R & E & (B1 & B2 & B3)). destruct (block_tag s S0 S1 p' bl' Hb') as (t' & R' & E' & (B1' & B2' & B3')).
    destruct (reach_has t R) as [o O]; [lia|]. destruct (reach_has t' R') as [o' O']; [lia|]. rewrite B1, B3, B1', B3', (adr_has s t o O), (adr_has s t' o' O'), (proj1 (alike_facts _ _ B2)), (proj1 (alike_facts _ _ B2')).
    assert (D : t <> t') by congruence. pose proof (ofs_apart t t' o o' D O O'). lia.
  - intros n q H. destruct (pointer_slot s s S0 S1 n q H) as (t & o & j & v & v' & p & lo & R & O & E & _ & I & _ & -> & [G _] & Z0).
    rewrite (read_word s t o j v p lo O E I (good_range s S0 S1 _ G)), image_zlen. destruct (outside n); [left; apply Z0; reflexivity|]. destruct G as [G|G]; [left; exact G|right; split; [reflexivity|lia]].
  - destruct (named_array "type_primitives" STypes 384 (Ptr "Type")) as (b0 & E0 & B0); [vm_compute; tauto|vm_compute; reflexivity|cbn; tauto|vm_compute; reflexivity|].
    destruct (named_array "types" (STable KType) 40 (Struct Type_)) as (b1 & E1 & B1); [vm_compute; tauto|vm_compute; reflexivity|cbn; tauto|vm_compute; reflexivity|].
    destruct (named_array "classes" (STable KClass) 160 (Struct Class)) as (b2 & E2 & B2); [vm_compute; tauto|vm_compute; reflexivity|cbn; tauto|vm_compute; reflexivity|].
    destruct (named_array "enums" (STable KEnum) 88 (Struct Enum)) as (b3 & E3 & B3); [vm_compute; tauto|vm_compute; reflexivity|cbn; tauto|vm_compute; reflexivity|].
    destruct (named_array "template_types" (STable KTemplateType) 208 (Struct TemplateType)) as (b4 & E4 & B4); [vm_compute; tauto|vm_compute; reflexivity|cbn; tauto|vm_compute; reflexivity|].
    cbn [flat_map]. rewrite E0, E1, E2, E3, E4. cbn [app flat_map]. rewrite !app_nil_r. rewrite (types_elements b0 B0), (table_elements _ _ B1), (table_elements _ _ B2), (table_elements _ _ B3), (table_elements _ _ B4).
    rewrite <- !map_app. eapply Permutation_trans; [apply Permutation_map; apply (lk_types _ LK)|]. rewrite map_map. cbn [ref_addr]. apply Permutation_refl.
  - assert (Q : forall m t o u, In (m, Arr u, o) (placed DatabaseMem) -> length (filter (fun x => String.eqb (fst (fst x)) m) (placed DatabaseMem)) = 1%nat -> In ([m], t) db_arrays ->
      arr_check (Struct DatabaseMem) (o, u) [m] (type_of t) = true -> 0 <= fold_right Z.add 0 (map b_count (database_array img m)) <= 5 * 1024 * 1024).
    { intros m t o u I N D C. destruct (named_array m t o u I N D C) as (bl & -> & (_ & _ & B)). cbn [map fold_right]. rewrite B. assert (R : reach t) by (right; left; apply in_map_iff; exists ([m], t); auto). pose proof (live_small t R) as L. unfold CAPACITY in L. lia. }
    pose proof (Q "enums" (STable KEnum) 88 (Struct Enum) ltac:(vm_compute; tauto) ltac:(vm_compute; reflexivity) ltac:(cbn; tauto) ltac:(vm_compute; reflexivity)) as Q1.
    pose proof (Q "fields" (STable KField) 112 (Struct Field) ltac:(vm_compute; tauto) ltac:(vm_compute; reflexivity) ltac:(cbn; tauto) ltac:(vm_compute; reflexivity)) as Q2.
    pose proof (Q "functions" (STable KFunction) 136 (Struct Function_) ltac:(vm_compute; tauto) ltac:(vm_compute; reflexivity) ltac:(cbn; tauto) ltac:(vm_compute; reflexivity)) as Q3.
    pose proof (Q "classes" (STable KClass) 160 (Struct Class) ltac:(vm_compute; tauto) ltac:(vm_compute; reflexivity) ltac:(cbn; tauto) ltac:(vm_compute; reflexivity)) as Q4.
    pose proof (Q "templates" (STable KTemplate) 184 (Struct Template) ltac:(vm_compute; tauto) ltac:(vm_compute; reflexivity) ltac:(cbn; tauto) ltac:(vm_compute; reflexivity)) as Q5.
    pose proof (Q "namespaces" (STable KNamespace) 232 (Struct Namespace) ltac:(vm_compute; tauto) ltac:(vm_compute; reflexivity) ltac:(cbn; tauto) ltac:(vm_compute; reflexivity)) as Q6.
    pose proof (Q "type_primitives" STypes 384 (Ptr "Type") ltac:(vm_compute; tauto) ltac:(vm_compute; reflexivity) ltac:(cbn; tauto) ltac:(vm_compute; reflexivity)) as Q7.
    cbn [map fold_right fst snd]. lia.
Qed.
End Whole.

(* ---- the same image elsewhere ---- *)
Definition frame : list (tag * list Z) := map (fun t => (t, [])) fixed_tags ++ heap.
Definition seg_of (s : Z) (x : tag * list Z) : seg := (fst x, type_of (fst x), elems s (fst x) ++ map single (snd x)).
Lemma cont_frame : forall s, cont s = map (seg_of s) frame.
Proof.
  intros s. unfold contents, frame. rewrite map_app, map_map. unfold fixed_tags. rewrite !map_app, map_map. cbn [map app]. rewrite <- app_assoc. cbn [app].
  assert (Q : forall t, (t, type_of t, elems s t) = seg_of s (t, [])) by (intros t; unfold seg_of; cbn [fst snd map]; rewrite app_nil_r; reflexivity).
  apply f_equal2; [exact (Q SDb)|]. apply f_equal2; [exact (Q SNameText)|]. apply f_equal2; [exact (Q SNames)|]. apply f_equal2; [apply map_ext; intros k; exact (Q (STable k))|].
  apply f_equal2; [exact (Q SInfos)|]. apply f_equal2; [exact (Q SAttrText)|]. apply f_equal2; [exact (Q STypes)|]. apply map_ext_in. intros h I. unfold seg_of. rewrite map_app.
  destruct (heap_tag h I) as [->|[x ->]]; reflexivity.
Qed.
Lemma fixed_nodup : NoDup fixed_tags.
Proof. vm_compute. repeat (constructor; [cbn; intuition discriminate|]). constructor. Qed.
Lemma fixed_heap : forall t, In t fixed_tags -> In t (map fst heap) -> False.
Proof.
  intros t I J. apply in_map_iff in J. destruct J as [h [<- J]]. destruct (heap_tag h J) as [Q|[x Q]]; rewrite Q in I; vm_compute in I; intuition discriminate.
Qed.
Lemma frame_first : forall pre x post, frame = pre ++ x :: post -> fst x <> SJunk -> ~ In (fst x) (map fst pre).
Proof.
  intros pre x post E N I.
  assert (D : NoDup (filter (fun t => if tag_dec t SJunk then false else true) (map fst frame))).
  { unfold frame. rewrite map_app, map_map. cbn [fst]. rewrite map_id. assert (F : forall a b, filter (fun t => if tag_dec t SJunk then false else true) (a ++ b) = filter (fun t => if tag_dec t SJunk then false else true) a ++ filter (fun t => if tag_dec t SJunk then false else true) b) by (intros; apply filter_app).
    rewrite F. change (filter (fun t => if tag_dec t SJunk then false else true) fixed_tags) with fixed_tags.
    assert (G : forall l m : list tag, NoDup l -> NoDup m -> (forall t, In t l -> In t m -> False) -> NoDup (l ++ m)).
    { clear. induction l as [|a l IH]; intros m A B C; [exact B|]. inversion A as [|a0 l0 A1 A2]; subst a0 l0. cbn [app]. constructor.
      - intros I. apply in_app_or in I. destruct I as [I|I]; [exact (A1 I)|]. apply (C a); [left; reflexivity|exact I].
      - apply IH; [exact A2|exact B|]. intros t I1 I2. apply (C t); [right; exact I1|exact I2]. }
    apply G; [exact fixed_nodup|exact (ho_once _ _ HO)|]. intros t I1 I2. apply filter_In in I2. exact (fixed_heap t I1 (proj1 I2)). }
  rewrite E, map_app in D. cbn [map] in D. rewrite filter_app in D. cbn [filter] in D. destruct (tag_dec (fst x) SJunk) as [Q|_]; [contradiction|]. apply NoDup_remove_2 in D. apply D. apply in_or_app. left.
  apply filter_In. split; [exact I|]. destruct (tag_dec (fst x) SJunk); [contradiction|reflexivity].
Qed.
Lemma frame_reach : forall t w, In (t, w) frame -> elems 0 t <> [] -> reach t \/ type_of t = Scalar 1.
Proof.
  intros t w I N. unfold frame in I. apply in_app_or in I. destruct I as [I|I].
  - apply in_map_iff in I. destruct I as [t' [Q I]]. injection Q as -> _. unfold fixed_tags in I. cbn [app] in I. destruct I as [<-|[<-|[<-|I]]]; [left; left; reflexivity|right; reflexivity|left; right; left; cbn; tauto|].
    apply in_app_or in I. destruct I as [I|I].
    + left. right. left. apply in_map_iff in I. destruct I as [k [<- _]]. destruct k; cbn; tauto.
    + destruct I as [<-|[<-|[<-|[]]]]; [left; right; left; cbn; tauto|right; reflexivity|left; right; left; cbn; tauto].
  - destruct (ho_tags _ _ HO t w I) as [->|[(a & G & ->)|(a & k & j & G & J & ->)]]; [contradiction N; reflexivity| |].
    + left. right. left. cbn in G. repeat (destruct G as [<-|G]; [cbn; tauto|]). contradiction.
    + left. right. right. exists a, k, j. auto.
Qed.
Lemma same_front : forall A (a b c d : list A), a ++ b = c ++ d -> length a = length c -> a = c.
Proof. intros A. induction a as [|x a IH]; intros b [|y c] d E L; try discriminate L; [reflexivity|]. injection E as -> E. f_equal. apply (IH b c d E). cbn in L. lia. Qed.
Lemma Forall_slice : forall A (P : A -> Prop) l off len, Forall P l -> Forall P (slice l off len).
Proof. intros A P l off len H. unfold slice. apply Forall_forall. intros x Hx. rewrite Forall_forall in H. apply H. rewrite <- (firstn_skipn (Z.to_nat off) l). apply in_or_app. right. rewrite <- (firstn_skipn (Z.to_nat len) (skipn _ _)). apply in_or_app. left. exact Hx. Qed.
Section Move.
Variables s b : Z.
Hypothesis S0 : 0 < s.
Hypothesis S1 : s + SIZE < 2 ^ 64.
Hypothesis B0 : 0 <= b.
Hypothesis B1 : b + SIZE < 2 ^ 64.
Notation img := (image e heap pad fb s).
Notation imb := (image e heap pad fb b).
Lemma moved_range : forall z z', mvd s b z z' -> 0 <= z' < 2 ^ 64.
Proof. intros z z' [[->|G] ->]; unfold relocated; [cbn; lia|]. destruct (Z.eqb_spec z 0); lia. Qed.
Lemma uncovered : forall i, (forall n q, pointer_at s img n q -> ~ (q <= i < q + 8)) -> znth img i = znth imb i.
Proof.
  intros i U. unfold image. change (fun s0 : seg => flat_map (encode pad (snd (fst s0))) (snd s0)) with (seg_bytes pad).
  apply (region_same pad); [rewrite !cont_shape; reflexivity|apply cont_ok|].
  intros pre t u es post pre' es' post' j v v' p o w E E' L Hv Hv' I.
  assert (K : segs_ok pre) by (intros x Hx; apply (cont_ok s); rewrite E; apply in_or_app; left; exact Hx).
  assert (L2 : length pre = length pre') by (rewrite <- (map_length shp pre), L, map_length; reflexivity).
  assert (X : exists x, nth_error frame (length pre) = Some x /\ seg_of s x = (t, u, es) /\ seg_of b x = (t, u, es')).
  { assert (Q : nth_error (cont s) (length pre) = Some (t, u, es)) by (rewrite E, nth_error_app2, Nat.sub_diag by lia; reflexivity).
    assert (Q' : nth_error (cont b) (length pre) = Some (t, u, es')) by (rewrite E', L2, nth_error_app2, Nat.sub_diag by lia; reflexivity).
    rewrite cont_frame, nth_error_map in Q, Q'. destruct (nth_error frame (length pre)) as [x|]; [|discriminate Q]. cbn [option_map] in Q, Q'. exists x. split; [reflexivity|]. split; congruence. }
  destruct X as ([t0 x] & X1 & X2 & X3). unfold seg_of in X2, X3. cbn [fst snd] in X2, X3. injection X2 as -> <- <-. injection X3 as <-.
  assert (LE : length (elems s t) = length (elems b t)) by (pose proof (elems_live s t) as A1; pose proof (elems_live b t) as A2; unfold zlen in A1, A2; lia).
  destruct (Nat.ltb_spec j (length (elems s t))) as [J|J].
  2: { rewrite nth_error_app2 in Hv by lia. rewrite nth_error_app2, <- LE in Hv' by lia. left. congruence. }
  rewrite nth_error_app1 in Hv by lia. rewrite nth_error_app1 in Hv' by lia.
  pose proof (elem_slots s b S0 t j v v' p o w Hv Hv' I) as Q. unfold slot in Q. destruct (ptr_leaf (type_of t) p) as [n|] eqn:PL; [|left; exact Q]. right.
  destruct (ptr_leaf_pointer _ _ _ _ _ (type_of_laid t) I PL) as [-> Ip].
  assert (N0 : elems 0 t <> []). { intros N. pose proof (elems_live 0 t) as A1. pose proof (elems_live s t) as A2. rewrite N in A1. unfold zlen in A1, A2. cbn in A1. lia. }
  destruct (frame_reach t x (nth_error_In _ _ X1) N0) as [R|R]; [|rewrite R, ptr_leaf_scalar in PL; discriminate PL].
  assert (O : ofs t = Some (zlen (flat_map (seg_bytes pad) pre))).
  { unfold offset. rewrite <- (cont_shape s), offset_found, E. rewrite (found_pre pad); [cbn [option_map fst]; f_equal; lia| |exact K].
    apply nth_error_split in X1. destruct X1 as (f1 & f2 & F & FL).
    assert (PE : pre = map (seg_of s) f1). { pose proof E as E2. rewrite cont_frame, F, map_app in E2. assert (L3 : length (map (seg_of s) f1) = length pre) by (rewrite map_length; exact FL). symmetry. exact (same_front _ _ _ _ _ E2 L3). }
    rewrite PE, map_map. cbn [seg_of fst]. apply (frame_first f1 (t, x) f2 F). cbn [fst]. intros ->. apply N0. reflexivity. }
  destruct (tag_block s S0 S1 t R) as (bl & Hb & B).
  assert (Pt : pointer_at s img n (zlen (flat_map (seg_bytes pad) pre) + Z.of_nat j * size_of (type_of t) + o)).
  { exists (path_of t), bl, (Z.of_nat j), o. split; [exact Hb|]. split; [destruct B as (_ & _ & ->); rewrite <- (elems_live s); unfold zlen; lia|]. split; [rewrite (proj1 (proj2 (alike_facts _ _ (proj1 (proj2 B))))); exact Ip|].
    pose proof (elem_at s t bl _ (Z.of_nat j) B O). lia. }
  specialize (U _ _ Pt). lia.
Qed.
Lemma covered : forall img' n q i, zlen img' = SIZE -> Forall is_byte img' -> ptr_at img' q = relocated s b (ptr_at img q) -> pointer_at s img n q -> q <= i < q + 8 -> znth img' i = znth imb i.
Proof.
  intros img' n q i Z1 B P H C. destruct (pointer_slot s b S0 S1 n q H) as (t & o & j & v & v' & p & lo & R & O & E & E' & I & _ & Q & M & _).
  destruct (image_slice s t o j v p lo 8 O E I) as (_ & Q1 & Q2). rewrite <- Q in Q1, Q2.
  assert (P1 : ptr_at img q = v p) by (rewrite Q; apply (read_word s t o j v p lo O E I); apply (good_range s S0 S1); apply M).
  assert (P2 : ptr_at imb q = v' p) by (rewrite Q; apply (read_word b t o j v' p lo O E' I); exact (moved_range _ _ M)).
  assert (EQ : ptr_at img' q = ptr_at imb q) by (rewrite P, P1, P2; symmetry; apply M).
  assert (SL : slice img' q 8 = slice imb q 8).
  { apply le_val_inj; [apply Forall_slice; exact B|apply Forall_slice; apply region_bytes| |exact EQ].
    apply Nat2Z.inj. change (zlen (slice img' q 8) = zlen (slice imb q 8)). rewrite !slice_length by (rewrite ?image_zlen; lia). reflexivity. }
  assert (ZN : znth (slice img' q 8) (i - q) = znth (slice imb q 8) (i - q)) by (rewrite SL; reflexivity). rewrite !znth_slice in ZN by lia.
  replace ((0 <=? i - q) && (i - q <? 8)) with true in ZN by lia. replace (q + (i - q)) with i in ZN by lia. exact ZN.
Qed.
Lemma moved_image : forall img', same_database s img b img' -> Forall is_byte img' -> img' = imb.
Proof.
  intros img' (Z1 & _ & P & U) B. rewrite image_zlen in Z1. apply znth_ext. intros i.
  assert (D : {znth img' i = znth imb i} + {znth img' i <> znth imb i}) by (repeat decide equality). destruct D as [D|D]; [exact D|]. exfalso. apply D.
  assert (C : forall n q, pointer_at s img n q -> ~ (q <= i < q + 8)) by (intros n q H C; apply D; exact (covered img' n q i Z1 B (P n q H) H C)).
  rewrite (U i C). apply uncovered. exact C.
Qed.
End Move.
End One.
