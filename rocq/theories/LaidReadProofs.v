(* Reading the memory of an exported database. *)
From Coq Require Import String Permutation Sorted.
From Verif Require Import Base BaseProofs Text Maps DatabaseModel ExportModel ExportSpec ExportProofs ExportTablesProofs ExportParentProofs ExportLinkProofs ExportMainProofs.
From Verif Require Import MmapModel MmapSpec MmapProofs ImageLayout ImageModel ImageSpec ImageProofs LaidModel LaidSpec LaidProofs LaidImageProofs LaidLinkProofs.
#[local] Open Scope string_scope.
#[local] Open Scope Z_scope.
#[local] Open Scope list_scope.

(* the structures read are those written *)
Lemma record_struct : forall k, record_of k = struct_of k.
Proof. intros k. destruct k; reflexivity. Qed.
Definition walk_check (s : struct) : bool :=
  forallb (fun x => let '(p, o, w) := x in match walk (Struct s) p with Some (o', t) => (o' =? o) && (size_of t =? w) | None => false end) (leaves (Struct s)).
Lemma walk_leaf : forall s p o w, In (p, o, w) (leaves (Struct s)) -> exists t, walk (Struct s) p = Some (o, t) /\ size_of t = w.
Proof.
  intros s p o w I. assert (C : walk_check s = true) by (destruct s; vm_compute; reflexivity). unfold walk_check in C. rewrite forallb_forall in C. specialize (C _ I). cbn beta iota in C.
  destruct (walk (Struct s) p) as [[o' t]|]; [|discriminate C]. exists t. split; [do 2 f_equal; lia|lia].
Qed.
Lemma table_member : forall k, In ([table_of k], STable k) db_arrays.
Proof. intros k. destruct k; cbn; tauto. Qed.

(* whatever loads is the image made at that address *)
Lemma to_memory : forall L fuel db (P : Z -> Z -> list Z -> Prop), exportable L fuel db -> attributes_owned db ->
  (forall e heap pad fb base, BuildCppExport L fuel db = Ok e -> facts L db e -> linked e -> heap_ok e heap -> 0 < base -> base + image_size e heap < 2 ^ 64 -> P fb base (image e heap pad fb base)) ->
  reaches_memory L fuel db P.
Proof.
  intros L fuel db P X O H. unfold reaches_memory. destruct (read L fuel db X (facts L db) (fun e F => F)) as (e & BE & F). exists e. split; [exact BE|]. pose proof (linked_ok L fuel db e X O F) as LK. intros heap pad fb start relpad HO S0 S1 RP.
  destruct (export_load_bytes start (image e heap pad fb start) relpad (image_is_ok e heap pad fb LK HO start S0 S1) RP) as (file & E & Q). exists file. split; [exact E|].
  intros addr rest next live A0 A1 LV. destruct (Q addr rest next live) as (img' & E' & D & B); [lia|rewrite (image_zlen e heap pad fb LK HO); lia|exact LV|]. exists img'. split; [exact E'|].
  rewrite (moved_image e heap pad fb LK HO start (addr next) S0 S1 ltac:(lia) A1 img' D B). apply H; assumption.
Qed.

Section Seen.
Variables (e : export) (heap : list (tag * list Z)) (pad fb s : Z).
Hypothesis LK : linked e.
Hypothesis HO : heap_ok e heap.
Hypothesis S0 : 0 < s.
Hypothesis S1 : s + image_size e heap < 2 ^ 64.
Notation img := (image e heap pad fb s).
Notation adr := (address e heap s).
Notation plc := (LaidModel.place e heap s).
Notation rfa := (ref_addr e heap s).
Lemma read_leaf : forall t r o j v p lo w, type_of t = Struct r -> offset e heap t = Some o -> nth_error (elems e heap fb s t) j = Some v -> In (p, lo, w) (leaves (Struct r)) ->
  get s img (s + o + Z.of_nat j * size_of (Struct r)) r p = v p mod 256 ^ w.
Proof.
  intros t r o j v p lo w T O E I. destruct (walk_leaf r p lo w I) as (u & W & SZ). unfold get. rewrite W, SZ. unfold number. rewrite <- T in I.
  replace (s + o + Z.of_nat j * size_of (Struct r) + lo - s) with (o + Z.of_nat j * size_of (type_of t) + lo) by (rewrite T; lia).
  rewrite (proj1 (image_slice e heap pad fb LK HO s t o j v p lo w O E I)). rewrite le_val_bytes. rewrite Z2Nat.id; [reflexivity|]. pose proof (leaf_range _ (type_of_laid t) p lo w I). lia.
Qed.
Lemma ofs_0 : offset e heap SDb = Some 0.
Proof. reflexivity. Qed.
Lemma read_db : forall p lo w, In (p, lo, w) (leaves (Struct DatabaseMem)) -> get s img s DatabaseMem p = lookup (db_values e heap fb s) p mod 256 ^ w.
Proof.
  intros p lo w I. pose proof (read_leaf SDb DatabaseMem 0 0 _ p lo w eq_refl ofs_0 eq_refl I) as Q. replace (s + 0 + Z.of_nat 0 * size_of (Struct DatabaseMem)) with s in Q by lia. exact Q.
Qed.
Lemma leaf_in : forall u p o w, leaf_at u p = Some (o, w) -> In (p, o, w) (leaves u).
Proof. intros u p o w H. apply leaf_at_in. rewrite H. cbn [pair_eqb]. rewrite !Z.eqb_refl. reflexivity. Qed.
Lemma db_array_leaves : forall m t, In (m, t) db_arrays -> (exists o, In (m ++ ["size"], o, 4) (leaves (Struct DatabaseMem))) /\ exists o, In (m ++ ["data"], o, 8) (leaves (Struct DatabaseMem)).
Proof.
  intros m t I. destruct (forallb2_right _ _ _ _ _ _ db_checked I) as ((o & u) & _ & C). apply andb_prop in C. destruct C as [C _]. unfold arr_check in C. cbn [fst snd] in C. apply andb_prop in C. destruct C as [C _]. apply andb_prop in C. destruct C as [C1 C2].
  split; eexists; apply leaf_at_in; eassumption.
Qed.
Lemma small_mod : forall t, reach e t -> live e t mod 256 ^ 4 = live e t.
Proof. intros t R. pose proof (live_small e heap pad fb LK HO t R) as Q. unfold CAPACITY in Q. apply Z.mod_small. change (256 ^ 4) with (2 ^ 32). lia. Qed.
Lemma adr_mod : forall t, adr t mod 256 ^ 8 = adr t.
Proof. intros t. apply Z.mod_small. change (256 ^ 8) with (2 ^ 64). exact (adr_range e heap pad fb LK HO s S0 S1 t). Qed.
Lemma db_array_read : forall m t, In (m, t) db_arrays -> get s img s DatabaseMem (m ++ ["size"]) = live e t /\ get s img s DatabaseMem (m ++ ["data"]) = adr t.
Proof.
  intros m t I. destruct (db_array_leaves m t I) as [[o1 L1] [o2 L2]]. rewrite (read_db _ _ _ L1), (read_db _ _ _ L2). destruct (db_lookup e heap fb s m t I) as [Q1 Q2]. rewrite Q1, Q2.
  split; [apply small_mod|apply adr_mod]. right. left. apply in_map_iff. exists (m, t). auto.
Qed.
Lemma object_place : forall l, object s img l = plc l.
Proof.
  intros [k j]. unfold object, LaidModel.place. cbn [fst snd]. rewrite record_struct. f_equal. exact (proj2 (db_array_read [table_of k] (STable k) (table_member k))).
Qed.
Lemma read_row : forall k j r p lo w, nth_error (x_rows e k) j = Some r -> In (p, lo, w) (leaves (Struct (struct_of k))) ->
  of_object s img (k, j) p = lookup (prim_values e heap s k (j, r)) p mod 256 ^ w.
Proof.
  intros k j r p lo w E I. unfold of_object. rewrite object_place. cbn [fst]. rewrite record_struct. destruct (fixed_has e heap fb LK HO _ (table_fixed k)) as [o O].
  unfold LaidModel.place. cbn [fst snd]. rewrite (adr_has e heap s _ _ O). apply (read_leaf (STable k) (struct_of k) o j _ p lo w eq_refl O); [|exact I]. apply row_elem. exact E.
Qed.
Lemma row_num : forall k j r p z o w, nth_error (x_rows e k) j = Some r -> In (p, z) (prim_values e heap s k (j, r)) -> leaf_at (Struct (struct_of k)) p = Some (o, w) ->
  of_object s img (k, j) p = z mod 256 ^ w /\ object_holds s img (k, j) p z.
Proof.
  intros k j r p z o w E I LF. apply leaf_in in LF. pose proof (read_row k j r p o w E LF) as Q. rewrite (lookup_nodup _ _ _ (prim_keys e heap s k (j, r)) I) in Q. split; [exact Q|].
  unfold object_holds, holds. cbn [fst]. destruct (walk_leaf _ _ _ _ LF) as (t & W & SZ). exists o, t. rewrite record_struct. split; [exact W|]. rewrite SZ. unfold of_object in Q. cbn [fst] in Q. rewrite record_struct in Q. exact Q.
Qed.
Lemma ref_range : forall r, ref_ok e r -> 0 <= rfa r < 2 ^ 64.
Proof. intros [z|l] R; cbn [ref_ok ref_addr] in *; [subst z; lia|]. pose proof (place_good e heap pad fb LK HO s l R). lia. Qed.
Lemma row_ref : forall k j r p x o, nth_error (x_rows e k) j = Some r -> In (p, rfa x) (prim_values e heap s k (j, r)) -> ref_ok e x -> leaf_at (Struct (struct_of k)) p = Some (o, 8) ->
  of_object s img (k, j) p = rfa x.
Proof.
  intros k j r p x o E I R LF. rewrite (proj1 (row_num k j r p _ o 8 E I LF)). apply Z.mod_small. exact (ref_range x R).
Qed.
Lemma row_adr : forall k j r p t off o, nth_error (x_rows e k) j = Some r -> In (p, text_addr e heap s t (Some off)) (prim_values e heap s k (j, r)) -> In t [SNameText; SAttrText] -> 0 <= off <= live e t ->
  leaf_at (Struct (struct_of k)) p = Some (o, 8) -> of_object s img (k, j) p = adr t + off.
Proof.
  intros k j r p t off o E I T R LF. rewrite (proj1 (row_num k j r p _ o 8 E I LF)). cbn [text_addr]. apply Z.mod_small. change (256 ^ 8) with (2 ^ 64).
  assert (FX : In t fixed_tags) by (destruct T as [<-|[<-|[]]]; cbn; tauto). destruct (fixed_has e heap fb LK HO t FX) as [x X]. rewrite (adr_has e heap s _ _ X).
  destruct (ofs_range e heap pad fb LK HO t x X) as [X1 X2]. assert (Y : size_of (type_of t) = 1) by (destruct T as [<-|[<-|[]]]; reflexivity). rewrite Y in X2. lia.
Qed.
(* texts *)
Lemma slice_cons : forall (l : list Z) a n, 0 <= a -> 0 <= n -> slice l a (1 + n) = slice l a 1 ++ slice l (a + 1) n.
Proof.
  intros l a n A N. unfold slice. rewrite Z2Nat.inj_add by lia. change (Z.to_nat 1) with 1%nat. rewrite (Z2Nat.inj_add a 1) by lia. change (Z.to_nat 1) with 1%nat. rewrite Nat.add_1_r.
  generalize (Z.to_nat a) (Z.to_nat n). clear. intros a n. revert l. induction a as [|a IH]; intros l; [destruct l; cbn [skipn firstn Nat.add]; [destruct n; reflexivity|reflexivity]|].
  destruct l as [|x l]; [cbn [skipn]; destruct n; reflexivity|]. cbn [skipn]. apply IH.
Qed.
Lemma bytes_read : forall t o, type_of t = Scalar 1 -> offset e heap t = Some o -> forall txt j, (forall i c, nth_error txt i = Some c -> nth_error (elems e heap fb s t) (j + i) = Some (single c) /\ is_byte c) ->
  slice img (o + Z.of_nat j) (zlen txt) = txt.
Proof.
  intros t o T O txt. assert (O0 : 0 <= o) by (destruct (ofs_range e heap pad fb LK HO t o O); assumption). induction txt as [|c txt IH]; intros j H; [reflexivity|].
  destruct (H 0%nat c eq_refl) as [E B]. rewrite Nat.add_0_r in E.
  assert (I : In ([], 0, 1) (leaves (type_of t))) by (rewrite T; left; reflexivity). destruct (image_slice e heap pad fb LK HO s t o j _ [] 0 1 O E I) as [Q _]. rewrite T in Q. change (size_of (Scalar 1)) with 1 in Q.
  replace (o + Z.of_nat j * 1 + 0) with (o + Z.of_nat j) in Q by lia. rewrite zlen_cons, slice_cons by (pose proof (zlen_nonneg _ txt); lia). rewrite Q.
  replace (o + Z.of_nat j + 1) with (o + Z.of_nat (S j)) by lia. rewrite IH.
  - unfold single. change (Z.to_nat 1) with 1%nat. cbn [le_bytes app]. unfold is_byte in B. rewrite Z.mod_small by lia. reflexivity.
  - intros i d D. replace (S j + i)%nat with (j + S i)%nat by lia. apply H. exact D.
Qed.
Lemma text_read : forall t data off txt, In t [SNameText; SAttrText] -> elems e heap fb s t = map single data -> text_at_offset data off txt -> Forall is_byte txt -> text_here s img (adr t + off) txt.
Proof.
  intros t data off txt T D [O0 [rest R]] B. assert (FX : In t fixed_tags) by (destruct T as [<-|[<-|[]]]; cbn; tauto). destruct (fixed_has e heap fb LK HO t FX) as [x X]. rewrite (adr_has e heap s _ _ X).
  assert (X0 : 0 <= x) by (destruct (ofs_range e heap pad fb LK HO t x X); assumption). unfold text_here. split; [lia|].
  replace (s + x + off - s) with (x + Z.of_nat (Z.to_nat off)) by lia. replace (zlen txt + 1) with (zlen (txt ++ [0])) by (rewrite zlen_app; reflexivity).
  apply (bytes_read t x); [destruct T as [<-|[<-|[]]]; reflexivity|exact X|]. intros i c C. split.
  - rewrite D. rewrite nth_error_map. rewrite <- (firstn_skipn (Z.to_nat off) data), R. assert (LN : length (firstn (Z.to_nat off) data) = Z.to_nat off).
    { apply firstn_length_le. assert (Q : length (skipn (Z.to_nat off) data) = length (txt ++ 0 :: rest)) by (rewrite R; reflexivity). rewrite skipn_length, app_length in Q. cbn [length] in Q. lia. }
    rewrite nth_error_app2 by lia. rewrite LN. replace (Z.to_nat off + i - Z.to_nat off)%nat with i by lia. replace (txt ++ 0 :: rest) with ((txt ++ [0]) ++ rest) by (rewrite <- app_assoc; reflexivity).
    rewrite nth_error_app1 by (apply nth_error_Some; congruence). rewrite C. reflexivity.
  - apply nth_error_In in C. apply in_app_or in C. destruct C as [C|[<-|[]]]; [rewrite Forall_forall in B; apply B; exact C|unfold is_byte; lia].
Qed.
(* arrays of pointers *)
Lemma map_seq : forall A B (f : nat -> B) (g : A -> B) (l : list A), (forall j x, nth_error l j = Some x -> f j = g x) -> map f (seq 0 (length l)) = map g l.
Proof.
  clear. intros A B f g l. assert (H : forall n, (forall j x, nth_error l j = Some x -> f (n + j)%nat = g x) -> map f (seq n (length l)) = map g l); [|intros Q; apply H; exact Q].
  induction l as [|x l IH]; intros n Q; cbn [length seq map]; [reflexivity|]. f_equal; [specialize (Q 0%nat x eq_refl); rewrite Nat.add_0_r in Q; exact Q|]. apply IH. intros j y Hy. specialize (Q (S j) y Hy). rewrite Nat.add_succ_r in Q. exact Q.
Qed.
Lemma words_read : forall t zs, reach e t -> type_of t = Ptr "" -> elems e heap fb s t = map single zs -> Forall (fun z => 0 <= z < 2 ^ 64) zs ->
  map (fun j => number s img (adr t + 8 * Z.of_nat j) 8) (seq 0 (Z.to_nat (live e t))) = zs.
Proof.
  intros t zs R T E B. rewrite <- (elems_live e heap fb LK s t), E. unfold zlen. rewrite Nat2Z.id, map_length. rewrite <- (map_id zs) at 2. apply map_seq. intros j z Z.
  assert (N : nth_error (elems e heap fb s t) j = Some (single z)) by (rewrite E; apply map_nth_error; exact Z).
  assert (LV : 0 < live e t). { rewrite <- (elems_live e heap fb LK s t), E. unfold zlen. rewrite map_length. assert (j < length zs)%nat by (apply nth_error_Some; congruence). lia. }
  destruct (reach_has e heap fb LK HO t R LV) as [o O]. rewrite (adr_has e heap s _ _ O). unfold number.
  assert (I : In ([], 0, 8) (leaves (type_of t))) by (rewrite T; left; reflexivity). destruct (image_slice e heap pad fb LK HO s t o j _ [] 0 8 O N I) as [Q _]. rewrite T in Q. change (size_of (Ptr "")) with 8 in Q.
  replace (s + o + 8 * Z.of_nat j - s) with (o + Z.of_nat j * 8 + 0) by lia. rewrite Q. rewrite le_val_bytes. unfold single. rewrite Forall_forall in B. apply nth_error_In in Z. apply B in Z. apply Z.mod_small. exact Z.
Qed.
Lemma cell_read : forall k j r m a, nth_error (x_rows e k) j = Some r -> In (m, a) (kind_arrays k) ->
  array_here s img (object s img (k, j)) (record_of k) m = map rfa (x_arr e (a, (k, j))).
Proof.
  intros k j r m a E I. unfold array_here. assert (J : (j < length (x_rows e k))%nat) by (apply nth_error_Some; congruence).
  assert (RC : reach e (SHeap (Cell (a, (k, j))))). { right. right. exists a, k, j. split; [reflexivity|]. split; [apply in_map_iff; exists (m, a); auto|exact J]. }
  destruct (forallb2_right _ _ _ _ _ _ (kind_checked k) I) as ((o & u) & _ & C). apply andb_prop in C. destruct C as [C _]. unfold arr_check in C. cbn [fst snd] in C. apply andb_prop in C. destruct C as [C _]. apply andb_prop in C. destruct C as [C1 C2].
  apply leaf_at_in in C1. apply leaf_at_in in C2. pose proof (read_row k j r _ _ _ E C1) as Q1. pose proof (read_row k j r _ _ _ E C2) as Q2. destruct (cell_lookup e heap s k j r m a I) as [L1 L2]. rewrite L1 in Q1. rewrite L2 in Q2.
  rewrite (small_mod _ RC) in Q1. rewrite adr_mod in Q2. unfold of_object in Q1, Q2. cbn [fst] in Q1, Q2. rewrite Q1, Q2. apply words_read; [exact RC|reflexivity|reflexivity|].
  apply Forall_map. eapply Forall_impl; [|exact (lk_arr e LK (a, (k, j)))]. intros x. apply ref_range.
Qed.
Lemma glob_read : forall m a, In (m, a) (kind_arrays KNamespace) -> array_here s img s DatabaseMem ("global_namespace" :: m) = map plc (x_global e a).
Proof.
  intros m a I. unfold array_here. assert (D : In ("global_namespace" :: m, SHeap (Glob a)) db_arrays). { unfold db_arrays. apply in_or_app. right. apply in_map_iff. exists (m, a). auto. }
  destruct (db_array_read _ _ D) as [Q1 Q2]. rewrite Q1, Q2. apply words_read; [right; left; apply in_map_iff; eexists; split; [|exact D]; reflexivity|reflexivity|reflexivity|].
  apply Forall_map. eapply Forall_impl; [|exact (lk_global e LK a)]. intros x V. pose proof (place_good e heap pad fb LK HO s x V). lia.
Qed.
Lemma types_read : array_here s img s DatabaseMem ["type_primitives"] = map rfa (map snd (x_types e)).
Proof.
  unfold array_here. assert (D : In (["type_primitives"], STypes) db_arrays) by (cbn; tauto). destruct (db_array_read _ _ D) as [Q1 Q2]. cbn [app] in *. rewrite Q1, Q2.
  apply words_read; [right; left; apply in_map_iff; eexists; split; [|exact D]; reflexivity|reflexivity|cbn [elems]; rewrite map_map, map_map; reflexivity|].
  apply Forall_map. rewrite (lk_types e LK). apply Forall_map. apply Forall_forall. intros l Hl. apply (ref_range (ExportModel.Ptr l)). cbn [ref_ok].
  assert (G : forall k, In l (locs (x_rows e) k) -> valid e l). { intros k Hk. unfold locs in Hk. apply in_map_iff in Hk. destruct Hk as (j & <- & Hj). apply in_seq in Hj. unfold valid. cbn [fst snd]. lia. }
  rewrite !in_app_iff in Hl. destruct Hl as [Hl|[Hl|[Hl|Hl]]]; eapply G; exact Hl.
Qed.
End Seen.
