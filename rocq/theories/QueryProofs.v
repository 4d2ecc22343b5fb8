(* Look-ups in the memory of a loaded database, in terms of the source database. *)
From Coq Require Import String Permutation Sorted.
From Verif Require Import Base BaseProofs Text Maps HashModel HashSpec HashProofs SearchModel RuntimeModel DatabaseModel NamesProofs MergeSpec MergeProofs ExportModel ExportSpec ExportProofs ExportTablesProofs ExportParentProofs ExportLinkProofs ExportMainProofs ExportWitness ExportProps.
From Verif Require Import ImageLayout ImageModel ImageSpec LaidModel LaidSpec LaidProofs LaidImageProofs LaidLinkProofs LaidReadProofs LaidMemProofs QueryModel QueryViewProofs QueryLoadProofs QuerySearchProofs.
#[local] Open Scope string_scope.
#[local] Open Scope Z_scope.
#[local] Open Scope list_scope.
Local Opaque sample.

Lemma load_number : forall base mem a n v, load base mem a n = Ok v -> number base mem a n = v.
Proof.
  intros base mem a n v H. unfold load in H. apply obind_ok in H. destruct H as (bs & H1 & H2). apply rd_bytes_ok in H1. destruct H1 as (_ & _ & _ & ->). unfold number. congruence.
Qed.
Definition kind_array_check (k : kind) : bool :=
  forallb (fun x => match fst x with
                    | [m] => match walk (Struct (struct_of k)) [m] with
                             | Some (o, Arr _) => pair_eqb (leaf_at (Struct (struct_of k)) [m; "size"]) (o + array_size_ofs) 4 && pair_eqb (leaf_at (Struct (struct_of k)) [m; "data"]) (o + array_ofs) 8
                             | _ => false
                             end
                    | _ => false
                    end) (kind_arrays k).
Lemma kind_array_ofs : forall k m a o u, In ([m], a) (kind_arrays k) -> walk (Struct (struct_of k)) [m] = Some (o, u) ->
  In ([m; "size"], o + array_size_ofs, 4) (leaves (Struct (struct_of k))) /\ In ([m; "data"], o + array_ofs, 8) (leaves (Struct (struct_of k))).
Proof.
  intros k m a o u I W. assert (C : kind_array_check k = true) by (destruct k; vm_compute; reflexivity). unfold kind_array_check in C. rewrite forallb_forall in C. specialize (C _ I). cbn [fst] in C. rewrite W in C. destruct u; try discriminate C.
  apply andb_prop in C. destruct C as [C1 C2]. split; apply leaf_at_in; assumption.
Qed.
Definition global_array_check : bool :=
  forallb (fun x => match fst x with
                    | [m] => match walk (Struct Namespace) [m] with
                             | Some (o, Arr _) => pair_eqb (leaf_at (Struct DatabaseMem) ["global_namespace"; m; "size"]) (OffsetOf DatabaseMem "global_namespace" + o + array_size_ofs) 4 &&
                                                  pair_eqb (leaf_at (Struct DatabaseMem) ["global_namespace"; m; "data"]) (OffsetOf DatabaseMem "global_namespace" + o + array_ofs) 8
                             | _ => false
                             end
                    | _ => false
                    end) (kind_arrays KNamespace).
Lemma global_array_ofs : forall m a o u, In ([m], a) (kind_arrays KNamespace) -> walk (Struct Namespace) [m] = Some (o, u) ->
  In (["global_namespace"; m; "size"], OffsetOf DatabaseMem "global_namespace" + o + array_size_ofs, 4) (leaves (Struct DatabaseMem)) /\
  In (["global_namespace"; m; "data"], OffsetOf DatabaseMem "global_namespace" + o + array_ofs, 8) (leaves (Struct DatabaseMem)).
Proof.
  intros m a o u I W. assert (C : global_array_check = true) by (vm_compute; reflexivity). unfold global_array_check in C. rewrite forallb_forall in C. specialize (C _ I). cbn [fst] in C. rewrite W in C. destruct u; try discriminate C.
  apply andb_prop in C. destruct C as [C1 C2]. split; apply leaf_at_in; assumption.
Qed.

Section Any.
Variables (L : layout) (fuel : nat) (db : database).
Hypothesis X : exportable L fuel db.
Notation V l := (In l (places db (fst l))).
Section Mem.
Variables (e : export) (heap : list (tag * list Z)) (pad fb base : Z).
Hypothesis BE : BuildCppExport L fuel db = Ok e.
Hypothesis F : facts L db e.
Hypothesis LK : linked e.
Hypothesis HO : heap_ok e heap.
Hypothesis S0 : 0 < base.
Hypothesis S1 : base + image_size e heap < 2 ^ 64.
Variables (this to options : Z) (mem : list Z).
Hypothesis VW : view e heap pad fb base (finished e heap fb base this to options) mem.
Notation fin := (finished e heap fb base this to options).
Notation cel := (at_cell e heap fb base).
Notation plc := (LaidModel.place e heap base).
Notation rows k := (length (x_rows e k)).

Lemma fin_db : db_kept fin.
Proof. intros p. reflexivity. Qed.
Lemma fin_none : forall t j p, p <> ["database"] -> p <> ["address"] -> fin t j p = None.
Proof. intros t j p N1 N2. unfold finished, done. destruct t; try reflexivity. destruct (list_eq_dec string_dec p ["database"]); [contradiction|]. destruct (list_eq_dec string_dec p ["address"]); [contradiction|reflexivity]. Qed.
Lemma get_view : forall t j p pos w z s a lo, cel t j p pos w z -> In (p, lo, w) (leaves (Struct s)) -> a + lo = base + pos -> get base mem a s p = now fin t j p z mod 256 ^ w.
Proof.
  intros t j p pos w z s a lo C I A. destruct (walk_leaf s p lo w I) as (u & W & SZ). unfold get. rewrite W, SZ, A. apply load_number. exact (view_load e heap pad fb base LK HO _ mem _ _ _ _ _ _ VW C).
Qed.
Lemma db_view : forall p lo w, In (p, lo, w) (leaves (Struct DatabaseMem)) -> get base mem base DatabaseMem p = get base (image e heap pad fb base) base DatabaseMem p.
Proof.
  intros p lo w I. rewrite (get_view SDb 0 p lo w _ DatabaseMem base lo (db_cell e heap fb base p lo w I) I eq_refl). rewrite (read_db e heap pad fb base LK HO p lo w I). reflexivity.
Qed.
Lemma object_view : forall l, object base mem l = plc l.
Proof.
  intros [k j]. rewrite <- (object_place e heap pad fb base LK HO S0 S1). unfold object. f_equal. destruct (db_array_ofs _ _ (table_member k)) as [_ I]. exact (db_view _ _ _ I).
Qed.
Lemma objects_view : forall ls, map plc ls = map (object base mem) ls.
Proof. intros ls. apply map_ext. intros l. symmetry. apply object_view. Qed.
Lemma member_view : forall k j r p lo w, nth_error (x_rows e k) j = Some r -> In (p, lo, w) (leaves (Struct (struct_of k))) ->
  of_object base mem (k, j) p = now fin (STable k) j p (lookup (prim_values e heap base k (j, r)) p) mod 256 ^ w.
Proof.
  intros k j r p lo w E I. destruct (row_cell e heap fb base LK HO k j r p lo w E I) as (pos & C & P). unfold of_object. rewrite object_view. cbn [fst]. change (record_of k) with (struct_of k). apply (get_view _ _ _ pos w _ _ _ lo C I). symmetry. exact P.
Qed.
Lemma hash_at_row : forall l, V l -> exists r, nth_error (x_rows e (fst l)) (snd l) = Some r /\ r_hash r = hash_at db l /\ 0 <= hash_at db l < 2 ^ 32.
Proof.
  intros l H. destruct (valid_at db l H) as [i I]. destruct (the_row L fuel db X e BE l i I) as (r & off & E & H1 & _). exists r. assert (Q : hash_at db l = n_hash (it_name i)) by (unfold hash_at; rewrite I; reflexivity). split; [exact E|]. split; [congruence|].
  rewrite Q. apply (hash_small L fuel db X (fst l)). unfold at_ in I. exact (nth_error_In _ _ I).
Qed.
Lemma hash_view : forall l, V l -> GetPrimitiveHash base mem (plc l) = Ok (hash_at db l).
Proof.
  intros [k j] H. destruct (hash_at_row _ H) as (r & E & HR & RG). cbn [fst snd] in E. destruct (row_cell e heap fb base LK HO k j r _ _ _ E (hash_leaf k)) as (pos & C & P). unfold GetPrimitiveHash.
  replace (plc (k, j) + OffsetOf Primitive "name" + OffsetOf Name "hash") with (base + pos) by lia. rewrite (view_load e heap pad fb base LK HO _ mem _ _ _ _ _ _ VW C). unfold now. cbn [finished done].
  rewrite (lookup_nodup _ _ (r_hash r) (prim_keys e heap base k (j, r))) by (right; left; reflexivity). rewrite HR. f_equal. apply Z.mod_small. exact RG.
Qed.
Lemma place_at : forall k j, (j < length (items db k))%nat -> V (k, j).
Proof. intros k j J. apply places_In. auto. Qed.
Lemma row_place : forall k j r, nth_error (x_rows e k) j = Some r -> V (k, j) /\ r_hash r = hash_at db (k, j).
Proof.
  intros k j r E. assert (H : V (k, j)) by (apply place_at; rewrite <- (rows_length L db e F); apply nth_error_Some; congruence). split; [exact H|]. destruct (hash_at_row _ H) as (r' & E' & Q & _). cbn [fst snd] in E'. congruence.
Qed.
Lemma rows_sorted : forall k, StronglySorted Z.le (map r_hash (x_rows e k)).
Proof.
  intros k. pose proof (proj1 (proj2 (proj2 (exports_of _ _ _ e _ (C43_sorted L fuel db X) BE))) k) as S. induction S as [|r l S IH FA]; cbn [map]; [constructor|]. constructor; [exact IH|]. rewrite Forall_map. exact FA.
Qed.
Lemma capacity : CAPACITY <= 2 ^ 30.
Proof. unfold CAPACITY. lia. Qed.
(* the tables *)
Section Table.
Variable k : kind.
Lemma t_size : array_size base mem (array_at base (table_of k)) = Ok (zlen (map r_hash (x_rows e k))).
Proof. rewrite (proj1 (array_view e heap pad fb base LK HO S0 S1 _ mem _ _ VW fin_db (table_member k))). cbn [live]. unfold zlen. rewrite map_length. reflexivity. Qed.
Lemma t_data : array_data base mem (array_at base (table_of k)) = Ok (plc (k, 0%nat)).
Proof. rewrite (proj2 (array_view e heap pad fb base LK HO S0 S1 _ mem _ _ VW fin_db (table_member k))). unfold LaidModel.place. cbn [fst snd]. f_equal. lia. Qed.
Lemma t_step : forall j, plc (k, 0%nat) + Z.of_nat j * size_of (Struct (struct_of k)) = plc (k, j).
Proof. intros j. unfold LaidModel.place. cbn [fst snd]. lia. Qed.
Lemma t_elem : forall j h, nth_error (map r_hash (x_rows e k)) j = Some h -> GetPrimitiveHash base mem (plc (k, 0%nat) + Z.of_nat j * size_of (Struct (struct_of k))) = Ok h.
Proof.
  intros j h H. rewrite t_step. rewrite nth_error_map in H. destruct (nth_error (x_rows e k) j) as [r|] eqn:E; [|discriminate H]. cbn [option_map] in H. destruct (row_place k j r E) as [P Q]. rewrite (hash_view _ P). congruence.
Qed.
Lemma t_small : zlen (map r_hash (x_rows e k)) <= 2 ^ 30.
Proof. unfold zlen. rewrite map_length. pose proof (rows_small e heap pad fb LK HO k). pose proof capacity. lia. Qed.
Lemma table_find : forall h, exists p, get_primitive base mem (table_of k) (struct_of k) h = Ok p /\
  ((exists l, In l (places db k) /\ hash_at db l = h /\ p = object base mem l) \/ (p = 0 /\ forall l, In l (places db k) -> hash_at db l <> h)).
Proof.
  intros h. unfold get_primitive. cbv zeta. destruct (search_ok _ _ _ _ _ _ _ t_size t_data t_elem (rows_sorted k) t_small h) as (r & E & [[-> N]|(NR & j & J & EL)]); rewrite E; cbn [obind].
  - exists 0. split; [reflexivity|]. right. split; [reflexivity|]. intros l I Q. apply N. pose proof (proj1 (proj1 (places_In _ _ _) I)) as K. destruct l as [k' j]. cbn [fst] in K. subst k'. destruct (hash_at_row (k, j) I) as (r & E' & HR & _). cbn [fst snd] in E'.
    apply in_map_iff. exists r. split; [congruence|]. exact (nth_error_In _ _ E').
  - replace (r =? -1) with false by lia. rewrite EL, t_step. exists (plc (k, j)). split; [reflexivity|]. left. exists (k, j). rewrite nth_error_map in J. destruct (nth_error (x_rows e k) j) as [x|] eqn:Q; [|discriminate J]. cbn [option_map] in J.
    destruct (row_place k j x Q) as [P HR]. split; [exact P|]. split; [congruence|]. symmetry. apply object_view.
Qed.
Lemma table_overloads : forall h, exists first last, (do index <- search (GetPrimitiveHash base mem) base mem (array_at base (table_of k)) (size_of (Struct (struct_of k))) h; if index =? -1 then Ok (0, 0)
    else do n <- array_size base mem (array_at base (table_of k)); SearchNeighbours n (hash_of_element (GetPrimitiveHash base mem) base mem (array_at base (table_of k)) (size_of (Struct (struct_of k)))) h index) = Ok (first, last) /\
  0 <= first <= last /\ last <= zlen (items db k) /\ (forall j, V (k, j) -> (hash_at db (k, j) = h <-> first <= Z.of_nat j < last)) /\ (first = last -> first = 0 /\ last = 0).
Proof.
  intros h. destruct (overloaded_ok _ _ _ _ _ _ _ t_size t_data t_elem (rows_sorted k) t_small h) as (first & last & E & R1 & R2 & R3 & R4). exists first, last. split; [exact E|]. split; [exact R1|]. split; [unfold zlen in *; rewrite map_length, (rows_length L db e F) in R2; exact R2|].
  split; [|exact R4]. intros j H. apply R3. destruct (hash_at_row _ H) as (r & Q & HR & _). cbn [fst snd] in Q. rewrite nth_error_map, Q. cbn [option_map]. congruence.
Qed.
End Table.

(* arrays of pointers *)
Lemma word_view : forall t zs, reach e t -> type_of t = Ptr "" -> (forall k, t <> STable k) -> elems e heap fb base t = map single zs -> Forall (fun z => 0 <= z < 2 ^ 64) zs ->
  forall j z, nth_error zs j = Some z -> load base mem (address e heap base t + Z.of_nat j * 8) 8 = Ok z.
Proof.
  intros t zs R T NT E B j z Q. assert (N : nth_error (elems e heap fb base t) j = Some (single z)) by (rewrite E; apply map_nth_error; exact Q).
  assert (LV : 0 < live e t). { rewrite <- (elems_live e heap fb LK base t). unfold zlen. assert (j < length (elems e heap fb base t))%nat by (apply nth_error_Some; congruence). lia. }
  destruct (reach_has e heap fb LK HO t R LV) as [o O]. rewrite (adr_has e heap base _ _ O).
  assert (C : cel t j [] (o + Z.of_nat j * 8) 8 z). { exists o, 0, (single z). split; [exact O|]. split; [exact N|]. rewrite T. split; [left; reflexivity|]. split; [change (size_of (Ptr "")) with 8; lia|reflexivity]. }
  replace (base + o + Z.of_nat j * 8) with (base + (o + Z.of_nat j * 8)) by lia. rewrite (view_load e heap pad fb base LK HO _ mem _ _ _ _ _ _ VW C). unfold now, finished, done. destruct t as [| | |k| | | |hk|]; try (exfalso; exact (NT k eq_refl)); (f_equal; apply Z.mod_small; rewrite Forall_forall in B; apply B; exact (nth_error_In _ _ Q)).
Qed.
(* an array at address a that points at ls *)
Definition points (a : Z) (ls : list loc) : Prop :=
  array_size base mem a = Ok (zlen ls) /\ exists d, array_data base mem a = Ok d /\ forall j l, nth_error ls j = Some l -> load base mem (d + Z.of_nat j * 8) 8 = Ok (plc l).
Lemma points_find : forall a ls, points a ls -> (forall l, In l ls -> V l) -> by_hash db ls -> zlen ls <= 2 ^ 30 ->
  (forall h, exists p, FindPrimitiveAt base mem a h = Ok p /\ ((exists l, In l ls /\ hash_at db l = h /\ p = object base mem l) \/ (p = 0 /\ forall l, In l ls -> hash_at db l <> h))) /\
  (forall h, exists first last, FindOverloadedAt base mem a h = Ok (first, last) /\ 0 <= first <= last /\ last <= zlen ls /\
     (forall j l, nth_error ls j = Some l -> (hash_at db l = h <-> first <= Z.of_nat j < last)) /\ (first = last -> first = 0 /\ last = 0)).
Proof.
  intros a ls (SZ & d & DT & W) VA SO SM. set (hs := map (hash_at db) ls).
  assert (SZ' : array_size base mem a = Ok (zlen hs)) by (rewrite SZ; unfold zlen, hs; rewrite map_length; reflexivity).
  assert (EL : forall j h, nth_error hs j = Some h -> GetPrimitivePtrHash base mem (d + Z.of_nat j * 8) = Ok h).
  { intros j h H. unfold hs in H. rewrite nth_error_map in H. destruct (nth_error ls j) as [l|] eqn:E; [|discriminate H]. cbn [option_map] in H. unfold GetPrimitivePtrHash. rewrite (W j l E). cbn [obind]. rewrite (hash_view l (VA l (nth_error_In _ _ E))). congruence. }
  assert (SO' : StronglySorted Z.le hs). { unfold hs. clear -SO. unfold by_hash in SO. induction SO as [|x l S IH FA]; cbn [map]; [constructor|]. constructor; [exact IH|]. rewrite Forall_map. exact FA. }
  assert (SM' : zlen hs <= 2 ^ 30) by (unfold zlen, hs in *; rewrite map_length; exact SM). split; intros h.
  - unfold FindPrimitiveAt. destruct (search_ok _ _ _ _ _ _ _ SZ' DT EL SO' SM' h) as (r & E & [[-> N]|(NR & j & J & Q)]); rewrite E; cbn [obind].
    + exists 0. split; [reflexivity|]. right. split; [reflexivity|]. intros l I Q. apply N. unfold hs. apply in_map_iff. eauto.
    + replace (r =? -1) with false by lia. rewrite Q. cbn [obind]. unfold hs in J. rewrite nth_error_map in J. destruct (nth_error ls j) as [l|] eqn:EJ; [|discriminate J]. cbn [option_map] in J. rewrite (W j l EJ). exists (plc l). split; [reflexivity|]. left. exists l.
      split; [exact (nth_error_In _ _ EJ)|]. split; [congruence|]. symmetry. apply object_view.
  - unfold FindOverloadedAt. destruct (overloaded_ok _ _ _ _ _ _ _ SZ' DT EL SO' SM' h) as (first & last & E & R1 & R2 & R3 & R4). exists first, last. split; [exact E|]. split; [exact R1|]. split; [unfold zlen, hs in *; rewrite map_length in R2; exact R2|]. split; [|exact R4].
    intros j l Q. apply R3. unfold hs. rewrite nth_error_map, Q. reflexivity.
Qed.
Lemma places_valid : forall l, V l -> valid e l.
Proof. intros l H. apply (valid_iff L db e F). exact H. Qed.
Lemma plc_ok : forall ls, (forall l, In l ls -> V l) -> Forall (fun z => 0 <= z < 2 ^ 64) (map plc ls).
Proof. intros ls H. apply Forall_map. apply Forall_forall. intros l I. pose proof (place_good e heap pad fb LK HO base l (places_valid l (H l I))). lia. Qed.
(* allocations of pointers *)
Lemma heap_points : forall t ls a, reach e t -> type_of t = Ptr "" -> (forall k, t <> STable k) -> elems e heap fb base t = map single (map plc ls) -> (forall l, In l ls -> V l) ->
  array_size base mem a = Ok (live e t) -> array_data base mem a = Ok (address e heap base t) -> points a ls /\ zlen ls <= 2 ^ 30.
Proof.
  intros t ls a R T NT E VA Q1 Q2. assert (ZL : live e t = zlen ls) by (rewrite <- (elems_live e heap fb LK base t), E; unfold zlen; rewrite !map_length; reflexivity). split.
  - split; [rewrite Q1, ZL; reflexivity|]. exists (address e heap base t). split; [exact Q2|]. intros j l H. apply (word_view t (map plc ls) R T NT E (plc_ok ls VA)). rewrite nth_error_map, H. reflexivity.
  - rewrite <- ZL. pose proof (live_small e heap pad fb LK HO t R). pose proof capacity. lia.
Qed.
Lemma points_here : forall a s m ls lo lo', points (a + lo) ls -> In (m ++ ["size"], lo', 4) (leaves (Struct s)) -> lo' = lo + array_size_ofs -> In (m ++ ["data"], lo + array_ofs, 8) (leaves (Struct s)) ->
  array_here base mem a s m = map (object base mem) ls.
Proof.
  intros a s m ls lo lo' (SZ & d & DT & W) I1 -> I2. unfold array_here, get. destruct (walk_leaf _ _ _ _ I1) as (u1 & W1 & Z1). destruct (walk_leaf _ _ _ _ I2) as (u2 & W2 & Z2). rewrite W1, W2, Z1, Z2.
  unfold array_size in SZ. unfold array_data in DT. rewrite <- Z.add_assoc in SZ, DT. rewrite (load_number _ _ _ _ _ SZ), (load_number _ _ _ _ _ DT). unfold zlen. rewrite Nat2Z.id. apply map_seq. intros j l H. rewrite object_view. apply load_number. rewrite Z.mul_comm. exact (W j l H).
Qed.
Lemma types_points : exists ls, points (array_at base "type_primitives") ls /\ zlen ls <= 2 ^ 30 /\ Permutation ls (type_places db) /\ by_hash db ls.
Proof.
  destruct (proj1 (proj2 (exports_of _ _ _ e _ (C43_sorted L fuel db X) BE))) as (ls & E & P & S). exists ls. assert (D : In (["type_primitives"], STypes) db_arrays) by (cbn; tauto).
  destruct (array_view e heap pad fb base LK HO S0 S1 _ mem _ _ VW fin_db D) as [Q1 Q2].
  assert (VA : forall l, In l ls -> V l).
  { intros l I. apply (Permutation_in l P) in I. unfold type_places in I. rewrite !in_app_iff in I. destruct I as [I|[I|[I|I]]]; pose proof (proj1 (proj1 (places_In _ _ _) I)) as K; rewrite K; exact I. }
  destruct (heap_points STypes ls (array_at base "type_primitives")) as [H1 H2]; try assumption; try reflexivity; try discriminate.
  - right. left. apply in_map_iff. eexists. split; [|exact D]. reflexivity.
  - cbn [elems]. rewrite E, !map_map. apply map_ext. intros l. reflexivity.
  - auto.
Qed.
Lemma cell_points : forall k j a lo u ls, V (k, j) -> walk (Struct (record_of k)) [array_name a] = Some (lo, Arr u) -> x_arr e (a, (k, j)) = map ExportModel.Ptr ls -> (forall l, In l ls -> V l) ->
  points (object base mem (k, j) + lo) ls /\ zlen ls <= 2 ^ 30 /\ array_here base mem (object base mem (k, j)) (record_of k) [array_name a] = map (object base mem) ls.
Proof.
  intros k j a lo u ls H W E VA. assert (HA : has_array k a) by (exists lo, u; exact W). pose proof (has_member k a HA) as M. change (record_of k) with (struct_of k) in *. destruct (kind_array_ofs k _ a lo _ M W) as [I1 I2].
  destruct (hash_at_row _ H) as (r & ER & _). cbn [fst snd] in ER. assert (J : (j < rows k)%nat) by (apply nth_error_Some; congruence). set (t := SHeap (Cell (a, (k, j)))).
  assert (RC : reach e t) by (right; right; exists a, k, j; split; [reflexivity|]; split; [apply in_map_iff; exists ([array_name a], a); auto|exact J]).
  destruct (cell_lookup e heap base k j r _ a M) as [L1 L2].
  assert (Q1 : array_size base mem (object base mem (k, j) + lo) = Ok (live e t)).
  { destruct (row_cell e heap fb base LK HO k j r _ _ _ ER I1) as (pos & C & P). unfold array_size. rewrite object_view. replace (plc (k, j) + lo + array_size_ofs) with (base + pos) by lia. rewrite (view_load e heap pad fb base LK HO _ mem _ _ _ _ _ _ VW C). unfold now. 
    assert (FN : fin (STable k) j [array_name a; "size"] = None) by (apply fin_none; discriminate). rewrite FN. change [array_name a; "size"] with ([array_name a] ++ ["size"]). rewrite L1. f_equal. exact (small_mod e heap pad fb LK HO t RC). }
  assert (Q2 : array_data base mem (object base mem (k, j) + lo) = Ok (address e heap base t)).
  { destruct (row_cell e heap fb base LK HO k j r _ _ _ ER I2) as (pos & C & P). unfold array_data. rewrite object_view. replace (plc (k, j) + lo + array_ofs) with (base + pos) by lia. rewrite (view_load e heap pad fb base LK HO _ mem _ _ _ _ _ _ VW C). unfold now.
    assert (FN : fin (STable k) j [array_name a; "data"] = None) by (apply fin_none; discriminate). rewrite FN. change [array_name a; "data"] with ([array_name a] ++ ["data"]). rewrite L2. f_equal. exact (adr_mod e heap pad fb base LK HO S0 S1 t). }
  destruct (heap_points t ls (object base mem (k, j) + lo) RC eq_refl ltac:(discriminate)) as [H1 H2]; try assumption.
  - unfold t. cbn [elems heap_words]. rewrite E, !map_map. apply map_ext. intros l. reflexivity.
  - split; [exact H1|]. split; [exact H2|]. exact (points_here _ _ [array_name a] ls lo _ H1 I1 eq_refl I2).
Qed.
Lemma children_points : forall o a lo u, a <> ABases -> V o -> walk (Struct (record_of (fst o))) [array_name a] = Some (lo, Arr u) ->
  exists ls, points (object base mem o + lo) ls /\ zlen ls <= 2 ^ 30 /\ array_here base mem (object base mem o) (record_of (fst o)) [array_name a] = map (object base mem) ls /\ NoDup ls /\ by_hash db ls /\
    forall c, In c ls <-> V c /\ owner db c = Some o /\ array_for (fst o) (fst c) = Some a /\ kept db a o c = true.
Proof.
  intros [k j] a lo u NB H W. cbn [fst] in *. destruct (exports_of _ _ _ e _ (arrays_exact L fuel db X) BE a (k, j) NB) as (ls & E & N1 & N2 & N3). exists ls.
  destruct (cell_points k j a lo u ls H W E) as (H1 & H2 & H3); [intros l I; apply N3; exact I|]. auto 7.
Qed.
Lemma global_points : forall a k lo u, global_kind a = Some k -> walk (Struct Namespace) [array_name a] = Some (lo, Arr u) ->
  exists ls, points (GetGlobalNamespace base + lo) ls /\ zlen ls <= 2 ^ 30 /\ array_here base mem base DatabaseMem ["global_namespace"; array_name a] = map (object base mem) ls /\ NoDup ls /\ by_hash db ls /\
    forall c, In c ls <-> In c (places db k) /\ parent_at db c = 0.
Proof.
  intros a k lo u G W. assert (M : In ([array_name a], a) (kind_arrays KNamespace)) by (destruct a; first [discriminate G | cbn; tauto]). destruct (global_array_ofs _ a lo _ M W) as [I1 I2].
  destruct (exports_of _ _ _ e _ (C42_global L fuel db X) BE a k G) as (N1 & N2 & N3). exists (x_global e a). set (t := SHeap (Glob a)).
  assert (D : In (["global_namespace"; array_name a], t) db_arrays). { unfold db_arrays. apply in_or_app. right. apply in_map_iff. exists ([array_name a], a). auto. }
  assert (RC : reach e t) by (right; left; apply in_map_iff; eexists; split; [|exact D]; reflexivity). destruct (db_lookup e heap fb base _ _ D) as [L1 L2].
  assert (Q1 : array_size base mem (GetGlobalNamespace base + lo) = Ok (live e t)).
  { unfold array_size, GetGlobalNamespace. replace (base + OffsetOf DatabaseMem "global_namespace" + lo + array_size_ofs) with (base + (OffsetOf DatabaseMem "global_namespace" + lo + array_size_ofs)) by lia.
    rewrite (view_load e heap pad fb base LK HO _ mem _ _ _ _ _ _ VW (db_cell e heap fb base _ _ _ I1)). unfold now. rewrite fin_db. cbn [app] in L1. rewrite L1. f_equal. exact (small_mod e heap pad fb LK HO t RC). }
  assert (Q2 : array_data base mem (GetGlobalNamespace base + lo) = Ok (address e heap base t)).
  { unfold array_data, GetGlobalNamespace. replace (base + OffsetOf DatabaseMem "global_namespace" + lo + array_ofs) with (base + (OffsetOf DatabaseMem "global_namespace" + lo + array_ofs)) by lia.
    rewrite (view_load e heap pad fb base LK HO _ mem _ _ _ _ _ _ VW (db_cell e heap fb base _ _ _ I2)). unfold now. rewrite fin_db. cbn [app] in L2. rewrite L2. f_equal. exact (adr_mod e heap pad fb base LK HO S0 S1 t). }
  assert (VA : forall l, In l (x_global e a) -> V l) by (intros l I; apply N3 in I; destruct I as [I _]; pose proof (proj1 (proj1 (places_In _ _ _) I)) as K; rewrite K; exact I).
  destruct (heap_points t (x_global e a) (GetGlobalNamespace base + lo) RC eq_refl ltac:(discriminate)) as [H1 H2]; try assumption; [reflexivity|].
  split; [exact H1|]. split; [exact H2|]. split; [|auto]. unfold GetGlobalNamespace in H1. rewrite <- Z.add_assoc in H1. exact (points_here base DatabaseMem ["global_namespace"; array_name a] _ (OffsetOf DatabaseMem "global_namespace" + lo) _ H1 I1 eq_refl I2).
Qed.
(* ---- what Load changed ---- *)
Lemma owner_read : forall l, V l -> of_object base mem l ["database"] = this mod 2 ^ 64.
Proof.
  intros [k j] H. destruct (hash_at_row _ H) as (r & E & _). cbn [fst snd] in E. rewrite (member_view k j r _ _ _ E (database_leaf k)). unfold now, finished, done. destruct (list_eq_dec string_dec ["database"] ["database"]); [|congruence].
  assert (J : (j < rows k)%nat) by (apply nth_error_Some; congruence). replace (j <? rows k)%nat with true by (symmetry; apply Nat.ltb_lt; exact J). reflexivity.
Qed.
Lemma address_read : forall j i, at_ db (KFunction, j) = Some i -> of_object base mem (KFunction, j) ["address"] =
  let a := nth 0 (it_data i) 0 mod 2 ^ 64 in if (Z.land options 1 =? 0) && negb (a =? 0) then (a - fb + to) mod 2 ^ 64 else a.
Proof.
  intros j i H. destruct (the_row L fuel db X e BE _ _ H) as (r & off & E & _ & D & _). cbn [fst snd] in E. rewrite (member_view KFunction j r _ _ _ E address_leaf). change (256 ^ 8) with (2 ^ 64).
  assert (LV : lookup (prim_values e heap base KFunction (j, r)) ["address"] = nth 0 (it_data i) 0) by (rewrite <- D; apply (lookup_nodup _ _ _ (prim_keys e heap base KFunction (j, r))); own).
  assert (J : (j < rows KFunction)%nat) by (apply nth_error_Some; congruence). rewrite LV. unfold now, finished, done. destruct (list_eq_dec string_dec ["address"] ["database"]); [discriminate|]. destruct (list_eq_dec string_dec ["address"] ["address"]); [|congruence]. cbv zeta. cbn [kind_eqb andb].
  destruct (Z.land options 1 =? 0); cbn [andb].
  - replace (j <? rows KFunction)%nat with true by (symmetry; apply Nat.ltb_lt; exact J). unfold new_address, old_address. rewrite E, LV. unfold rebase_address. destruct (nth 0 (it_data i) 0 mod 2 ^ 64 =? 0) eqn:Q; cbn [negb]; [apply Z.mod_mod; lia|].
    unfold u64. change 18446744073709551616 with (2 ^ 64). rewrite Z.mod_mod by lia. rewrite Z.add_mod_idemp_l by lia. rewrite <- (Z.add_mod_idemp_l (nth 0 (it_data i) 0 mod 2 ^ 64 - fb mod 2 ^ 64)) by lia. rewrite Zminus_mod_idemp_r. rewrite Z.add_mod_idemp_l by lia. reflexivity.
  - replace (j <? 0)%nat with false by (symmetry; apply Nat.ltb_ge; lia). reflexivity.
Qed.
Lemma bytes_kept : forall x, base <= x < base + zlen mem ->
  (forall l, V l -> ~ (object base mem l + OffsetOf Primitive "database" <= x < object base mem l + OffsetOf Primitive "database" + 8)) ->
  (forall j, V (KFunction, j) -> ~ (object base mem (KFunction, j) + OffsetOf Function_ "address" <= x < object base mem (KFunction, j) + OffsetOf Function_ "address" + 8)) ->
  number base mem x 1 = number base (image e heap pad fb base) x 1.
Proof.
  intros x XR N1 N2. unfold number. f_equal. apply (view_elsewhere e heap pad fb base fin mem); [exact VW|lia|lia|]. intros t j p pos w z C NN.
  unfold finished, done in NN. destruct t as [| | |k| | | |h|]; try congruence. pose proof C as (o & lo & v & O & EL & I & EP & _). cbn [type_of] in I.
  assert (J : (j < rows k)%nat). { assert (Q : (j < length (elems e heap fb base (STable k)))%nat) by (apply nth_error_Some; congruence). pose proof (elems_live e heap fb LK base (STable k)) as QL. cbn [live] in QL. unfold zlen in QL. lia. }
  assert (H : V (k, j)) by (apply place_at; rewrite <- (rows_length L db e F); exact J). assert (PL : base + pos = plc (k, j) + lo) by (rewrite EP; unfold LaidModel.place; cbn [fst snd type_of]; rewrite (adr_has e heap base _ _ O); lia).
  destruct (list_eq_dec string_dec p ["database"]) as [->|].
  - destruct (leaf_unique (STable k) _ _ _ _ _ I (database_leaf k)) as [-> ->]. specialize (N1 _ H). rewrite object_view in N1. lia.
  - destruct (list_eq_dec string_dec p ["address"]) as [->|]; [|congruence]. destruct (kind_eqb_spec k KFunction) as [->|]; [|cbn [andb] in NN; congruence]. destruct (leaf_unique (STable KFunction) _ _ _ _ _ I address_leaf) as [-> ->]. specialize (N2 _ H). rewrite object_view in N2. lia.
Qed.
(* ---- names ---- *)
Lemma names_small : zlen (x_names e) <= 2 ^ 30.
Proof.
  assert (D : In (["names"], SNames) db_arrays) by (cbn; tauto). assert (R : reach e SNames) by (right; left; apply in_map_iff; eexists; split; [|exact D]; reflexivity). pose proof (live_small e heap pad fb LK HO _ R) as Q. cbn [live] in Q. pose proof capacity. lia.
Qed.
Lemma text_view : forall t data off txt, In t [SNameText; SAttrText] -> elems e heap fb base t = map single data -> text_at_offset data off txt -> Forall is_byte txt -> text_here base mem (address e heap base t + off) txt.
Proof.
  intros t data off txt T D O B. pose proof (text_read e heap pad fb base LK HO t data off txt T D O B) as [TR1 TR2]. split; [exact TR1|]. rewrite <- TR2. destruct O as (O0 & rest & R).
  assert (FX : In t fixed_tags) by (destruct T as [<-|[<-|[]]]; cbn; tauto). destruct (fixed_has e heap fb LK HO t FX) as [o O]. rewrite (adr_has e heap base _ _ O). destruct (ofs_range e heap pad fb LK HO t o O) as [P1 P2].
  assert (LN : off + (zlen txt + 1) <= live e t). { rewrite <- (elems_live e heap fb LK base t), D. unfold zlen. rewrite map_length. assert (Q : length (skipn (Z.to_nat off) data) = length (txt ++ 0 :: rest)) by (rewrite R; reflexivity). rewrite skipn_length, app_length in Q. cbn [length] in Q. lia. }
  assert (SZ : size_of (type_of t) = 1) by (destruct T as [<-|[<-|[]]]; reflexivity). rewrite SZ in P2.
  apply (view_elsewhere e heap pad fb base fin mem); [exact VW|lia|pose proof (zlen_nonneg _ txt); lia|]. intros t' j p pos w z C NN. unfold finished, done in NN. destruct t' as [| | |k| | | |h|]; try congruence. clear NN. pose proof C as (o' & lo & v & O' & EL & I & EP & _).
  assert (J : Z.of_nat j < live e (STable k)). { rewrite <- (elems_live e heap fb LK base (STable k)). unfold zlen. assert (j < length (elems e heap fb base (STable k)))%nat by (apply nth_error_Some; congruence). lia. }
  pose proof (leaf_range _ (type_of_laid (STable k)) p lo w I) as RG. pose proof (size_pos (STable k)) as SP. assert (NT : t <> STable k) by (destruct T as [<-|[<-|[]]]; discriminate).
  destruct (ofs_apart e heap pad fb LK HO _ _ _ _ NT O O') as [Q|Q]; rewrite ?SZ in Q; [right; rewrite EP; nia|left; rewrite EP; nia].
Qed.
Lemma name_entry : forall i h n, nth_error (m_names db) i = Some (h, n) -> exists off, nth_error (x_names e) i = Some (h, Some off) /\ text_at_offset (x_name_text e) off (n_text n) /\ 0 <= h < 2 ^ 32 /\ 0 <= off <= zlen (x_name_text e).
Proof.
  intros i h n H. pose proof X as (W & _). pose proof (names_sorted db W) as SO. pose proof (nth_error_In _ _ H) as IN. assert (K : m_find h (m_names db) = Some n) by (apply ssorted_find; assumption).
  destruct (name_place db W h n K) as (off & G1 & G2). destruct (fx_names _ _ _ F) as [E1 E2].
  assert (N : nth_error (x_names e) i = Some (h, Some off)).
  { rewrite E2. pose proof (name_array_keys (m_names db)) as KS. assert (Q : nth_error (keys (name_array (m_names db))) i = Some h) by (rewrite KS; unfold keys; rewrite nth_error_map, H; reflexivity).
    unfold keys in Q. rewrite nth_error_map in Q. destruct (nth_error (name_array (m_names db)) i) as [[h' o]|] eqn:NE; [|discriminate Q]. cbn [option_map fst] in Q. assert (h' = h) by congruence. subst h'.
    assert (SK : ssorted (keys (name_array (m_names db)))) by (rewrite KS; exact SO). pose proof (ssorted_find _ _ _ _ SK (nth_error_In _ _ NE)) as Q2. congruence. }
  exists off. split; [exact N|]. split; [rewrite E1; exact G2|]. split.
  - pose proof W as (WN & _). destruct (proj2 WN h n K) as (HH & _). rewrite <- HH. apply (interned_range db W). right. rewrite HH. exact K.
  - exact (lk_names e LK _ (nth_error_In _ _ N)).
Qed.
Lemma name_leaves : In (["hash"], OffsetOf Name "hash", 4) (leaves (Struct Name)) /\ In (["text"], OffsetOf Name "text", 8) (leaves (Struct Name)).
Proof. split; apply leaf_at_in; vm_compute; reflexivity. Qed.
Lemma name_view : forall i h n, nth_error (m_names db) i = Some (h, n) -> exists text, let a := address e heap base SNames + Z.of_nat i * size_of (Struct Name) in
  load base mem (a + OffsetOf Name "hash") 4 = Ok h /\ load base mem (a + OffsetOf Name "text") 8 = Ok text /\ text_here base mem text (n_text n).
Proof.
  intros i h n H. destruct (name_entry i h n H) as (off & N & T & HR & OR). destruct name_leaves as [I1 I2]. assert (FX : In SNames fixed_tags) by (cbn; tauto). destruct (fixed_has e heap fb LK HO _ FX) as [o O].
  assert (EL : nth_error (elems e heap fb base SNames) i = Some (lookup (name_values e heap base (h, Some off)))) by (cbn [elems]; apply (map_nth_error (fun n => lookup (name_values e heap base n))); exact N).
  assert (C : forall p lo w, In (p, lo, w) (leaves (Struct Name)) -> cel SNames i p (o + Z.of_nat i * size_of (Struct Name) + lo) w (lookup (name_values e heap base (h, Some off)) p)).
  { intros p lo w I. exists o, lo, (lookup (name_values e heap base (h, Some off))). repeat split; assumption. }
  exists (address e heap base SNameText + off). cbv zeta. rewrite (adr_has e heap base _ _ O). split; [|split].
  - replace (base + o + Z.of_nat i * size_of (Struct Name) + OffsetOf Name "hash") with (base + (o + Z.of_nat i * size_of (Struct Name) + OffsetOf Name "hash")) by lia. rewrite (view_load e heap pad fb base LK HO _ mem _ _ _ _ _ _ VW (C _ _ _ I1)).
    unfold now. cbn [finished done]. rewrite (lookup_nodup _ _ h (name_keys e heap base _)); [|left; reflexivity]. f_equal. apply Z.mod_small. exact HR.
  - replace (base + o + Z.of_nat i * size_of (Struct Name) + OffsetOf Name "text") with (base + (o + Z.of_nat i * size_of (Struct Name) + OffsetOf Name "text")) by lia. rewrite (view_load e heap pad fb base LK HO _ mem _ _ _ _ _ _ VW (C _ _ _ I2)).
    unfold now. cbn [finished done]. rewrite (lookup_nodup _ _ (text_addr e heap base SNameText (Some off)) (name_keys e heap base _)); [|right; left; reflexivity]. f_equal. exact (text_addr_mod e heap pad fb base LK HO S0 S1 off OR).
  - apply (text_view SNameText (x_name_text e)); [left; reflexivity|reflexivity|exact T|]. pose proof X as (W & _). apply (name_bytes L fuel db X h n). apply ssorted_find; [exact (names_sorted db W)|exact (nth_error_In _ _ H)].
Qed.
Lemma name_table : array_size base mem (array_at base "names") = Ok (zlen (keys (m_names db))) /\ array_data base mem (array_at base "names") = Ok (address e heap base SNames) /\ zlen (keys (m_names db)) <= 2 ^ 30.
Proof.
  assert (D : In (["names"], SNames) db_arrays) by (cbn; tauto). destruct (array_view e heap pad fb base LK HO S0 S1 _ mem _ _ VW fin_db D) as [Q1 Q2].
  assert (ZL : zlen (x_names e) = zlen (keys (m_names db))). { rewrite (proj2 (fx_names _ _ _ F)), <- (name_array_keys (m_names db)). unfold zlen, keys. rewrite map_length. reflexivity. }
  cbn [live] in Q1. rewrite ZL in Q1. split; [exact Q1|]. split; [exact Q2|]. rewrite <- ZL. exact names_small.
Qed.
Lemma name_find : forall h, (exists n text, m_find h (m_names db) = Some n /\ GetName base mem h = Ok (h, text) /\ text_here base mem text (n_text n)) \/ (m_find h (m_names db) = None /\ GetName base mem h = Ok (0, 0)).
Proof.
  intros h. pose proof X as (W & _). pose proof (names_sorted db W) as SO. destruct name_table as (SZ & DT & SM).
  assert (EL : forall j x, nth_error (keys (m_names db)) j = Some x -> GetNameHash base mem (address e heap base SNames + Z.of_nat j * size_of (Struct Name)) = Ok x).
  { intros j x H. unfold keys in H. rewrite nth_error_map in H. destruct (nth_error (m_names db) j) as [[h' n]|] eqn:E; [|discriminate H]. cbn [option_map fst] in H. assert (h' = x) by congruence. subst h'. destruct (name_view j x n E) as (text & Q & _). exact Q. }
  assert (SO' : StronglySorted Z.le (keys (m_names db))). { clear -SO. induction (keys (m_names db)) as [|x l IH]; [constructor|]. cbn in SO. destruct SO as [S1 S2]. constructor; [apply IH; exact S2|]. apply Forall_forall. intros y Hy. specialize (S1 y Hy). lia. }
  unfold GetName. cbv zeta. destruct (search_ok _ _ _ _ _ _ _ SZ DT EL SO' SM h) as (r & E & [[-> N]|(NR & j & J & Q)]); rewrite E; cbn [obind].
  - right. split; [|reflexivity]. destruct (m_find h (m_names db)) as [n|] eqn:M; [|reflexivity]. exfalso. apply N. apply m_find_some_iff. eauto.
  - left. replace (r =? -1) with false by lia. rewrite Q. cbn [obind]. unfold keys in J. rewrite nth_error_map in J. destruct (nth_error (m_names db) j) as [[h' n]|] eqn:EJ; [|discriminate J]. cbn [option_map fst] in J. assert (h' = h) by congruence. subst h'.
    destruct (name_view j h n EJ) as (text & Q1 & Q2 & Q3). cbv zeta in Q1, Q2. exists n, text. split; [apply ssorted_find; [exact SO|exact (nth_error_In _ _ EJ)]|]. rewrite Q1. cbn [obind]. rewrite Q2. cbn [obind]. split; [reflexivity|exact Q3].
Qed.
End Mem.
End Any.
