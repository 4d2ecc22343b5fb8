(* Property theorems about a database after Database::Load, C95: what the end of Load changes and what it keeps. Everything is said
   about the source database; reaches_loaded (QuerySpec.v) runs the exporter, the saving, the loading and the end of
   Load. *)
From Coq Require Import String Permutation Sorted.
From Verif Require Import Base BaseProofs Text Maps HashModel HashSpec HashProofs DatabaseModel NamesProofs MergeSpec ExportModel ExportSpec ExportProofs ExportMainProofs ExportWitness ExportProps.
From Verif Require Import MmapModel MmapSpec ImageLayout ImageModel ImageSpec LaidModel LaidSpec LaidProofs LaidImageProofs LaidReadProofs LaidMemProofs LaidWitness LaidMemProps.
From Verif Require Import QueryModel QuerySpec QueryViewProofs QueryLoadProofs QueryProofs QueryStillProofs.
#[local] Open Scope string_scope.
#[local] Open Scope Z_scope.
#[local] Open Scope list_scope.
Local Opaque sample loaded.
Ltac known e heap pad fb base this to options mem :=
  let OS := fresh "OS" in let NS := fresh "NS" in let RS := fresh "RS" in let DS := fresh "DS" in
  assert (OS : forall l, object base mem l = object base (image e heap pad fb base) l) by (eapply object_same; eassumption);
  assert (NS : forall o, object_or_null base mem o = object_or_null base (image e heap pad fb base) o) by (eapply null_same; eassumption);
  assert (DS : forall p o w, leaf_at (Struct DatabaseMem) p = Some (o, w) -> get base mem base DatabaseMem p = get base (image e heap pad fb base) base DatabaseMem p) by (eapply db_same; eassumption).
Ltac keep C := intros L fuel db X OW; refine (still L fuel db _ _ X OW (C L fuel db X OW) _); intros e heap pad fb base BE F LK HO S0 S1 this to options mem VW R; known e heap pad fb base this to options mem;
  pose proof (row_same L fuel db X e heap pad fb base BE LK HO S0 S1 this to options mem VW) as RS.
Ltac begin := intros L fuel db X OW; apply (still0 L fuel db _ X OW); intros e heap pad fb base BE F LK HO S0 S1 this to options mem VW; known e heap pad fb base this to options mem.
Ltac lf := do 2 eexists; vm_compute; reflexivity.

(* Load gives each primitive in the tables the Database, moves the functions, and writes nothing else *)
Theorem C95_load : forall L fuel db, exportable L fuel db -> attributes_owned db -> reaches_loaded L fuel db (fun fb base this to options before mem =>
  zlen mem = zlen before /\ (forall l, object base mem l = object base before l) /\
  (forall l, In l (places db (fst l)) -> of_object base mem l ["database"] = this mod 2 ^ 64) /\
  (forall j i, at_ db (KFunction, j) = Some i -> of_object base mem (KFunction, j) ["address"] = moved fb to options (nth 0 (it_data i) 0 mod 2 ^ 64)) /\
  (forall x, base <= x < base + zlen mem ->
     (forall l, In l (places db (fst l)) -> ~ (object base mem l + OffsetOf Primitive "database" <= x < object base mem l + OffsetOf Primitive "database" + 8)) ->
     (forall l, In l (places db KFunction) -> ~ (object base mem l + OffsetOf Function_ "address" <= x < object base mem l + OffsetOf Function_ "address" + 8)) ->
     number base mem x 1 = number base before x 1)).
Proof.
  begin. split; [|split; [|split; [|split]]].
  - rewrite (image_zlen e heap pad fb LK HO). exact (proj1 VW).
  - exact OS.
  - eapply owner_read; eassumption.
  - intros j i H. rewrite (address_read L fuel db X e heap pad fb base BE LK HO S0 S1 this to options mem VW j i H). cbv zeta. unfold moved. change 1 with (Z.ones 1). rewrite Z.land_ones by lia. change (2 ^ 1) with 2. rewrite Zmod_odd. destruct (Z.odd options); cbn [negb orb andb]; [reflexivity|].
    destruct (nth 0 (it_data i) 0 mod 2 ^ 64 =? 0); reflexivity.
  - intros x XR N1 N2. apply (bytes_kept L fuel db e heap pad fb base F LK HO S0 S1 this to options mem VW x XR N1). intros j J. exact (N2 _ J).
Qed.
Print Assumptions C95_load.
(* the global namespace is not in a table and gets no Database *)
Theorem C95_global_namespace : forall L fuel db, exportable L fuel db -> attributes_owned db -> reaches_loaded L fuel db (fun fb base this to options before mem =>
  get base mem base DatabaseMem ["global_namespace"; "database"] = 0).
Proof.
  begin. rewrite (DS ["global_namespace"; "database"] _ _ ltac:(vm_compute; reflexivity)). destruct (leaf_at (Struct DatabaseMem) ["global_namespace"; "database"]) as [[o w]|] eqn:LF; [|vm_compute in LF; discriminate LF].
  apply leaf_in in LF. rewrite (read_db e heap pad fb base LK HO _ _ _ LF). apply Z.mod_0_l. apply Z.pow_nonzero; [lia|]. pose proof (leaf_range _ (type_of_laid SDb) _ _ _ LF). lia.
Qed.
Print Assumptions C95_global_namespace.

(* everything C94 says of the memory before the last steps holds after them, but for the addresses of functions *)
Theorem C95_tables : forall L fuel db, exportable L fuel db -> attributes_owned db -> reaches_loaded L fuel db (fun fb base this to options before mem =>
  get base mem base DatabaseMem ["function_base_address"] = fb mod 2 ^ 64 /\
  get base mem base DatabaseMem ["names"; "size"] = zlen (m_names db) /\
  get base mem base DatabaseMem ["container_infos"; "size"] = zlen (m_containers db) /\
  (forall k, get base mem base DatabaseMem [table_of k; "size"] = zlen (items db k)) /\
  (forall l, In l (places db (fst l)) -> base < object base mem l /\ object base mem l + size_of (Struct (record_of (fst l))) <= base + zlen mem) /\
  (forall l l', In l (places db (fst l)) -> In l' (places db (fst l')) -> l <> l' ->
     object base mem l + size_of (Struct (record_of (fst l))) <= object base mem l' \/
     object base mem l' + size_of (Struct (record_of (fst l'))) <= object base mem l)).
Proof.
  keep C94_tables. destruct R as (R1 & R2 & R3 & R4 & R5 & R6). split; [|split; [|split; [|split; [|split]]]].
  - rewrite (DS ["function_base_address"] _ _ ltac:(vm_compute; reflexivity)). exact R1.
  - rewrite (DS ["names"; "size"] _ _ ltac:(vm_compute; reflexivity)). exact R2.
  - rewrite (DS ["container_infos"; "size"] _ _ ltac:(vm_compute; reflexivity)). exact R3.
  - intros k. rewrite <- R4. destruct (leaf_at (Struct DatabaseMem) [table_of k; "size"]) as [[o w]|] eqn:LF; [|destruct k; vm_compute in LF; discriminate LF]. exact (DS _ _ _ LF).
  - intros l H. rewrite OS. rewrite (proj1 VW), <- (image_zlen e heap pad fb LK HO base). exact (R5 l H).
  - intros l l'. rewrite !OS. apply R6.
Qed.
Print Assumptions C95_tables.
Theorem C95_objects : forall L fuel db, exportable L fuel db -> attributes_owned db -> reaches_loaded L fuel db (fun fb base this to options before mem =>
  forall l i, at_ db l = Some i ->
    nth_error kinds_in_order (Z.to_nat (of_object base mem l ["kind"])) = Some (Some (fst l)) /\
    of_object base mem l ["name"; "hash"] = n_hash (it_name i) /\
    text_here base mem (of_object base mem l ["name"; "text"]) (n_text (it_name i))).
Proof.
  keep C94_objects. intros [k j] i H. split; [|eapply object_name_after; eassumption]. rewrite RS; [exact (proj1 (R _ _ H))|exact (at_valid db _ _ H)|destruct k; lf|discriminate|discriminate].
Qed.
Print Assumptions C95_objects.
Theorem C95_parents : forall L fuel db, exportable L fuel db -> attributes_owned db -> reaches_loaded L fuel db (fun fb base this to options before mem =>
  forall l, In l (places db (fst l)) ->
    ((forall t, ~ taken_by db l t) -> of_object base mem l ["parent"] = object_or_null base mem (owner db l)) /\
    (forall t, taken_by db l t -> exists t', taken_by db l t' /\ of_object base mem l ["parent"] = object base mem t')).
Proof.
  keep C94_parents. intros [k j] H. destruct (R _ H) as [R1 R2]. rewrite RS; [|exact H|destruct k; lf|discriminate|discriminate]. split.
  - rewrite NS. exact R1.
  - intros t T. destruct (R2 t T) as (t' & T' & E). exists t'. rewrite OS. auto.
Qed.
Print Assumptions C95_parents.
Theorem C95_members : forall L fuel db, exportable L fuel db -> attributes_owned db -> reaches_loaded L fuel db (fun fb base this to options before mem =>
  forall l i, at_ db l = Some i -> own_members_after db base mem l i).
Proof. begin. eapply own_after; eassumption. Qed.
Print Assumptions C95_members.
Theorem C95_constructors : forall L fuel db, exportable L fuel db -> attributes_owned db -> reaches_loaded L fuel db (fun fb base this to options before mem =>
  (forall l, In l (places db KClass) -> points_at_method db base mem l ["constructor"] ctor_name /\ points_at_method db base mem l ["destructor"] dtor_name) /\
  (forall l, In l (places db KTemplateType) -> of_object base mem l ["constructor"] = object_or_null base mem (tmethod db l ctor_name) /\
                                              of_object base mem l ["destructor"] = object_or_null base mem (tmethod db l dtor_name))).
Proof.
  keep C94_constructors. destruct R as [R1 R2]. split; intros [k j] H; pose proof (proj1 (proj1 (places_In _ _ _) H)) as K; cbn [fst] in K; subst k.
  - assert (G : forall p s, (exists o w, leaf_at (Struct (struct_of KClass)) p = Some (o, w)) -> p <> ["database"] -> points_at_method db base (image e heap pad fb base) (KClass, j) p s -> points_at_method db base mem (KClass, j) p s).
    { intros p s LF N Q. unfold points_at_method in *. rewrite RS; [|exact H|exact LF|exact N|discriminate]. destruct Q as [(f & A & B & C)|Q]; [left; exists f; rewrite OS; auto|right; exact Q]. }
    destruct (R1 _ H) as [A B]. split; (apply G; [lf|discriminate|assumption]).
  - destruct (R2 _ H) as [A B]. split; (rewrite RS; [rewrite NS; assumption|exact H|lf|discriminate|discriminate]).
Qed.
Print Assumptions C95_constructors.
Theorem C95_arrays : forall L fuel db, exportable L fuel db -> attributes_owned db -> reaches_loaded L fuel db (fun fb base this to options before mem =>
  forall o, In o (places db (fst o)) ->
    (forall a, a <> ABases -> has_array (fst o) a -> exists ls, array_here base mem (object base mem o) (record_of (fst o)) [array_name a] = map (object base mem) ls /\
       NoDup ls /\ by_hash db ls /\
       forall c, In c ls <-> In c (places db (fst c)) /\ owner db c = Some o /\ array_for (fst o) (fst c) = Some a /\ kept db a o c = true) /\
    (has_array (fst o) ABases -> array_here base mem (object base mem o) (record_of (fst o)) [array_name ABases] = map (object base mem) (bases_of db o))).
Proof.
  begin. intros o H. split.
  - intros a N (lo & u & W). destruct (children_points L fuel db X e heap pad fb base BE F LK HO S0 S1 this to options mem VW o a lo u N H W) as (ls & _ & _ & E & Q). exists ls. auto.
  - intros A. eapply bases_after; eassumption.
Qed.
Print Assumptions C95_arrays.
Theorem C95_roots : forall L fuel db, exportable L fuel db -> attributes_owned db -> reaches_loaded L fuel db (fun fb base this to options before mem =>
  nth_error kinds_in_order (Z.to_nat (get base mem base DatabaseMem ["global_namespace"; "kind"])) = Some (Some KNamespace) /\
  (forall a k, global_kind a = Some k -> exists ls, array_here base mem base DatabaseMem ["global_namespace"; array_name a] = map (object base mem) ls /\
     NoDup ls /\ by_hash db ls /\ forall c, In c ls <-> In c (places db k) /\ parent_at db c = 0) /\
  (exists ls, array_here base mem base DatabaseMem ["type_primitives"] = map (object base mem) ls /\ Permutation ls (type_places db) /\ by_hash db ls)).
Proof.
  keep C94_roots. destruct R as (R1 & _ & _). split; [|split].
  - rewrite (DS ["global_namespace"; "kind"] _ _ ltac:(vm_compute; reflexivity)). exact R1.
  - intros a k G. assert (HA : exists lo u, walk (Struct Namespace) [array_name a] = Some (lo, Arr u)) by (destruct a; first [discriminate G | lf]). destruct HA as (lo & u & W).
    destruct (global_points L fuel db X e heap pad fb base BE F LK HO S0 S1 this to options mem VW a k lo u G W) as (ls & _ & _ & Q). exists ls. exact Q.
  - destruct (types_points L fuel db X e heap pad fb base BE F LK HO S0 S1 this to options mem VW) as (ls & P & _ & Q). exists ls. split; [|exact Q].
    eapply (points_here e heap pad fb base LK HO S0 S1 this to options mem VW base DatabaseMem ["type_primitives"] ls); [exact P|apply leaf_in|vm_compute; reflexivity|apply leaf_in]; vm_compute; reflexivity.
Qed.
Print Assumptions C95_roots.
Theorem C95_flags : forall L fuel db, exportable L fuel db -> attributes_owned db -> reaches_loaded L fuel db (fun fb base this to options before mem =>
  forall l bit, In (fst l) [KEnum; KField; KFunction; KClass] -> In l (places db (fst l)) -> 0 <= bit < 32 ->
    (Z.testbit (of_object base mem l ["flag_attributes"]) bit = true <->
     own_flag db l bit \/ (In l (places db KClass) /\ exists a, derives db l a /\ hands_down db a bit))).
Proof.
  keep C94_flags. intros [k j] bit K H B. rewrite RS; [exact (R _ _ K H B)|exact H| |discriminate|discriminate]. cbn [fst] in K. destruct K as [<-|[<-|[<-|[<-|[]]]]]; lf.
Qed.
Print Assumptions C95_flags.
Theorem C95_names : forall L fuel db, exportable L fuel db -> attributes_owned db -> reaches_loaded L fuel db (fun fb base this to options before mem =>
  forall i h n, nth_error (m_names db) i = Some (h, n) ->
    get base mem (name_object base mem i) Name ["hash"] = h /\ text_here base mem (get base mem (name_object base mem i) Name ["text"]) (n_text n)).
Proof. begin. eapply name_after; eassumption. Qed.
Print Assumptions C95_names.
Theorem C95_containers : forall L fuel db, exportable L fuel db -> attributes_owned db -> reaches_loaded L fuel db (fun fb base this to options before mem =>
  forall i h c, nth_error (m_containers db) i = Some (h, c) -> let a := info_object base mem i in
    get base mem a ContainerInfo ["name"; "hash"] = n_hash (ci_name c) /\ text_here base mem (get base mem a ContainerInfo ["name"; "text"]) (n_text (ci_name c)) /\
    get base mem a ContainerInfo ["read_iterator_type"] = object_or_null base mem (type_named db (n_hash (ci_read c))) /\
    get base mem a ContainerInfo ["write_iterator_type"] = object_or_null base mem (type_named db (n_hash (ci_write c))) /\
    holds base mem a ContainerInfo ["flags"] (ci_flags c) /\ holds base mem a ContainerInfo ["count"] (ci_count c)).
Proof. begin. eapply container_after; eassumption. Qed.
Print Assumptions C95_containers.

(* the sample database is loaded at 2^40 with a Database at 4242 and moved from 1000 to 5000: functions are at 4000 more than
   exported *)
Definition ready : list Z := match FinishLoad (2 ^ 40) loaded 4242 5000 0 with Ok mem => mem | _ => [] end.
Example C95_witness : exportable lay 10 sample /\ attributes_owned sample /\ FinishLoad (2 ^ 40) loaded 4242 5000 0 = Ok ready /\
  (let mem := ready in
   (map (fun l => (of_object (2 ^ 40) loaded l ["address"], of_object (2 ^ 40) mem l ["address"])) (places sample KFunction),
    map (fun l => of_object (2 ^ 40) mem l ["database"]) (places sample KClass), shown mem (object (2 ^ 40) mem (place_named KClass "N::C")))) =
   ([(0, 0); (0, 0); (0, 0); (4096, 8096); (0, 0); (8192, 12192)], [4242; 4242; 4242; 4242; 4242; 4242], str "N::C").
Proof. split; [exact sample_exportable|]. split; [exact sample_owned|]. split; vm_compute; reflexivity. Qed.
