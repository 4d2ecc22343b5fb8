(* Property theorems about what a program sees in the memory of a loaded database: C94.
   reaches_memory (LaidSpec.v) runs the exporter, the saving and the loading; the memory is read with the declarations of the
   structures alone, and everything is said about the source database. *)
From Coq Require Import String Permutation Sorted.
From Verif Require Import Base BaseProofs Text Maps DatabaseModel ExportModel ExportSpec ExportProofs ExportTablesProofs ExportParentProofs ExportLinkProofs ExportMainProofs ExportWitness ExportProps.
From Verif Require Import MmapModel MmapSpec ImageLayout ImageModel ImageSpec LaidModel LaidSpec LaidProofs LaidImageProofs LaidLinkProofs LaidReadProofs LaidMemProofs LaidWitness.
#[local] Open Scope string_scope.
#[local] Open Scope Z_scope.
#[local] Open Scope list_scope.
Local Opaque sample.
Ltac enter := intros L fuel db X OW; apply to_memory; [exact X|exact OW|]; intros e heap pad fb base BE F LK HO S0 S1.

(* the tables have one object for each primitive; objects are inside the memory and do not overlap *)
Theorem C94_tables : forall L fuel db, exportable L fuel db -> attributes_owned db -> reaches_memory L fuel db (fun fb base mem =>
  get base mem base DatabaseMem ["function_base_address"] = fb mod 2 ^ 64 /\
  get base mem base DatabaseMem ["names"; "size"] = zlen (m_names db) /\
  get base mem base DatabaseMem ["container_infos"; "size"] = zlen (m_containers db) /\
  (forall k, get base mem base DatabaseMem [table_of k; "size"] = zlen (items db k)) /\
  (forall l, In l (places db (fst l)) -> base < object base mem l /\ object base mem l + size_of (Struct (record_of (fst l))) <= base + zlen mem) /\
  (forall l l', In l (places db (fst l)) -> In l' (places db (fst l')) -> l <> l' ->
     object base mem l + size_of (Struct (record_of (fst l))) <= object base mem l' \/
     object base mem l' + size_of (Struct (record_of (fst l'))) <= object base mem l)).
Proof.
  enter. split; [|split; [|split; [|split; [|split]]]].
  - refine (db_num e heap pad fb base LK HO _ _ _ 8 _ _); [left; reflexivity|vm_compute; reflexivity].
  - assert (D : In (["names"], SNames) db_arrays) by (cbn; tauto). pose proof (proj1 (db_array_read e heap pad fb base LK HO S0 S1 _ _ D)) as Q. cbn [app live] in Q. rewrite Q. rewrite (proj2 (fx_names _ _ _ F)).
    unfold zlen. pose proof (name_array_keys (m_names db)) as K. unfold keys in K. rewrite <- (map_length fst (name_array (m_names db))), K, map_length. reflexivity.
  - assert (D : In (["container_infos"], SInfos) db_arrays) by (cbn; tauto). pose proof (proj1 (db_array_read e heap pad fb base LK HO S0 S1 _ _ D)) as Q. cbn [app live] in Q. rewrite Q. rewrite (proj1 (fx_infos _ _ _ F)). unfold zlen. rewrite map_length. reflexivity.
  - intros k. apply (sizes L db e heap pad fb base F LK HO S0 S1).
  - intros l H. rewrite (image_zlen e heap pad fb LK HO). exact (obj_range L db e heap pad fb base F LK HO S0 S1 l H).
  - intros l l'. exact (obj_apart L db e heap pad fb base F LK HO S0 S1 l l').
Qed.
Print Assumptions C94_tables.

(* each object has its kind, its name and the text of it *)
Theorem C94_objects : forall L fuel db, exportable L fuel db -> attributes_owned db -> reaches_memory L fuel db (fun fb base mem =>
  forall l i, at_ db l = Some i ->
    nth_error kinds_in_order (Z.to_nat (of_object base mem l ["kind"])) = Some (Some (fst l)) /\
    of_object base mem l ["name"; "hash"] = n_hash (it_name i) /\
    text_here base mem (of_object base mem l ["name"; "text"]) (n_text (it_name i))).
Proof.
  enter. intros l i H. split; [exact (kinds_read L fuel db X e heap pad fb base BE LK HO S0 S1 l i H)|]. exact (names_read L fuel db X e heap pad fb base BE LK HO S0 S1 l i H).
Qed.
Print Assumptions C94_objects.

(* the parent is the owner, null without one; functions that serve a template type as its constructor or destructor have
   such a template type for a parent *)
Theorem C94_parents : forall L fuel db, exportable L fuel db -> attributes_owned db -> reaches_memory L fuel db (fun fb base mem =>
  forall l, In l (places db (fst l)) ->
    ((forall t, ~ taken_by db l t) -> of_object base mem l ["parent"] = object_or_null base mem (owner db l)) /\
    (forall t, taken_by db l t -> exists t', taken_by db l t' /\ of_object base mem l ["parent"] = object base mem t')).
Proof.
  enter. intros l H. rewrite (parent_read L fuel db X e heap pad fb base BE F LK HO S0 S1 l H). destruct (exports_of _ _ _ e _ (C42_parent L fuel db X) BE l H) as (P1 & P2 & P3). split.
  - intros N. destruct (owner db l) as [o|] eqn:O.
    + rewrite (P1 o eq_refl N). symmetry. apply (obj e heap pad fb base LK HO S0 S1).
    + rewrite (P2 eq_refl); [reflexivity| |exact N]. intros K. rewrite K in H. exact (OW l H O).
  - intros t T. destruct (P3 t T) as (t' & T' & E). exists t'. split; [exact T'|]. rewrite E. symmetry. apply (obj e heap pad fb base LK HO S0 S1).
Qed.
Print Assumptions C94_parents.

(* what each kind of primitive says about itself, and the types, return values and primitives it refers to (own_members) *)
Theorem C94_members : forall L fuel db, exportable L fuel db -> attributes_owned db -> reaches_memory L fuel db (fun fb base mem =>
  forall l i, at_ db l = Some i -> own_members db base mem l i).
Proof. enter. intros l i H. exact (own_read L fuel db X e heap pad fb base BE F LK HO S0 S1 l i H). Qed.
Print Assumptions C94_members.

(* constructors and destructors *)
Theorem C94_constructors : forall L fuel db, exportable L fuel db -> attributes_owned db -> reaches_memory L fuel db (fun fb base mem =>
  (forall l, In l (places db KClass) -> points_at_method db base mem l ["constructor"] ctor_name /\ points_at_method db base mem l ["destructor"] dtor_name) /\
  (forall l, In l (places db KTemplateType) -> of_object base mem l ["constructor"] = object_or_null base mem (tmethod db l ctor_name) /\
                                              of_object base mem l ["destructor"] = object_or_null base mem (tmethod db l dtor_name))).
Proof.
  enter. split; intros [k j] H; pose proof (proj1 (proj1 (places_In _ _ _) H)) as K; cbn [fst] in K; subst k.
  - destruct (ctor_read L fuel db X e heap pad fb base BE F LK HO S0 S1 KClass j (or_introl eq_refl) H) as [E1 E2]. destruct (fx_class_ctor _ _ _ F _ H) as [M1 M2]. unfold points_at_method. rewrite E1, E2.
    assert (G : forall s r, method_called db (KClass, j) s r -> (exists f, In f (children db AMethods (KClass, j)) /\ called db (KClass, j) s f = true /\ ref_addr e heap base r = object base (image e heap pad fb base) f) \/
      (ref_addr e heap base r = 0 /\ forall f, In f (children db AMethods (KClass, j)) -> called db (KClass, j) s f = false)).
    { intros s [z|f] M; cbn [method_called ref_addr] in *; [right; exact M|]. left. exists f. split; [tauto|]. split; [tauto|]. symmetry. apply (obj e heap pad fb base LK HO S0 S1). }
    split; apply G; assumption.
  - destruct (ctor_read L fuel db X e heap pad fb base BE F LK HO S0 S1 KTemplateType j (or_intror eq_refl) H) as [E1 E2]. destruct (fx_tt_ctor _ _ _ F _ H) as [M1 M2]. rewrite E1, E2, M1, M2. split; apply (null_or e heap pad fb base LK HO S0 S1).
Qed.
Print Assumptions C94_constructors.

(* the arrays of an object point at its children, each once, in the order of their hashes; base types are in the order in
   which inheritance is recorded *)
Theorem C94_arrays : forall L fuel db, exportable L fuel db -> attributes_owned db -> reaches_memory L fuel db (fun fb base mem =>
  forall o, In o (places db (fst o)) ->
    (forall a, a <> ABases -> has_array (fst o) a -> exists ls, array_here base mem (object base mem o) (record_of (fst o)) [array_name a] = map (object base mem) ls /\
       NoDup ls /\ by_hash db ls /\
       forall c, In c ls <-> In c (places db (fst c)) /\ owner db c = Some o /\ array_for (fst o) (fst c) = Some a /\ kept db a o c = true) /\
    (has_array (fst o) ABases -> array_here base mem (object base mem o) (record_of (fst o)) [array_name ABases] = map (object base mem) (bases_of db o))).
Proof.
  enter. intros o H. split.
  - intros a N A. destruct (exports_of _ _ _ e _ (arrays_exact L fuel db X) BE a o N) as (ls & E & N1 & N2 & N3). exists ls. split; [|auto].
    rewrite (array_read L fuel db X e heap pad fb base BE LK HO S0 S1 o a H A), E. apply (ptrs e heap pad fb base LK HO S0 S1).
  - intros A. rewrite (array_read L fuel db X e heap pad fb base BE LK HO S0 S1 o ABases H A), (fx_bases _ _ _ F). apply (ptrs e heap pad fb base LK HO S0 S1).
Qed.
Print Assumptions C94_arrays.

(* the global namespace, and the table of all types *)
Theorem C94_roots : forall L fuel db, exportable L fuel db -> attributes_owned db -> reaches_memory L fuel db (fun fb base mem =>
  nth_error kinds_in_order (Z.to_nat (get base mem base DatabaseMem ["global_namespace"; "kind"])) = Some (Some KNamespace) /\
  (forall a k, global_kind a = Some k -> exists ls, array_here base mem base DatabaseMem ["global_namespace"; array_name a] = map (object base mem) ls /\
     NoDup ls /\ by_hash db ls /\ forall c, In c ls <-> In c (places db k) /\ parent_at db c = 0) /\
  (exists ls, array_here base mem base DatabaseMem ["type_primitives"] = map (object base mem) ls /\ Permutation ls (type_places db) /\ by_hash db ls)).
Proof.
  enter. split; [|split].
  - assert (Q : get base (image e heap pad fb base) base DatabaseMem ["global_namespace"; "kind"] = kind_code KNamespace mod 256 ^ 4); [|rewrite Q; reflexivity].
    refine (db_num e heap pad fb base LK HO _ _ _ 4 _ _); [do 3 right; left; reflexivity|vm_compute; reflexivity].
  - intros a k G. exists (x_global e a). split; [|exact (exports_of _ _ _ e _ (C42_global L fuel db X) BE a k G)].
    assert (M : In ([array_name a], a) (kind_arrays KNamespace)) by (destruct a; first [discriminate G | cbn; tauto]). rewrite (glob_read e heap pad fb base LK HO S0 S1 _ a M). apply (objs e heap pad fb base LK HO S0 S1).
  - destruct (proj1 (proj2 (exports_of _ _ _ e _ (C43_sorted L fuel db X) BE))) as (ls & E & P & S). exists ls. split; [|auto]. rewrite (types_read e heap pad fb base LK HO S0 S1), E. rewrite (map_map _ snd). cbn [snd]. apply (ptrs e heap pad fb base LK HO S0 S1).
Qed.
Print Assumptions C94_roots.

(* flags *)
Theorem C94_flags : forall L fuel db, exportable L fuel db -> attributes_owned db -> reaches_memory L fuel db (fun fb base mem =>
  forall l bit, In (fst l) [KEnum; KField; KFunction; KClass] -> In l (places db (fst l)) -> 0 <= bit < 32 ->
    (Z.testbit (of_object base mem l ["flag_attributes"]) bit = true <->
     own_flag db l bit \/ (In l (places db KClass) /\ exists a, derives db l a /\ hands_down db a bit))).
Proof.
  enter. intros [k j] bit K H B. rewrite (flags_read L fuel db X e heap pad fb base BE LK HO S0 S1 k j K H). rewrite Z.mod_pow2_bits_low by lia. apply (fx_flags _ _ _ F).
Qed.
Print Assumptions C94_flags.

(* the name table, and the descriptions of containers *)
Theorem C94_names : forall L fuel db, exportable L fuel db -> attributes_owned db -> reaches_memory L fuel db (fun fb base mem =>
  forall i h n, nth_error (m_names db) i = Some (h, n) ->
    get base mem (name_object base mem i) Name ["hash"] = h /\ text_here base mem (get base mem (name_object base mem i) Name ["text"]) (n_text n)).
Proof. enter. intros i h n H. exact (name_read L fuel db X e heap pad fb base F LK HO S0 S1 i h n H). Qed.
Print Assumptions C94_names.
Theorem C94_containers : forall L fuel db, exportable L fuel db -> attributes_owned db -> reaches_memory L fuel db (fun fb base mem =>
  forall i h c, nth_error (m_containers db) i = Some (h, c) -> let a := info_object base mem i in
    get base mem a ContainerInfo ["name"; "hash"] = n_hash (ci_name c) /\ text_here base mem (get base mem a ContainerInfo ["name"; "text"]) (n_text (ci_name c)) /\
    get base mem a ContainerInfo ["read_iterator_type"] = object_or_null base mem (type_named db (n_hash (ci_read c))) /\
    get base mem a ContainerInfo ["write_iterator_type"] = object_or_null base mem (type_named db (n_hash (ci_write c))) /\
    holds base mem a ContainerInfo ["flags"] (ci_flags c) /\ holds base mem a ContainerInfo ["count"] (ci_count c)).
Proof. enter. intros i h c H. exact (container_read L fuel db X e heap pad fb base BE F LK HO S0 S1 i h c H). Qed.
Print Assumptions C94_containers.

(* the conditions hold of the sample database; its memory, loaded at 2^40, read by hand: the names of a class, of
   its base types and of its namespace, and of the parameters of a function and their types *)
Definition loaded : list Z :=
  match BuildCppExport lay 10 sample with
  | Ok e => match SaveCppExport 4096 (image e (heap_for e) 170 1000 4096) (fun _ => ([1; 2; 3; 4], [5; 6; 7; 8])) with
            | Ok file => match LoadMemoryMappedDatabase (fun _ => 2 ^ 40) (mk_env file 0 []) with Ok (Some (_, mem), _) => mem | _ => [] end
            | _ => []
            end
  | _ => []
  end.
Definition place_named (k : kind) (s : string) : loc := match find (fun l => hash_at sample l =? hash_of s) (places sample k) with Some l => l | None => (k, 0%nat) end.
Fixpoint until_zero (l : list Z) : list Z := match l with [] => [] | c :: r => if c =? 0 then [] else c :: until_zero r end.
Definition shown (mem : list Z) (a : Z) : list Z := until_zero (skipn (Z.to_nat (get (2 ^ 40) mem a Primitive ["name"; "text"] - 2 ^ 40)) mem).
Example C94_witness : exportable lay 10 sample /\ attributes_owned sample /\
  (let mem := loaded in
   let b := object (2 ^ 40) mem (place_named KClass "N::C") in
   let f := object (2 ^ 40) mem (place_named KFunction "N::f") in
   let ps := array_here (2 ^ 40) mem f Function_ ["parameters"] in
   (shown mem b, map (shown mem) (array_here (2 ^ 40) mem b Class ["base_types"]), shown mem (get (2 ^ 40) mem b Primitive ["parent"]), map (shown mem) ps,
    map (fun p => shown mem (get (2 ^ 40) mem p Field ["type"])) ps) =
   (str "N::C", [str "N::WriteIt"; str "N::B"; str "N::ReadIt"; str "N::A"], str "N", [str "a"; str "b"], [str "int"; str "N::A"])).
Proof. split; [exact sample_exportable|]. split; [exact sample_owned|]. vm_compute. reflexivity. Qed.
