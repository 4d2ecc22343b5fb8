(* What an exported database must hold, said about the source database. *)
From Verif Require Import Base Text HashSpec Maps DatabaseModel NamesProofs MergeSpec ExportModel.
From Coq Require Import Sorted Permutation.

(* one view of the fourteen tables: what each primitive says about itself *)
Record item := mk_item {
  it_name : name; it_parent : name; it_type : name; it_uid : Z; it_args : list name; it_ref : name; it_data : list Z }.
Definition plain (p : prim) (data : list Z) : item := mk_item (p_name p) (p_parent p) noname 0 [] noname data.
Definition items (db : database) (k : kind) : list item :=
  match k with
  | KType => map (fun e => plain (t_prim (snd e)) [t_size (snd e)]) (m_types db)
  | KEnumConst => map (fun e => plain (ec_prim (snd e)) [ec_value (snd e)]) (m_enum_consts db)
  | KEnum => map (fun e => plain (e_prim (snd e)) [e_size (snd e)]) (m_enums db)
  | KField => map (fun e => mk_item (p_name (f_prim (snd e))) (p_parent (f_prim (snd e))) (f_type (snd e)) (f_parent_uid (snd e)) [] noname
                [f_offset (snd e);
                 match q_op (f_qual (snd e)) with VALUE => 0 | POINTER => 1 | REFERENCE => 2 end;
                 if q_const (f_qual (snd e)) then 1 else 0]) (m_fields db)
  | KFunction => map (fun e => mk_item (p_name (fn_prim (snd e))) (p_parent (fn_prim (snd e))) noname (fn_uid (snd e)) [] noname [fn_address (snd e)]) (m_functions db)
  | KClass => map (fun e => plain (c_prim (snd e)) [c_size (snd e)]) (m_classes db)
  | KTemplate => map (fun e => plain (snd e) []) (m_templates db)
  | KTemplateType => map (fun e => mk_item (p_name (tt_prim (snd e))) (p_parent (tt_prim (snd e))) noname 0 (tt_types (snd e)) noname
                (tt_size (snd e) :: map (fun b : bool => if b then 1 else 0) (tt_ptrs (snd e)))) (m_template_types db)
  | KNamespace => map (fun e => plain (snd e) []) (m_namespaces db)
  | KFlagAttr => map (fun e => plain (snd e) []) (m_flag_attrs db)
  | KIntAttr => map (fun e => plain (ia_prim (snd e)) [ia_value (snd e)]) (m_int_attrs db)
  | KFloatAttr => map (fun e => plain (fa_prim (snd e)) [fa_value (snd e)]) (m_float_attrs db)
  | KPrimAttr => map (fun e => mk_item (p_name (pa_prim (snd e))) (p_parent (pa_prim (snd e))) noname 0 [] (pa_value (snd e)) []) (m_prim_attrs db)
  | KTextAttr => map (fun e => plain (ta_prim (snd e)) []) (m_text_attrs db)
  end.
Definition all_kinds : list kind := [KType; KEnumConst; KEnum; KField; KFunction; KClass; KTemplate; KTemplateType;
  KNamespace; KFlagAttr; KIntAttr; KFloatAttr; KPrimAttr; KTextAttr].
(* the places of the primitives of a kind, and what is at a place *)
Definition places (db : database) (k : kind) : list loc := map (pair k) (seq 0 (length (items db k))).
Definition at_ (db : database) (l : loc) : option item := nth_error (items db (fst l)) (snd l).
Definition hash_at (db : database) (l : loc) : Z := match at_ db l with Some i => n_hash (it_name i) | None => 0 end.
Definition text_at (db : database) (l : loc) : list Z := match at_ db l with Some i => n_text (it_name i) | None => [] end.
Definition parent_at (db : database) (l : loc) : Z := match at_ db l with Some i => n_hash (it_parent i) | None => 0 end.
Definition type_at (db : database) (l : loc) : Z := match at_ db l with Some i => n_hash (it_type i) | None => 0 end.
Definition uid_at (db : database) (l : loc) : Z := match at_ db l with Some i => it_uid i | None => 0 end.

(* ---- who owns a primitive ---- *)
(* a parameter belongs to the overload with its id *)
Definition right_overload (db : database) (o c : loc) : bool :=
  match fst o, fst c with
  | KFunction, KField => uid_at db o =? uid_at db c
  | _, _ => true
  end.
(* the first primitive of kind k, known under key, that the primitive at c names as its parent *)
Definition owner_in (db : database) (key : loc -> Z) (k : kind) (c : loc) : option loc :=
  find (fun o => (key o =? parent_at db c) && right_overload db o c) (places db k).
Fixpoint first_owner (db : database) (key : loc -> Z) (ks : list kind) (c : loc) : option loc :=
  match ks with
  | [] => None
  | k :: r => match owner_in db key k c with Some o => Some o | None => first_owner db key r c end
  end.
(* fields are known by the name of their owner and their own, everything else by its full name *)
Definition known_as (db : database) (l : loc) : Z :=
  match fst l with
  | KField => match first_owner db (hash_at db) [KFunction; KClass] l with
              | Some o => hash32 (text_at db o ++ str "::" ++ text_at db l) 0
              | None => 0
              end
  | _ => hash_at db l
  end.
(* the kinds of primitive that can own a primitive of kind k, the preferred one first *)
Definition owner_kinds (k : kind) : list kind :=
  match k with
  | KEnumConst => [KEnum]
  | KField => [KFunction; KClass]
  | KEnum | KClass | KFunction | KTemplate => [KClass; KNamespace]
  | KNamespace | KType => [KNamespace]
  | KTemplateType => [KTemplate]
  | KFlagAttr | KIntAttr | KFloatAttr | KPrimAttr | KTextAttr => [KEnum; KField; KFunction; KClass]
  end.
Definition owner (db : database) (c : loc) : option loc := first_owner db (known_as db) (owner_kinds (fst c)) c.
Definition owned_by (db : database) (o c : loc) : bool :=
  match owner db c with Some x => loc_eqb x o | None => false end.
(* the array of an owner that lists a child *)
Definition array_for (o c : kind) : option ak :=
  match o, c with
  | KEnum, KEnumConst => Some AConstants
  | KFunction, KField => Some AParameters
  | KClass, KEnum | KNamespace, KEnum => Some AEnums
  | KClass, KClass | KNamespace, KClass => Some AClasses
  | KClass, KFunction => Some AMethods
  | KClass, KField => Some AFields
  | KClass, KTemplate | KNamespace, KTemplate => Some ATemplates
  | KNamespace, KNamespace => Some ANamespaces
  | KNamespace, KType => Some ATypes
  | KNamespace, KFunction => Some AFunctions
  | KTemplate, KTemplateType => Some AInstances
  | (KEnum | KField | KFunction | KClass), (KFlagAttr | KIntAttr | KFloatAttr | KPrimAttr | KTextAttr) => Some AAttributes
  | _, _ => None
  end.
Definition lists (a : ak) (o c : loc) : bool :=
  match array_for (fst o) (fst c) with Some b => ak_eqb a b | None => false end.
(* everything that belongs in array a of the primitive at o, table by table *)
Definition children (db : database) (a : ak) (o : loc) : list loc :=
  filter (fun c => owned_by db o c && lists a o c) (flat_map (places db) all_kinds).

(* ---- references to types ---- *)
(* a reference to what was found, null if nothing was *)
Definition or_null (o : option loc) : ref := match o with Some l => Ptr l | None => Int 0 end.
Definition type_places (db : database) : list loc :=
  places db KType ++ places db KClass ++ places db KEnum ++ places db KTemplateType.
Definition type_named (db : database) (h : Z) : option loc := find (fun l => hash_at db l =? h) (type_places db).
Definition has_type (db : database) (l : loc) : bool :=
  match type_named db (type_at db l) with Some _ => true | None => false end.

(* ---- return values ---- *)
Definition return_of (db : database) (f : loc) : option loc :=
  find (fun p => hash_at db p =? hash32 (str "return") 0) (children db AParameters f).
Definition is_return (db : database) (f p : loc) : bool :=
  match return_of db f with Some r => loc_eqb r p | None => false end.
(* all of a function's types are reflected *)
Definition typed_function (db : database) (f : loc) : bool := forallb (has_type db) (children db AParameters f).

(* what the arrays keep *)
Definition kept (db : database) (a : ak) (o c : loc) : bool :=
  match a with
  | AParameters => negb (is_return db o c)
  | AFields => has_type db c
  | AMethods | AFunctions => typed_function db c
  | _ => true
  end.

(* ---- which databases, memory layouts and sorting functions ---- *)
Definition wf_tables (d : database) : Prop :=
  names_ok (m_names d) /\ (forall h n, In (h, n) (m_names d) -> text_ok (n_text n)) /\
  wf_table p_name (m_namespaces d) /\ wf_table (fun t => p_name (t_prim t)) (m_types d) /\
  wf_table p_name (m_templates d) /\ wf_table (fun t => p_name (tt_prim t)) (m_template_types d) /\
  wf_table (fun c => p_name (c_prim c)) (m_classes d) /\ wf_table (fun e => p_name (e_prim e)) (m_enums d) /\
  wf_table (fun e => p_name (ec_prim e)) (m_enum_consts d) /\ wf_table (fun f => p_name (fn_prim f)) (m_functions d) /\
  wf_table (fun f => p_name (f_prim f)) (m_fields d) /\ wf_table p_name (m_flag_attrs d) /\
  wf_table (fun a => p_name (ia_prim a)) (m_int_attrs d) /\ wf_table (fun a => p_name (fa_prim a)) (m_float_attrs d) /\
  wf_table (fun a => p_name (pa_prim a)) (m_prim_attrs d) /\ wf_table (fun a => p_name (ta_prim a)) (m_text_attrs d) /\
  wf_map ci_name (m_containers d) /\ wf_map ti_name (m_inherits d).
(* every name in use is in the name table, or is the empty name *)
Definition interned (db : database) (n : name) : Prop := n_hash n = 0 \/ m_find (n_hash n) (m_names db) = Some n.
Definition all_interned (db : database) : Prop :=
  (forall k i, In i (items db k) -> interned db (it_name i) /\ interned db (it_parent i) /\ interned db (it_type i) /\
                                    interned db (it_ref i) /\ Forall (interned db) (it_args i)) /\
  (forall h c, In (h, c) (m_containers db) -> interned db (ci_name c)).
(* every field is a parameter of a function or a member of a class of the database *)
Definition fields_owned (db : database) : Prop :=
  forall l, In l (places db KField) -> owner db l <> None.
Definition small_db (db : database) : Prop :=
  zlen (flat_map (places db) all_kinds) <= 2 ^ 30 /\
  (forall h n, In (h, n) (m_names db) -> zlen (n_text n) < 2 ^ 28) /\
  (forall h a, In (h, a) (m_text_attrs db) -> ~ In 0 (ta_value a)).
(* addresses need more than 32 bits, and none is mistaken for a name when cut to 32 bits *)
Definition no_clash (L : layout) (db : database) : Prop :=
  forall l, In l (flat_map (places db) all_kinds) ->
    2 ^ 32 <= lay_addr L l /\
    ~ In (lay_addr L l mod 2 ^ 32) (keys (m_names db)) /\
    (forall f, In f (places db KField) -> lay_addr L l mod 2 ^ 32 <> known_as db f).
Definition sorts (L : layout) : Prop :=
  forall es, Permutation (lay_sort L es) es /\ StronglySorted (fun a b => fst a <= fst b) (lay_sort L es).

(* ---- inheritance ---- *)
(* the type of that name that lookup in the sorted type table finds *)
Definition unique_types (db : database) : Prop := NoDup (map (hash_at db) (type_places db)).
Definition bases_of (db : database) (l : loc) : list loc :=
  flat_map (fun e => match type_named db (n_hash (ti_base (snd e))), type_named db (n_hash (ti_derived (snd e))) with
                     | Some b, Some d => if loc_eqb d l then [b] else []
                     | _, _ => []
                     end) (m_inherits db).
(* d is a, or a class derived from it however indirectly *)
Inductive derives (db : database) : loc -> loc -> Prop :=
| derives_refl : forall l, derives db l l
| derives_step : forall l b a, In b (bases_of db l) -> derives db b a -> derives db l a.
(* no inheritance chain of fuel steps *)
Definition shallow (db : database) (fuel : nat) : Prop :=
  exists rank : loc -> nat, (forall l, rank l < fuel)%nat /\ forall l b, In b (bases_of db l) -> (rank b < rank l)%nat.

(* ---- flags ---- *)
Definition named (db : database) (l : loc) (s : string) : bool := hash_at db l =? hash32 (str s) 0.
(* what one attribute contributes *)
Definition flag_value (db : database) (a : loc) : Z :=
  if named db a "disk_transient" then 1
  else if named db a "network_transient" then 2
  else if named db a "replicate_transient" then 4
  else if named db a "export_transient" then 8
  else if named db a "transient" then 1 + 2 + 8
  else if named db a "pre_save" then 64
  else if named db a "post_load" then 128
  else if named db a "replicate" then 256
  else if is_prefix (str "load_") (text_at db a) then 16
  else if is_prefix (str "save_") (text_at db a) then 32
  else if named db a "custom_flag" && kind_eqb (fst a) KIntAttr
       then match at_ db a with Some i => hd 0 (it_data i) mod 2 ^ 32 | None => 0 end
  else 0.
Definition attributes (db : database) (l : loc) : list loc := children db AAttributes l.
Definition own_flag (db : database) (l : loc) (bit : Z) : Prop :=
  exists a, In a (attributes db l) /\ Z.testbit (flag_value db a) bit = true.
(* the custom flags a class hands down: all of them, if it has a custom_flag_inherit attribute *)
Definition custom_flag_bit (db : database) (l : loc) (bit : Z) : Prop :=
  exists a i, In a (attributes db l) /\ named db a "custom_flag" = true /\ fst a = KIntAttr /\ at_ db a = Some i /\
    Z.testbit (hd 0 (it_data i) mod 2 ^ 32) bit = true.
Definition hands_down (db : database) (l : loc) (bit : Z) : Prop :=
  fst l = KClass /\
  ((bit = 8 /\ own_flag db l 8) \/
   ((exists a, In a (attributes db l) /\ named db a "custom_flag_inherit" = true) /\ custom_flag_bit db l bit)).

(* ---- names, containers, constructors, primitive attributes ---- *)
(* what a container description names: a type, else all instances of a template, else a field *)
Definition info_owners (db : database) (h : Z) : list loc :=
  match type_named db h with
  | Some l => [l]
  | None =>
      match find (fun t => hash_at db t =? h) (rev (places db KTemplate)) with
      | Some t => children db AInstances t
      | None => match find (fun f => known_as db f =? h) (places db KField) with Some f => [f] | None => [] end
      end
  end.
Definition names_owner (db : database) (l : loc) (i : nat) : bool :=
  match nth_error (m_containers db) i with
  | Some e => existsb (loc_eqb l) (info_owners db (n_hash (ci_name (snd e))))
  | None => false
  end.
(* the last container description that names l *)
Definition info_at (db : database) (l : loc) : option nat :=
  find (names_owner db l) (rev (seq 0 (length (m_containers db)))).
(* a function called like a type, with a suffix *)
Definition called (db : database) (l : loc) (suffix : string) (f : loc) : bool :=
  hash_at db f =? hash32 (text_at db l ++ str suffix) 0.
Notation ctor_name := "::ConstructObject"%string.
Notation dtor_name := "::DestructObject"%string.
(* a reference to a method of the class with that suffix, null if it has none *)
Definition method_called (db : database) (l : loc) (s : string) (r : ref) : Prop :=
  match r with
  | Ptr f => In f (children db AMethods l) /\ called db l s f = true
  | Int z => z = 0 /\ forall f, In f (children db AMethods l) -> called db l s f = false
  end.
(* the first function with that name, wherever it is *)
Definition tmethod (db : database) (l : loc) (s : string) : option loc := find (called db l s) (places db KFunction).
(* what the value of a primitive attribute names: the last function of that name, else the type *)
Definition ref_named (db : database) (h : Z) : option loc :=
  match find (fun f => hash_at db f =? h) (rev (places db KFunction)) with
  | Some f => Some f
  | None => type_named db h
  end.
Definition ref_at (db : database) (l : loc) : Z := match at_ db l with Some i => n_hash (it_ref i) | None => 0 end.

(* everything the export asks of its input *)
Definition exportable (L : layout) (fuel : nat) (db : database) : Prop :=
  wf_tables db /\ all_interned db /\ fields_owned db /\ small_db db /\ no_clash L db /\ sorts L /\
  unique_types db /\ shallow db fuel.
(* the export runs to the end and its result satisfies P *)
Definition exports (L : layout) (fuel : nat) (db : database) (P : export -> Prop) : Prop :=
  exists e, BuildCppExport L fuel db = Ok e /\ P e.
(* an array of pointers to primitives in the order of their hashes *)
Definition by_hash (db : database) (ls : list loc) : Prop := StronglySorted (fun a b => hash_at db a <= hash_at db b) ls.
(* the array of the global namespace for each kind *)
Definition global_kind (a : ak) : option kind :=
  match a with
  | ANamespaces => Some KNamespace | ATypes => Some KType | AEnums => Some KEnum | AClasses => Some KClass
  | AFunctions => Some KFunction | ATemplates => Some KTemplate | _ => None
  end.
(* a template type that takes the function as its constructor or destructor *)
Definition taken_by (db : database) (f l : loc) : Prop :=
  In l (places db KTemplateType) /\ (tmethod db l ctor_name = Some f \/ tmethod db l dtor_name = Some f).
(* the zero-terminated text at an offset *)
Definition text_at_offset (data : list Z) (off : Z) (t : list Z) : Prop :=
  0 <= off /\ exists rest, skipn (Z.to_nat off) data = t ++ 0 :: rest.
