(* What the memory of an exported database must hold, read with the declarations of its structures alone. *)
From Coq Require Import String.
From Verif Require Import Base DatabaseModel ExportModel ExportSpec.
From Verif Require Import MmapModel MmapSpec ImageLayout ImageModel ImageSpec LaidModel.
#[local] Open Scope string_scope.
#[local] Open Scope Z_scope.
#[local] Open Scope list_scope.

(* the arrays of the global namespace *)
Definition global_arrays : list ak := [ANamespaces; ATypes; AEnums; AClasses; AFunctions; ATemplates].
(* the capacity of the allocator *)
Definition CAPACITY : Z := 5 * 1024 * 1024.

(* an order in which the exporter may allocate the arrays in primitives: each array with entries gets memory once, the
   arrays of the global namespace always do; anything may be left behind the entries of an array or between arrays *)
Record heap_ok (e : export) (heap : list (tag * list Z)) : Prop := {
  ho_tags : forall t w, In (t, w) heap -> t = SJunk \/ (exists a, In a global_arrays /\ t = SHeap (Glob a)) \/
    exists a k j, In a (map snd (kind_arrays k)) /\ (j < length (x_rows e k))%nat /\ t = SHeap (Cell (a, (k, j)));
  ho_once : NoDup (filter (fun t => if tag_dec t SJunk then false else true) (map fst heap));
  ho_cells : forall a k j, In a (map snd (kind_arrays k)) -> (j < length (x_rows e k))%nat -> x_arr e (a, (k, j)) <> [] -> In (SHeap (Cell (a, (k, j)))) (map fst heap);
  ho_global : forall a, In a global_arrays -> In (SHeap (Glob a)) (map fst heap);
  ho_fits : image_size e heap <= CAPACITY }.

(* every attribute that names a primitive belongs to something in the database *)
Definition attributes_owned (db : database) : Prop := forall l, In l (places db KPrimAttr) -> owner db l <> None.

(* ---- reading memory with the declarations of the structures ---- *)
Definition find_in (ms : list (string * ctype * Z)) (n : string) : option (Z * ctype) :=
  match find (fun m => String.eqb (fst (fst m)) n) ms with Some (_, t, o) => Some (o, t) | None => None end.
(* a member of a structure, declared in it or in a base, at most d levels up *)
Fixpoint member_of (d : nat) (s : struct) (n : string) : option (Z * ctype) :=
  match find_in (placed s) n with
  | Some x => Some x
  | None => match d, base_of s with S d', Some b => member_of d' b n | _, _ => None end
  end.
Definition step (t : ctype) (n : string) : option (Z * ctype) :=
  match t with
  | Struct s => member_of 2 s n
  | Arr _ => find_in placed_array n
  | Four e => find_in [("0", e, 0); ("1", e, size_of e); ("2", e, 2 * size_of e); ("3", e, 3 * size_of e)] n
  | Scalar _ | Ptr _ => None
  end.
(* a member of a member: its offset and type *)
Fixpoint walk (t : ctype) (p : list string) : option (Z * ctype) :=
  match p with
  | [] => Some (0, t)
  | n :: r => match step t n with
              | Some (o, u) => match walk u r with Some (o', v) => Some (o + o', v) | None => None end
              | None => None
              end
  end.

(* the structure, table and code of each kind of primitive *)
Definition record_of (k : kind) : struct :=
  match k with
  | KType => Type_ | KEnumConst => EnumConstant | KEnum => Enum | KField => Field | KFunction => Function_ | KClass => Class
  | KTemplate => Template | KTemplateType => TemplateType | KNamespace => Namespace | KFlagAttr => FlagAttribute
  | KIntAttr => IntAttribute | KFloatAttr => FloatAttribute | KPrimAttr => PrimitiveAttribute | KTextAttr => TextAttribute
  end.
Definition table_of (k : kind) : string :=
  match k with
  | KType => "types" | KEnumConst => "enum_constants" | KEnum => "enums" | KField => "fields" | KFunction => "functions" | KClass => "classes"
  | KTemplate => "templates" | KTemplateType => "template_types" | KNamespace => "namespaces" | KFlagAttr => "flag_attributes"
  | KIntAttr => "int_attributes" | KFloatAttr => "float_attributes" | KPrimAttr => "primitive_attributes" | KTextAttr => "text_attributes"
  end.
(* the position in enum Primitive::Kind *)
Definition kinds_in_order : list (option kind) :=
  [None; None; Some KFlagAttr; Some KIntAttr; Some KFloatAttr; Some KPrimAttr; Some KTextAttr; Some KType; Some KEnumConst; Some KEnum; Some KField;
   Some KFunction; Some KTemplateType; Some KTemplate; Some KClass; Some KNamespace].

(* the names of the arrays of pointers; a structure has those it declares *)
Definition array_name (a : ak) : string :=
  match a with
  | AConstants => "constants" | AParameters => "parameters" | AEnums => "enums" | AClasses => "classes" | AMethods => "methods"
  | AFields => "fields" | ATemplates => "templates" | ANamespaces => "namespaces" | ATypes => "types" | AFunctions => "functions"
  | AInstances => "instances" | AAttributes => "attributes" | ABases => "base_types"
  end.
Definition has_array (k : kind) (a : ak) : Prop := exists o u, walk (Struct (record_of k)) [array_name a] = Some (o, Arr u).
Definition digit (n : nat) : string := nth n ["0"; "1"; "2"; "3"] "".

Section Memory.
Variables (base : Z) (mem : list Z).
(* the number of n bytes at address a *)
Definition number (a n : Z) : Z := le_val (slice mem (a - base) n).
(* member p of the structure s at address a *)
Definition get (a : Z) (s : struct) (p : list string) : Z :=
  match walk (Struct s) p with Some (o, t) => number (a + o) (size_of t) | None => -1 end.
(* the member holds z, as far as it fits *)
Definition holds (a : Z) (s : struct) (p : list string) (z : Z) : Prop :=
  exists o t, walk (Struct s) p = Some (o, t) /\ get a s p = z mod 256 ^ size_of t.
(* a zero-terminated text *)
Definition text_here (a : Z) (t : list Z) : Prop := base <= a /\ slice mem (a - base) (zlen t + 1) = t ++ [0].
(* the primitive at place l of the tables; the database is at the front of memory *)
Definition object (l : loc) : Z := get base DatabaseMem [table_of (fst l); "data"] + Z.of_nat (snd l) * size_of (Struct (record_of (fst l))).
Definition object_or_null (o : option loc) : Z := match o with Some l => object l | None => 0 end.
Definition info_object (i : nat) : Z := get base DatabaseMem ["container_infos"; "data"] + Z.of_nat i * size_of (Struct ContainerInfo).
Definition name_object (i : nat) : Z := get base DatabaseMem ["names"; "data"] + Z.of_nat i * size_of (Struct Name).
(* member p of the primitive at l *)
Definition of_object (l : loc) (p : list string) : Z := get (object l) (record_of (fst l)) p.
Definition object_holds (l : loc) (p : list string) (z : Z) : Prop := holds (object l) (record_of (fst l)) p z.
(* the entries of an array of pointers *)
Definition array_here (a : Z) (s : struct) (p : list string) : list Z :=
  map (fun j => number (get a s (p ++ ["data"]) + 8 * Z.of_nat j) 8) (seq 0 (Z.to_nat (get a s (p ++ ["size"])))).
End Memory.

(* what belongs to one kind of primitive only: i is what the database holds at place l *)
Definition own_members (db : database) (base : Z) (mem : list Z) (l : loc) (i : item) : Prop :=
  let data n := nth n (it_data i) 0 in
  let described := of_object base mem l ["ci"] = match info_at db l with Some n => info_object base mem n | None => 0 end in
  let type := object_holds base mem l ["size"] (data 0%nat) /\ described in
  match fst l with
  | KType | KEnum | KClass => type
  | KTemplateType => type /\ forall n, (n < 4)%nat ->
      of_object base mem l ["parameter_types"; digit n] = match nth_error (it_args i) n with Some t => object_or_null base mem (type_named db (n_hash t)) | None => 0 end /\
      object_holds base mem l ["parameter_ptrs"; digit n] (data (S n))
  | KEnumConst | KIntAttr | KFloatAttr => object_holds base mem l ["value"] (data 0%nat)
  | KField => of_object base mem l ["type"] = object_or_null base mem (type_named db (n_hash (it_type i))) /\
      object_holds base mem l ["offset"] (data 0%nat) /\ object_holds base mem l ["qualifier"; "op"] (data 1%nat) /\
      object_holds base mem l ["qualifier"; "is_const"] (data 2%nat) /\ object_holds base mem l ["parent_unique_id"] (it_uid i) /\ described
  | KFunction => object_holds base mem l ["address"] (data 0%nat) /\ object_holds base mem l ["unique_id"] (it_uid i) /\
      of_object base mem l ["return_parameter"] = object_or_null base mem (return_of db l)
  | KPrimAttr => of_object base mem l ["primitive"] = object_or_null base mem (ref_named db (n_hash (it_ref i)))
  | KTextAttr => forall h a, nth_error (m_text_attrs db) (snd l) = Some (h, a) -> Forall is_byte (ta_value a) ->
      text_here base mem (of_object base mem l ["value"]) (ta_value a)
  | KTemplate | KNamespace | KFlagAttr => True
  end.
(* a method of the class with that suffix, or null if it has none *)
Definition points_at_method (db : database) (base : Z) (mem : list Z) (l : loc) (p : list string) (suffix : string) : Prop :=
  (exists f, In f (children db AMethods l) /\ called db l suffix f = true /\ of_object base mem l p = object base mem f) \/
  (of_object base mem l p = 0 /\ forall f, In f (children db AMethods l) -> called db l suffix f = false).

(* whatever the exporter makes of db, saving it gives a file, and loading that file anywhere gives memory with P; fb is the
   address functions are relative to *)
Definition reaches_memory (L : layout) (fuel : nat) (db : database) (P : Z -> Z -> list Z -> Prop) : Prop :=
  exports L fuel db (fun e => forall heap pad fb start relpad, heap_ok e heap -> 0 < start -> start + image_size e heap < 2 ^ 64 ->
    (forall k, length (fst (relpad k)) = 4%nat /\ length (snd (relpad k)) = 4%nat) ->
    exists file, SaveCppExport start (image e heap pad fb start) relpad = Ok file /\
      forall addr rest next live, 0 < addr next -> addr next + image_size e heap < 2 ^ 64 -> Forall (fun b => b < next) live ->
      exists mem, LoadMemoryMappedDatabase addr (mk_env (file ++ rest) next live) = Ok (Some (next, mem), mk_env rest (next + 4) (live ++ [next])) /\
        P fb (addr next) mem).
