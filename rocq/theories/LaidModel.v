(* The memory BuildCppExport (src/clReflectExport/CppExport.cpp:1093-1227) leaves in the stack allocator
   (src/clReflectExport/StackAllocator.h:99-155), which SaveCppExport writes to a file: the export record of ExportModel
   as bytes. Allocations follow each other without gaps (StackAllocator.h:109-127).
   Taken as given: the order in which the pointer arrays inside primitives are allocated, and what is left behind in
   memory that nothing refers to any more (a list called heap), and the value of the bytes the compiler leaves between
   members (pad). *)
From Coq Require Import String.
From Verif Require Import Base Text DatabaseModel ExportModel.
From Verif Require Import ImageLayout.
#[local] Open Scope string_scope.
#[local] Open Scope Z_scope.
#[local] Open Scope list_scope.

(* ---- one value in memory ---- *)
(* every number and pointer inside a value of type t: the members that lead to it, its offset and its width; the
   elements of an array of four are called 0, 1, 2 and 3 *)
Fixpoint leaves_in (d : nat) (t : ctype) : list (list string * Z * Z) :=
  match d with
  | O => []
  | S d' =>
    let inside (m : string * ctype * Z) := let '(n, u, o) := m in map (fun x => let '(p, q, w) := x in (n :: p, o + q, w)) (leaves_in d' u) in
    match t with
    | Scalar n => [([], 0, n)]
    | Ptr _ => [([], 0, 8)]
    | Arr _ => flat_map inside placed_array
    | Four e => flat_map (fun k => map (fun x => let '(p, q, w) := x in (nth k ["0"; "1"; "2"; "3"] "" :: p, Z.of_nat k * size_of e + q, w)) (leaves_in d' e)) (seq 0 4)
    | Struct s => (match base_of s with None => [] | Some b => leaves_in d' (Struct b) end) ++ flat_map inside (placed s)
    end
  end.
Definition leaves (t : ctype) : list (list string * Z * Z) := leaves_in DEPTH t.

(* the bytes of a value whose numbers are given by v; pad between members and after the last *)
Definition gap (pad n : Z) : list Z := repeat (u8 pad) (Z.to_nat n).
Fixpoint encode_from (pad : Z) (v : list string -> Z) (pos : Z) (ls : list (list string * Z * Z)) (size : Z) : list Z :=
  match ls with
  | [] => gap pad (size - pos)
  | (p, o, w) :: r => gap pad (o - pos) ++ le_bytes (Z.to_nat w) (v p) ++ encode_from pad v (o + w) r size
  end.
Definition encode (pad : Z) (t : ctype) (v : list string -> Z) : list Z := encode_from pad v 0 (leaves t) (size_of t).

(* members by name; the constructors (src/clReflectCpp/clcpp.cpp:363-561, inc/clcpp/clcpp.h:428-435 and 644-684) clear all others *)
Definition path_eqb (p q : list string) : bool := if list_eq_dec string_dec p q then true else false.
Fixpoint lookup (vs : list (list string * Z)) (p : list string) : Z :=
  match vs with
  | [] => 0
  | (q, z) :: r => if path_eqb q p then z else lookup r p
  end.

(* ---- allocations ---- *)
Inductive hkey := Cell (c : cell) | Glob (a : ak).
Inductive tag := SDb | SNameText | SNames | STable (k : kind) | SInfos | SAttrText | STypes | SHeap (h : hkey) | SJunk.
Definition tag_dec (a b : tag) : {a = b} + {a <> b}.
Proof. repeat decide equality. Defined.

(* the structure of a table (inc/clcpp/clcpp_internal.h:26-44) *)
Definition struct_of (k : kind) : struct :=
  match k with
  | KType => Type_ | KEnumConst => EnumConstant | KEnum => Enum | KField => Field | KFunction => Function_ | KClass => Class
  | KTemplate => Template | KTemplateType => TemplateType | KNamespace => Namespace | KFlagAttr => FlagAttribute
  | KIntAttr => IntAttribute | KFloatAttr => FloatAttribute | KPrimAttr => PrimitiveAttribute | KTextAttr => TextAttribute
  end.
(* src/clReflectExport/CppExport.cpp:1105-1118: the order of the tables in memory *)
Definition built : list kind :=
  [KType; KEnumConst; KEnum; KField; KFunction; KClass; KTemplate; KTemplateType; KNamespace; KFlagAttr; KIntAttr; KFloatAttr; KPrimAttr; KTextAttr].
(* inc/clcpp/clcpp.h:576-594 Primitive::Kind *)
Definition kind_code (k : kind) : Z :=
  match k with
  | KFlagAttr => 2 | KIntAttr => 3 | KFloatAttr => 4 | KPrimAttr => 5 | KTextAttr => 6 | KType => 7 | KEnumConst => 8 | KEnum => 9
  | KField => 10 | KFunction => 11 | KTemplateType => 12 | KTemplate => 13 | KClass => 14 | KNamespace => 15
  end.
(* the arrays of pointers in each structure (inc/clcpp/clcpp.h:691-885) *)
Definition kind_arrays (k : kind) : list (list string * ak) :=
  match k with
  | KType | KTemplateType => [(["base_types"], ABases)]
  | KEnum => [(["base_types"], ABases); (["constants"], AConstants); (["attributes"], AAttributes)]
  | KField => [(["attributes"], AAttributes)]
  | KFunction => [(["parameters"], AParameters); (["attributes"], AAttributes)]
  | KClass => [(["base_types"], ABases); (["enums"], AEnums); (["classes"], AClasses); (["methods"], AMethods); (["fields"], AFields);
               (["attributes"], AAttributes); (["templates"], ATemplates)]
  | KTemplate => [(["instances"], AInstances)]
  | KNamespace => [(["namespaces"], ANamespaces); (["types"], ATypes); (["enums"], AEnums); (["classes"], AClasses); (["functions"], AFunctions);
                   (["templates"], ATemplates)]
  | _ => []
  end.
(* the arrays of the database (inc/clcpp/clcpp_internal.h:23-54) *)
Definition db_arrays : list (list string * tag) :=
  [(["names"], SNames); (["types"], STable KType); (["enum_constants"], STable KEnumConst); (["enums"], STable KEnum); (["fields"], STable KField);
   (["functions"], STable KFunction); (["classes"], STable KClass); (["templates"], STable KTemplate); (["template_types"], STable KTemplateType);
   (["namespaces"], STable KNamespace); (["flag_attributes"], STable KFlagAttr); (["int_attributes"], STable KIntAttr);
   (["float_attributes"], STable KFloatAttr); (["primitive_attributes"], STable KPrimAttr); (["text_attributes"], STable KTextAttr);
   (["type_primitives"], STypes); (["container_infos"], SInfos)] ++
  map (fun x => ("global_namespace" :: fst x, SHeap (Glob (snd x)))) (kind_arrays KNamespace).

Section Image.
Variables (e : export) (heap : list (tag * list Z)) (pad function_base : Z).

(* how many elements belong to an allocation *)
Definition live (t : tag) : Z :=
  match t with
  | SDb => 1
  | SNameText => zlen (x_name_text e)
  | SNames => zlen (x_names e)
  | STable k => zlen (x_rows e k)
  | SInfos => zlen (x_infos e)
  | SAttrText => zlen (x_attr_text e)
  | STypes => zlen (x_types e)
  | SHeap (Cell c) => zlen (x_arr e c)
  | SHeap (Glob a) => zlen (x_global e a)
  | SJunk => 0
  end.
(* every allocation in order, with the type and number of its elements. The first is that of CppExport.cpp:1096, then
   70 and 85 for the names, 196 from 1105-1119 for the tables, 397 for the attribute texts and 643 for type_primitives. The
   arrays in primitives are allocated by Parent (315), GatherGlobalPrimitives (617) and BuildBaseClassArrays (563), and
   BuildAttributePtrArray (375) allocates a list nothing refers to later; entries removed at the end of an
   array stay in memory behind it *)
Definition shape : list (tag * ctype * Z) :=
  (SDb, Struct DatabaseMem, live SDb) :: (SNameText, Scalar 1, live SNameText) :: (SNames, Struct Name, live SNames) ::
  map (fun k => (STable k, Struct (struct_of k), live (STable k))) built ++
  (SInfos, Struct ContainerInfo, live SInfos) :: (SAttrText, Scalar 1, live SAttrText) :: (STypes, Ptr "", live STypes) ::
  map (fun h => (fst h, Ptr "", live (fst h) + zlen (snd h))) heap.
Fixpoint offset_from (sh : list (tag * ctype * Z)) (t : tag) (pos : Z) : option Z :=
  match sh with
  | [] => None
  | (t', u, n) :: r => if tag_dec t' t then Some pos else offset_from r t (pos + n * size_of u)
  end.
(* StackAllocator.h:109-127: where each allocation starts, from the first *)
Definition offset (t : tag) : option Z := offset_from shape t 0.
Definition image_size : Z := fold_right (fun s z => snd s * size_of (snd (fst s)) + z) 0 shape.

(* ---- addresses, when the first allocation is at start ---- *)
Variable start : Z.
Definition address (t : tag) : Z := match offset t with Some o => start + o | None => 0 end.
Definition place (l : loc) : Z := address (STable (fst l)) + Z.of_nat (snd l) * size_of (Struct (struct_of (fst l))).
Definition ref_addr (r : ref) : Z := match r with ExportModel.Int z => z | ExportModel.Ptr l => place l end.
Definition text_addr (t : tag) (o : option Z) : Z := match o with Some o => address t + o | None => 0 end.
Definition info_addr (i : option nat) : Z := match i with Some i => address SInfos + Z.of_nat i * size_of (Struct ContainerInfo) | None => 0 end.

(* ---- contents ---- *)
Definition array_values (m : list string) (t : tag) : list (list string * Z) := [(m ++ ["size"], live t); (m ++ ["data"], address t)].
(* CppExport.cpp:1096-1097 and the allocations *)
Definition db_values : list (list string * Z) :=
  [(["function_base_address"], function_base); (["name_text_data"], address SNameText); (["text_attribute_data"], address SAttrText);
   (["global_namespace"; "kind"], kind_code KNamespace)] ++ flat_map (fun x => array_values (fst x) (snd x)) db_arrays.
(* CppExport.cpp:85-94 *)
Definition name_values (n : Z * option Z) : list (list string * Z) := [(["hash"], fst n); (["text"], text_addr SNameText (snd n))].
(* CppExport.cpp:98-179: what belongs to one kind of primitive only *)
Definition own_values (k : kind) (j : nat) (r : row) : list (list string * Z) :=
  let l := (k, j) in
  let data i := nth i (r_data r) 0 in
  let type := [(["size"], data 0%nat); (["ci"], info_addr (x_ci e l))] in
  let made := [(["constructor"], ref_addr (x_ctor e l)); (["destructor"], ref_addr (x_dtor e l))] in
  let flags := [(["flag_attributes"], x_flags e l)] in
  match k with
  | KType => type
  | KEnumConst | KIntAttr | KFloatAttr => [(["value"], data 0%nat)]
  | KEnum => type ++ flags
  | KField => [(["type"], ref_addr (x_type e l)); (["qualifier"; "op"], data 1%nat); (["qualifier"; "is_const"], data 2%nat); (["offset"], data 0%nat);
               (["parent_unique_id"], r_uid r); (["ci"], info_addr (x_ci e l))] ++ flags
  | KFunction => [(["address"], data 0%nat); (["unique_id"], r_uid r); (["return_parameter"], ref_addr (x_ret e l))] ++ flags
  | KClass => type ++ made ++ flags
  | KTemplateType => type ++ made ++
      flat_map (fun i => [(["parameter_types"; nth i ["0"; "1"; "2"; "3"] ""], ref_addr (nth i (x_args e l) (ExportModel.Int 0)));
                          (["parameter_ptrs"; nth i ["0"; "1"; "2"; "3"] ""], data (S i))]) (seq 0 4)
  | KPrimAttr => [(["primitive"], ref_addr (x_prim e l))]
  | KTextAttr => [(["value"], text_addr SAttrText (nth_error (x_attr_vals e) j))]
  | KTemplate | KNamespace | KFlagAttr => []
  end.
Definition prim_values (k : kind) (x : nat * row) : list (list string * Z) :=
  let (j, r) := x in
  [(["kind"], kind_code k); (["name"; "hash"], r_hash r); (["name"; "text"], text_addr SNameText (r_text r)); (["parent"], ref_addr (x_parent e (k, j)))] ++
  flat_map (fun m => array_values (fst m) (SHeap (Cell (snd m, (k, j))))) (kind_arrays k) ++ own_values k j r.
(* CppExport.cpp:183-189 and 496-502 *)
Definition info_values (x : info * (ref * ref)) : list (list string * Z) :=
  let (i, it) := x in
  [(["name"; "hash"], i_hash i); (["name"; "text"], text_addr SNameText (i_text i)); (["read_iterator_type"], ref_addr (fst it));
   (["write_iterator_type"], ref_addr (snd it)); (["flags"], i_flags i); (["count"], i_count i)].
Definition single (z : Z) : list string -> Z := fun _ => z.
Definition heap_words (t : tag) : list Z :=
  match t with
  | SHeap (Cell c) => map ref_addr (x_arr e c)
  | SHeap (Glob a) => map place (x_global e a)
  | _ => []
  end.
(* every allocation with the values of its elements *)
Definition contents : list (tag * ctype * list (list string -> Z)) :=
  (SDb, Struct DatabaseMem, [lookup db_values]) :: (SNameText, Scalar 1, map single (x_name_text e)) ::
  (SNames, Struct Name, map (fun n => lookup (name_values n)) (x_names e)) ::
  map (fun k => (STable k, Struct (struct_of k), map (fun x => lookup (prim_values k x)) (combine (seq 0 (length (x_rows e k))) (x_rows e k)))) built ++
  (SInfos, Struct ContainerInfo, map (fun x => lookup (info_values x)) (combine (x_infos e) (x_iters e))) ::
  (SAttrText, Scalar 1, map single (x_attr_text e)) ::
  (STypes, Ptr "", map (fun x => single (ref_addr (snd x))) (x_types e)) ::
  map (fun h => (fst h, Ptr "", map single (heap_words (fst h) ++ snd h))) heap.
Definition image : list Z := flat_map (fun s => flat_map (encode pad (snd (fst s))) (snd s)) contents.
End Image.
