(* The structures that make up a memory-mapped database, as inc/clcpp/clcpp.h and
   inc/clcpp/clcpp_internal.h declare them, and where a 64-bit compiler places their members:
   each member at the next multiple of its alignment, the whole rounded up to the largest alignment.
   size_type and pointer_type are 8 bytes, enums, int, unsigned int and float 4, bool 1. No base class
   here has room left at its end, so compilers that reuse such room for members of the derived class
   and compilers that do not agree on every offset. *)
From Coq Require Import String.
From Verif Require Import Base.
#[local] Open Scope string_scope.
#[local] Open Scope Z_scope.
#[local] Open Scope list_scope.

Inductive struct :=
| Name | Qualifier | ContainerInfo | Primitive | FlagAttribute | IntAttribute | FloatAttribute | PrimitiveAttribute
| TextAttribute | Type_ | EnumConstant | Enum | Field | Function_ | TemplateType | Template | Class | Namespace | DatabaseMem.

Inductive ctype :=
| Scalar (size : Z)                 (* a number, aligned to its own size *)
| Ptr (to : string)                 (* TYPE*; the name of TYPE only documents the declaration *)
| Arr (e : ctype)                   (* clcpp::CArray<e> *)
| Struct (s : struct)               (* a structure by value *)
| Four (e : ctype).                 (* e[4] *)

Definition Int : ctype := Scalar 4.         (* int, unsigned int, float, enum *)
Definition Bool : ctype := Scalar 1.
Definition Size : ctype := Scalar 8.        (* clcpp::size_type, clcpp::pointer_type *)

(* the base class; Attribute adds nothing to Primitive (clcpp.h:613) and is skipped *)
Definition base_of (s : struct) : option struct :=
  match s with
  | FlagAttribute | IntAttribute | FloatAttribute | PrimitiveAttribute | TextAttribute => Some Primitive
  | Type_ | EnumConstant | Field | Function_ | Template | Namespace => Some Primitive
  | Enum | TemplateType | Class => Some Type_
  | Name | Qualifier | ContainerInfo | Primitive | DatabaseMem => None
  end.

(* the members each structure declares itself, in order *)
Definition members (s : struct) : list (string * ctype) :=
  match s with
  (* clcpp.h:508-518 *)
  | Name => [("hash", Int); ("text", Ptr "char")]
  (* clcpp.h:524-543 *)
  | Qualifier => [("op", Int); ("is_const", Bool)]
  (* clcpp.h:548-569 *)
  | ContainerInfo => [("name", Struct Name); ("read_iterator_type", Ptr "Type"); ("write_iterator_type", Ptr "Type"); ("flags", Int); ("count", Int)]
  (* clcpp.h:574-608 *)
  | Primitive => [("kind", Int); ("name", Struct Name); ("parent", Ptr "Primitive"); ("database", Ptr "Database")]
  (* clcpp.h:638-685 *)
  | FlagAttribute => []
  | IntAttribute => [("value", Int)]
  | FloatAttribute => [("value", Int)]
  | PrimitiveAttribute => [("primitive", Ptr "Primitive")]
  | TextAttribute => [("value", Ptr "char")]
  (* clcpp.h:691-715 *)
  | Type_ => [("size", Size); ("base_types", Arr (Ptr "Type")); ("ci", Ptr "ContainerInfo")]
  (* clcpp.h:719-726 *)
  | EnumConstant => [("value", Int)]
  (* clcpp.h:731-745 *)
  | Enum => [("constants", Arr (Ptr "EnumConstant")); ("attributes", Arr (Ptr "Attribute")); ("flag_attributes", Int)]
  (* clcpp.h:750-776 *)
  | Field => [("type", Ptr "Type"); ("qualifier", Struct Qualifier); ("offset", Int); ("parent_unique_id", Int);
              ("attributes", Arr (Ptr "Attribute")); ("flag_attributes", Int); ("ci", Ptr "ContainerInfo")]
  (* clcpp.h:783-808 *)
  | Function_ => [("address", Size); ("unique_id", Int); ("return_parameter", Ptr "Field"); ("parameters", Arr (Ptr "Field"));
                  ("attributes", Arr (Ptr "Attribute")); ("flag_attributes", Int)]
  (* clcpp.h:813-831 *)
  | TemplateType => [("constructor", Ptr "Function"); ("destructor", Ptr "Function"); ("parameter_types", Four (Ptr "Type")); ("parameter_ptrs", Four Bool)]
  (* clcpp.h:835-843 *)
  | Template => [("instances", Arr (Ptr "TemplateType"))]
  (* clcpp.h:848-868 *)
  | Class => [("constructor", Ptr "Function"); ("destructor", Ptr "Function"); ("enums", Arr (Ptr "Enum")); ("classes", Arr (Ptr "Class"));
              ("methods", Arr (Ptr "Function")); ("fields", Arr (Ptr "Field")); ("attributes", Arr (Ptr "Attribute"));
              ("templates", Arr (Ptr "Template")); ("flag_attributes", Int)]
  (* clcpp.h:872-885 *)
  | Namespace => [("namespaces", Arr (Ptr "Namespace")); ("types", Arr (Ptr "Type")); ("enums", Arr (Ptr "Enum")); ("classes", Arr (Ptr "Class"));
                  ("functions", Arr (Ptr "Function")); ("templates", Arr (Ptr "Template"))]
  (* clcpp_internal.h:11-54 *)
  | DatabaseMem =>
      [("function_base_address", Size); ("name_text_data", Ptr "char"); ("names", Arr (Struct Name)); ("types", Arr (Struct Type_));
       ("enum_constants", Arr (Struct EnumConstant)); ("enums", Arr (Struct Enum)); ("fields", Arr (Struct Field));
       ("functions", Arr (Struct Function_)); ("classes", Arr (Struct Class)); ("templates", Arr (Struct Template));
       ("template_types", Arr (Struct TemplateType)); ("namespaces", Arr (Struct Namespace)); ("text_attribute_data", Ptr "char");
       ("flag_attributes", Arr (Struct FlagAttribute)); ("int_attributes", Arr (Struct IntAttribute)); ("float_attributes", Arr (Struct FloatAttribute));
       ("primitive_attributes", Arr (Struct PrimitiveAttribute)); ("text_attributes", Arr (Struct TextAttribute));
       ("type_primitives", Arr (Ptr "Type")); ("container_infos", Arr (Struct ContainerInfo)); ("global_namespace", Struct Namespace)]
  end.

(* clcpp.h:428-450 CArray: unsigned int size; TYPE* data; IAllocator* allocator *)
Definition array_members : list (string * ctype) := [("size", Int); ("data", Ptr "TYPE"); ("allocator", Ptr "IAllocator")].

(* sizes, alignments and offsets; d bounds how deeply structures nest by value or inheritance *)
Definition align_up (x a : Z) : Z := (x + a - 1) / a * a.
Fixpoint extent (d : nat) (t : ctype) : Z * Z :=        (* size, alignment *)
  match d with
  | O => (0, 1)
  | S d' =>
    let add (acc : Z * Z) (m : string * ctype) :=
      let '(off, al) := acc in let '(sz, a) := extent d' (snd m) in (align_up off a + sz, Z.max al a) in
    let close (acc : Z * Z) := let '(off, al) := acc in (align_up off al, al) in
    match t with
    | Scalar n => (n, n)
    | Ptr _ => (8, 8)
    | Arr _ => close (fold_left add array_members (0, 1))
    | Four e => let '(sz, a) := extent d' e in (4 * sz, a)
    | Struct s =>
        let start := match base_of s with None => (0, 1) | Some b => extent d' (Struct b) end in
        close (fold_left add (members s) start)
    end
  end.
Definition DEPTH : nat := 6.
Definition size_of (t : ctype) : Z := fst (extent DEPTH t).
Definition align_of (t : ctype) : Z := snd (extent DEPTH t).
Fixpoint place (off : Z) (ms : list (string * ctype)) : list (string * ctype * Z) :=
  match ms with
  | [] => []
  | (n, t) :: r => let o := align_up off (align_of t) in (n, t, o) :: place (o + size_of t) r
  end.
(* the members s declares itself, with their offsets from the start of an s *)
Definition placed (s : struct) : list (string * ctype * Z) :=
  place (match base_of s with None => 0 | Some b => size_of (Struct b) end) (members s).
(* the same for a CArray *)
Definition placed_array : list (string * ctype * Z) := place 0 array_members.
