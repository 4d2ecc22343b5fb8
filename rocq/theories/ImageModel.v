(* SaveCppExport (src/clReflectExport/CppExport.cpp:1228-1473): the description of where the pointers of an
   exported database lie, built from the structures' members, and the pointers it lists.
   The image img is the exporter's allocation, its first byte at address start. Reading outside it is
   undefined behaviour; asserts are on. *)
From Coq Require Import String.
From Verif Require Import Base MmapModel ImageLayout.
#[local] Open Scope string_scope.
#[local] Open Scope Z_scope.
#[local] Open Scope list_scope.

(* DatabaseMetadata.h cldb::meta::OffsetOf(&s::m), for a member s declares itself; a name that is not one
   does not compile *)
Definition find_member (ms : list (string * ctype * Z)) (m : string) : Z :=
  match find (fun x => String.eqb (fst (fst x)) m) ms with Some (_, _, o) => o | None => -1 end.
Definition OffsetOf (s : struct) (m : string) : Z := find_member (placed s) m.
(* Array.h:71-80 array_data_offset *)
Definition array_ofs : Z := find_member placed_array "data".
Definition array_size_ofs : Z := find_member placed_array "size".

(* CppExport.cpp:1238-1251 *)
Definition global_namespace_offset : Z := OffsetOf DatabaseMem "global_namespace".
Definition name_offset_in_primitive : Z := OffsetOf Primitive "name".
Definition name_offset_in_container_info : Z := OffsetOf ContainerInfo "name".

(* handles: positions in the list of schemas, in the order they are added *)
Definition schema_database : Z := 0.
Definition schema_name : Z := 1.
Definition schema_primitive : Z := 2.
Definition schema_type : Z := 3.
Definition schema_enum_constant : Z := 4.
Definition schema_enum : Z := 5.
Definition schema_field : Z := 6.
Definition schema_function : Z := 7.
Definition schema_class : Z := 8.
Definition schema_template_type : Z := 9.
Definition schema_template : Z := 10.
Definition schema_namespace : Z := 11.
Definition schema_int_attribute : Z := 12.
Definition schema_float_attribute : Z := 13.
Definition schema_primitive_attribute : Z := 14.
Definition schema_text_attribute : Z := 15.
Definition schema_ptr : Z := 16.
Definition schema_container_info : Z := 17.

(* PtrRelocator.h:88-92 AddSchema<TYPE>(base) *)
Definition AddSchemaOf (ss : list schema) (s : struct) (base : option Z) (offs : list Z) : outcome (list schema) :=
  AddSchema ss (size_of (Struct s)) base offs.

(* CppExport.cpp:1257-1345: the schemas *)
Definition build_schemas : outcome (list schema) :=
  let db m := OffsetOf DatabaseMem m + array_ofs in
  let gns m := OffsetOf Namespace m + (array_ofs + global_namespace_offset) in
  let arr s m := OffsetOf s m + array_ofs in
  let prim := Some schema_primitive in
  let type := Some schema_type in
  do ss <- AddSchemaOf [] DatabaseMem None
    [OffsetOf DatabaseMem "name_text_data"; db "names"; db "types"; db "enum_constants"; db "enums"; db "fields"; db "functions"; db "classes";
     db "template_types"; db "templates"; db "namespaces"; OffsetOf DatabaseMem "text_attribute_data"; db "flag_attributes"; db "int_attributes";
     db "float_attributes"; db "primitive_attributes"; db "text_attributes"; db "type_primitives"; db "container_infos";
     gns "namespaces"; gns "types"; gns "enums"; gns "classes"; gns "functions"; gns "templates"];
  do ss <- AddSchemaOf ss Name None [OffsetOf Name "text"];
  do ss <- AddSchemaOf ss Primitive None [OffsetOf Name "text" + name_offset_in_primitive; OffsetOf Primitive "parent"];
  do ss <- AddSchemaOf ss Type_ prim [arr Type_ "base_types"; OffsetOf Type_ "ci"];
  do ss <- AddSchemaOf ss EnumConstant prim [];
  do ss <- AddSchemaOf ss Enum type [arr Enum "constants"; arr Enum "attributes"];
  do ss <- AddSchemaOf ss Field prim [OffsetOf Field "type"; arr Field "attributes"; OffsetOf Field "ci"];
  do ss <- AddSchemaOf ss Function_ prim [OffsetOf Function_ "return_parameter"; arr Function_ "parameters"; arr Function_ "attributes"];
  do ss <- AddSchemaOf ss Class type
    [OffsetOf Class "constructor"; OffsetOf Class "destructor"; arr Class "enums"; arr Class "classes"; arr Class "methods"; arr Class "fields";
     arr Class "attributes"; arr Class "templates"];
  do ss <- AddSchemaOf ss TemplateType type
    [OffsetOf TemplateType "constructor"; OffsetOf TemplateType "destructor"; OffsetOf TemplateType "parameter_types" + 8 * 0;
     OffsetOf TemplateType "parameter_types" + 8 * 1; OffsetOf TemplateType "parameter_types" + 8 * 2; OffsetOf TemplateType "parameter_types" + 8 * 3];
  do ss <- AddSchemaOf ss Template prim [arr Template "instances"];
  do ss <- AddSchemaOf ss Namespace prim
    [arr Namespace "namespaces"; arr Namespace "types"; arr Namespace "enums"; arr Namespace "classes"; arr Namespace "functions"; arr Namespace "templates"];
  do ss <- AddSchemaOf ss IntAttribute prim [];
  do ss <- AddSchemaOf ss FloatAttribute prim [];
  do ss <- AddSchemaOf ss PrimitiveAttribute prim [OffsetOf PrimitiveAttribute "primitive"];
  do ss <- AddSchemaOf ss TextAttribute prim [OffsetOf TextAttribute "value"];
  do ss <- AddSchema ss (size_of (Ptr "void")) None [0];
  AddSchemaOf ss ContainerInfo None [OffsetOf Name "text" + name_offset_in_container_info; OffsetOf ContainerInfo "read_iterator_type";
     OffsetOf ContainerInfo "write_iterator_type"].

(* reading a word of the image at an address *)
Definition read_u32 (start : Z) (img : list Z) (addr : Z) : outcome Z := do bs <- rd_bytes img (addr - start) 4; Ok (le_val bs).
Definition read_ptr (start : Z) (img : list Z) (addr : Z) : outcome Z := do bs <- rd_bytes img (addr - start) 8; Ok (le_val bs).

Section Save.
(* the address of the image, its bytes, the schemas, and the bytes the compiler leaves unset in the k-th relocation *)
Variables (start : Z) (img : list Z) (ss : list schema) (pad : nat -> list Z * list Z).

(* clcpp.h:437-441 CArray::operator[]: the address of element i of the array at address arr *)
Definition element (arr i : Z) (e : ctype) : outcome Z :=
  do size <- read_u32 start img (arr + array_size_ofs);
  do _ <- assert (i <? size);
  do data <- read_ptr start img (arr + array_ofs);
  Ok (data + i * size_of e).

(* PtrRelocator.cpp:48-59 *)
Definition AddObjects (rs : list reloc) (handle data nb : Z) : list reloc :=
  AddPointers start rs handle data nb (fst (pad (length rs))) (snd (pad (length rs))).
(* PtrRelocator.h:94-100 AddPointers(schema, array), for the array of e at address arr; the size is converted to int *)
Definition AddArray (rs : list reloc) (handle : Z) (e : ctype) (arr : Z) : outcome (list reloc) :=
  do s <- rd ss handle;
  do _ <- assert (size_of e =? sc_stride s);
  do data <- read_ptr start img (arr + array_ofs);
  do size <- read_u32 start img (arr + array_size_ofs);
  Ok (AddObjects rs handle data (s32 size)).

(* consecutive AddPointers calls: schema, element type, address of the array *)
Fixpoint AddArrays (rs : list reloc) (calls : list (Z * ctype * Z)) : outcome (list reloc) :=
  match calls with
  | [] => Ok rs
  | (h, e, arr) :: r => do rs' <- AddArray rs h e arr; AddArrays rs' r
  end.

(* for (i = 0; i < n; i++) body: iterations i, i+1, ... (n of them) *)
Fixpoint for_each (i : Z) (n : nat) (body : Z -> list reloc -> outcome (list reloc)) (rs : list reloc) : outcome (list reloc) :=
  match n with
  | O => Ok rs
  | S n' => do rs' <- body i rs; for_each (i + 1) n' body rs'
  end.

(* CppExport.cpp:1374-1411: one of the loops over an array m of structures s in the database at address db,
   listing the pointer arrays named in ms of each element *)
Definition AddNested (db : Z) (m : string) (s : struct) (ms : list string) (rs : list reloc) : outcome (list reloc) :=
  let arr := db + OffsetOf DatabaseMem m in
  do n <- read_u32 start img (arr + array_size_ofs);
  for_each 0 (Z.to_nat n) (fun i rs =>
    do a <- element arr i (Struct s);
    AddArrays rs (map (fun x => (schema_ptr, Ptr "", a + OffsetOf s x)) ms)) rs.

(* CppExport.cpp:1347-1425: every AddPointers call *)
Definition list_pointers (db : Z) : outcome (list reloc) :=
  let top h s m := (h, Struct s, db + OffsetOf DatabaseMem m) in
  let rs := AddObjects [] schema_database db 1 in
  do rs <- AddArrays rs
    [top schema_name Name "names"; top schema_type Type_ "types"; top schema_enum_constant EnumConstant "enum_constants"; top schema_enum Enum "enums";
     top schema_field Field "fields"; top schema_function Function_ "functions"; top schema_class Class "classes";
     top schema_template_type TemplateType "template_types"; top schema_template Template "templates"; top schema_namespace Namespace "namespaces";
     top schema_primitive FlagAttribute "flag_attributes"; top schema_int_attribute IntAttribute "int_attributes";
     top schema_float_attribute FloatAttribute "float_attributes"; top schema_primitive_attribute PrimitiveAttribute "primitive_attributes";
     top schema_text_attribute TextAttribute "text_attributes"; (schema_ptr, Ptr "", db + OffsetOf DatabaseMem "type_primitives");
     top schema_container_info ContainerInfo "container_infos"];
  do rs <- AddNested db "enums" Enum ["constants"; "attributes"] rs;
  do rs <- AddNested db "fields" Field ["attributes"] rs;
  do rs <- AddNested db "functions" Function_ ["parameters"; "attributes"] rs;
  do rs <- AddNested db "classes" Class ["enums"; "classes"; "methods"; "fields"; "attributes"; "templates"] rs;
  do rs <- AddNested db "templates" Template ["instances"] rs;
  do rs <- AddNested db "namespaces" Namespace ["namespaces"; "types"; "enums"; "classes"; "functions"; "templates"] rs;
  do rs <- AddArrays rs (map (fun x => (schema_ptr, Ptr "", db + global_namespace_offset + OffsetOf Namespace x))
    ["namespaces"; "types"; "enums"; "classes"; "functions"; "templates"]);
  let tps := db + OffsetOf DatabaseMem "type_primitives" in
  do n <- read_u32 start img (tps + array_size_ofs);
  for_each 0 (Z.to_nat n) (fun i rs =>
    do a <- element tps i (Ptr "");
    do t <- read_ptr start img a;
    AddArray rs schema_ptr (Ptr "") (t + OffsetOf Type_ "base_types")) rs.
End Save.

(* CppExport.cpp:1228-1473. cppexp.db is the first object allocated, so it lies at start *)
Definition SaveCppExport (start : Z) (img : list Z) (pad : nat -> list Z * list Z) : outcome (list Z) :=
  do ss <- build_schemas;
  do rs <- list_pointers start img ss pad start;
  SaveFile start ss rs img.
