(* The end of Database::Load and the look-up functions of Database (src/clReflectCpp/clcpp.cpp:118-178, 269-285, 344-361 and
   575-695) on the bytes of a loaded database. Memory is one block: mem are its bytes and base is the address of the
   first one, where LoadMemoryMappedDatabase leaves the DatabaseMem; reading or writing outside it is undefined
   behaviour; asserts are on. Addresses and sizes are those of a 64-bit compiler (ImageLayout.v). A base class
   is at the start of the derived one, so a pointer to a primitive is a pointer to its Primitive. *)
From Coq Require Import String.
From Verif Require Import Base HashModel SearchModel RuntimeModel ImageLayout ImageModel.
#[local] Open Scope string_scope.
#[local] Open Scope Z_scope.
#[local] Open Scope list_scope.

(* ---- memory ---- *)
Definition load (base : Z) (mem : list Z) (a n : Z) : outcome Z := do bs <- rd_bytes mem (a - base) n; Ok (le_val bs).
Definition store (base : Z) (mem : list Z) (a n v : Z) : outcome (list Z) := wr_bytes mem (a - base) (le_bytes (Z.to_nat n) v).

(* ---- inc/clcpp/clcpp.h:427-451 CArray, at address a ---- *)
Definition array_size (base : Z) (mem : list Z) (a : Z) : outcome Z := load base mem (a + array_size_ofs) 4.
Definition array_data (base : Z) (mem : list Z) (a : Z) : outcome Z := load base mem (a + array_ofs) 8.
(* clcpp.h:437-446: the address of element i of elements of stride bytes *)
Definition element (base : Z) (mem : list Z) (a stride i : Z) : outcome Z :=
  do n <- array_size base mem a;
  if i <? n then do d <- array_data base mem a; Ok (d + i * stride) else Trap.
(* an array of the database *)
Definition array_at (base : Z) (m : string) : Z := base + OffsetOf DatabaseMem m.

(* clcpp.cpp:118-129 GetNameHash, GetPrimitiveHash and GetPrimitivePtrHash, of the array element at address a *)
Definition GetNameHash (base : Z) (mem : list Z) (a : Z) : outcome Z := load base mem (a + OffsetOf Name "hash") 4.
Definition GetPrimitiveHash (base : Z) (mem : list Z) (a : Z) : outcome Z := load base mem (a + OffsetOf Primitive "name" + OffsetOf Name "hash") 4.
Definition GetPrimitivePtrHash (base : Z) (mem : list Z) (a : Z) : outcome Z := do p <- load base mem a 8; GetPrimitiveHash base mem p.
(* the hash of element i, for BinarySearch and SearchNeighbours (SearchModel.v) *)
Definition hash_of_element (get_hash : Z -> outcome Z) (base : Z) (mem : list Z) (a stride i : Z) : outcome Z :=
  do p <- element base mem a stride i; get_hash p.
Definition search (get_hash : Z -> outcome Z) (base : Z) (mem : list Z) (a stride h : Z) : outcome Z :=
  do n <- array_size base mem a;
  BinarySearch n (hash_of_element get_hash base mem a stride) h.

(* ---- look-ups ---- *)
(* clcpp.cpp:610-617 Database::GetName(hash): hash and text of the name *)
Definition GetName (base : Z) (mem : list Z) (h : Z) : outcome (Z * Z) :=
  let names := array_at base "names" in
  do index <- search (GetNameHash base mem) base mem names (size_of (Struct Name)) h;
  if index =? -1 then Ok (0, 0)
  else
    do a <- element base mem names (size_of (Struct Name)) (u32 index);
    do hash <- load base mem (a + OffsetOf Name "hash") 4;
    do text <- load base mem (a + OffsetOf Name "text") 8;
    Ok (hash, text).
(* clcpp.cpp:619-631 Database::GetName(text): the text is zero-terminated memory of the caller, None the null pointer *)
Definition GetNameOf (base : Z) (mem : list Z) (text : option (list Z)) : outcome (Z * Z) :=
  match text with
  | None => Ok (0, 0)
  | Some t =>
      do hash <- HashNameString t 0;
      if hash =? 0 then Ok (0, 0) else GetName base mem hash
  end.
(* clcpp.cpp:344-350 FindPrimitive in the array at address a; 0 is the null pointer *)
Definition FindPrimitiveAt (base : Z) (mem : list Z) (a h : Z) : outcome Z :=
  do index <- search (GetPrimitivePtrHash base mem) base mem a 8 h;
  if index =? -1 then Ok 0
  else do p <- element base mem a 8 (u32 index); load base mem p 8.
(* clcpp.cpp:352-361 FindOverloadedPrimitive; Range() is 0, 0 *)
Definition FindOverloadedAt (base : Z) (mem : list Z) (a h : Z) : outcome (Z * Z) :=
  do index <- search (GetPrimitivePtrHash base mem) base mem a 8 h;
  if index =? -1 then Ok (0, 0)
  else do n <- array_size base mem a; SearchNeighbours n (hash_of_element (GetPrimitivePtrHash base mem) base mem a 8) h index.
(* clcpp.cpp:633-636 *)
Definition GetType (base : Z) (mem : list Z) (h : Z) : outcome Z := FindPrimitiveAt base mem (array_at base "type_primitives") h.
(* clcpp.cpp:638-644, 651-657 and 659-665 have the same body *)
Definition get_primitive (base : Z) (mem : list Z) (m : string) (s : struct) (h : Z) : outcome Z :=
  let a := array_at base m in
  do index <- search (GetPrimitiveHash base mem) base mem a (size_of (Struct s)) h;
  if index =? -1 then Ok 0 else element base mem a (size_of (Struct s)) (u32 index).
(* clcpp.cpp:638-644 *)
Definition GetNamespace (base : Z) (mem : list Z) (h : Z) : outcome Z := get_primitive base mem "namespaces" Namespace h.
(* clcpp.cpp:646-649 *)
Definition GetGlobalNamespace (base : Z) : Z := base + OffsetOf DatabaseMem "global_namespace".
(* clcpp.cpp:651-657 *)
Definition GetTemplate (base : Z) (mem : list Z) (h : Z) : outcome Z := get_primitive base mem "templates" Template h.
(* clcpp.cpp:659-665 *)
Definition GetFunction (base : Z) (mem : list Z) (h : Z) : outcome Z := get_primitive base mem "functions" Function_ h.
(* clcpp.cpp:667-676 *)
Definition GetOverloadedFunction (base : Z) (mem : list Z) (h : Z) : outcome (Z * Z) :=
  let a := array_at base "functions" in
  let stride := size_of (Struct Function_) in
  do index <- search (GetPrimitiveHash base mem) base mem a stride h;
  if index =? -1 then Ok (0, 0)
  else do n <- array_size base mem a; SearchNeighbours n (hash_of_element (GetPrimitiveHash base mem) base mem a stride) h index.
(* clcpp.cpp:678-682 GetTypes and 690-694 GetFunctions: number and address *)
Definition GetTypes (base : Z) (mem : list Z) : outcome (Z * Z) :=
  do n <- array_size base mem (array_at base "type_primitives"); do d <- array_data base mem (array_at base "type_primitives"); Ok (n, d).
Definition GetFunctions (base : Z) (mem : list Z) : outcome (Z * Z) :=
  do n <- array_size base mem (array_at base "functions"); do d <- array_data base mem (array_at base "functions"); Ok (n, d).

(* ---- the end of Database::Load ---- *)
(* for (unsigned int i = 0; i < array.size; i++) body(array[i]); the size is read again in each round *)
Fixpoint for_each (fuel : nat) (body : list Z -> Z -> outcome (list Z)) (base a stride i : Z) (mem : list Z) : outcome (list Z) :=
  match fuel with
  | O => Fuel
  | S f =>
      do n <- array_size base mem a;
      if i <? n then
        do p <- element base mem a stride i;
        do mem' <- body mem p;
        for_each f body base a stride (u32 (i + 1)) mem'
      else Ok mem
  end.
(* enough rounds for any array: its size is unsigned int *)
Definition rounds (base : Z) (mem : list Z) (a : Z) : outcome nat := do n <- array_size base mem a; Ok (S (Z.to_nat n)).
(* clcpp.cpp:269-278 RebaseFunctions *)
Definition RebaseFunctionsAt (base : Z) (mem : list Z) (base_address : Z) : outcome (list Z) :=
  let a := array_at base "functions" in
  let body mem f :=
    do address <- load base mem (f + OffsetOf Function_ "address") 8;
    if address =? 0 then Ok mem
    else do fb <- load base mem (base + OffsetOf DatabaseMem "function_base_address") 8;
         store base mem (f + OffsetOf Function_ "address") 8 (u64 (u64 (address - fb) + base_address)) in
  do n <- rounds base mem a;
  for_each n body base a (size_of (Struct Function_)) 0 mem.
(* clcpp.cpp:280-285 ParentPrimitivesToDatabase *)
Definition ParentPrimitivesToDatabase (base : Z) (mem : list Z) (m : string) (s : struct) (database : Z) : outcome (list Z) :=
  do n <- rounds base mem (array_at base m);
  for_each n (fun mem p => store base mem (p + OffsetOf Primitive "database") 8 database) base (array_at base m) (size_of (Struct s)) 0 mem.
(* clcpp.cpp:591-604: the tables in the order they are visited *)
Definition parented : list (string * struct) :=
  [("types", Type_); ("enum_constants", EnumConstant); ("enums", Enum); ("fields", Field); ("functions", Function_); ("classes", Class);
   ("templates", Template); ("template_types", TemplateType); ("namespaces", Namespace); ("flag_attributes", FlagAttribute);
   ("int_attributes", IntAttribute); ("float_attributes", FloatAttribute); ("primitive_attributes", PrimitiveAttribute); ("text_attributes", TextAttribute)].
Fixpoint parent_all (base database : Z) (ts : list (string * struct)) (mem : list Z) : outcome (list Z) :=
  match ts with
  | [] => Ok mem
  | (m, s) :: r => do mem' <- ParentPrimitivesToDatabase base mem m s database; parent_all base database r mem'
  end.
(* clcpp.cpp:583-605: what Database::Load does to the memory LoadMemoryMappedDatabase returns; this is the address of the Database,
   OPT_DONT_REBASE_FUNCTIONS is bit 0 of options *)
Definition FinishLoad (base : Z) (mem : list Z) (this base_address options : Z) : outcome (list Z) :=
  do mem <- (if Z.land options 1 =? 0 then RebaseFunctionsAt base mem base_address else Ok mem);
  parent_all base this parented mem.
