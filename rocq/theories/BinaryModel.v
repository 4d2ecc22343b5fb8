(* Binary database files: src/clReflectCore/DatabaseBinarySerialiser.cpp and the metadata that
   drives it, src/clReflectCore/DatabaseMetadata.{h,cpp}. A file is the list of its bytes. Sizes are
   those of a 64-bit build: int, enums, float 4, bool 1, size_type 8, Qualifier 8. *)
From Verif Require Import Base Text HashModel Maps DatabaseModel.

(* DatabaseBinarySerialiser.cpp:22-23 *)
Definition FILE_HEADER : Z := 1650750051. (* 0x62647263 *)
Definition FILE_VERSION : Z := 1.

(* DatabaseMetadata.h:24-49 FieldType and the packed size of each *)
Inductive ftype := FT_BASIC | FT_NAME | FT_STRING.
(* the members the metadata names with member pointers (DatabaseMetadata.cpp:17-99) *)
Inductive member :=
  M_kind | M_name | M_parent | M_size | M_scoped | M_value | M_type | M_qualifier | M_offset | M_parent_uid |
  M_uid | M_param_types | M_param_ptrs | M_is_class | M_read | M_write | M_flags | M_count | M_derived | M_base.
(* DatabaseMetadata.h:75-122 DatabaseField. The member stands for its offset in the struct. *)
Record dbfield := mk_df { df_member : member; df_type : ftype; df_count : nat; df_psize : Z; df_poff : Z }.
Definition basic (m : member) (size : Z) : dbfield := mk_df m FT_BASIC 1 size 0.
Definition named (m : member) : dbfield := mk_df m FT_NAME 1 4 0.
(* DatabaseMetadata.h:128-173 DatabaseType *)
Inductive dbtype := mk_dt { dt_base : option dbtype; dt_psize : Z; dt_fields : list dbfield }.
(* DatabaseMetadata.h:150-162 Fields: packed offsets continue from the base's packed size *)
Fixpoint add_fields (psize : Z) (l : list dbfield) : Z * list dbfield :=
  match l with
  | [] => (psize, [])
  | f :: r =>
      let x := add_fields (psize + df_psize f * Z.of_nat (df_count f)) r in
      (fst x, mk_df (df_member f) (df_type f) (df_count f) (df_psize f) psize :: snd x)
  end.
(* Base, 140-146, then Fields *)
Definition make_type (base : option dbtype) (l : list dbfield) : dbtype :=
  let x := add_fields (match base with Some b => dt_psize b | None => 0 end) l in
  mk_dt base (fst x) (snd x).

(* DatabaseMetadata.cpp:13-122 DatabaseTypes::DatabaseTypes *)
Definition m_PrimitiveType := make_type None [basic M_kind 4; named M_name; named M_parent].
Definition m_TypeType := make_type (Some m_PrimitiveType) [basic M_size 8].
Definition m_EnumConstantType := make_type (Some m_PrimitiveType) [basic M_value 4].
Definition m_EnumType := make_type (Some m_TypeType) [basic M_scoped 4].
Definition m_FieldType := make_type (Some m_PrimitiveType)
  [named M_type; basic M_qualifier 8; basic M_offset 4; basic M_parent_uid 4].
Definition m_FunctionType := make_type (Some m_PrimitiveType) [basic M_uid 4].
Definition m_ClassType := make_type (Some m_TypeType) [basic M_is_class 1].
Definition m_TemplateType := make_type (Some m_PrimitiveType) [].
Definition m_TemplateTypeType := make_type (Some m_TypeType)
  [mk_df M_param_types FT_NAME 4 4 0; mk_df M_param_ptrs FT_BASIC 4 1 0].
Definition m_NamespaceType := make_type (Some m_PrimitiveType) [].
Definition m_FlagAttributeType := make_type (Some m_PrimitiveType) [].
Definition m_IntAttributeType := make_type (Some m_PrimitiveType) [basic M_value 4].
Definition m_FloatAttributeType := make_type (Some m_PrimitiveType) [basic M_value 4].
Definition m_PrimitiveAttributeType := make_type (Some m_PrimitiveType) [named M_value].
Definition m_TextAttributeType := make_type (Some m_PrimitiveType) [mk_df M_value FT_STRING 1 4 0].
Definition m_ContainerInfoType := make_type None
  [named M_name; named M_read; named M_write; basic M_flags 4; basic M_count 4].
Definition m_InheritanceType := make_type None [named M_name; named M_derived; named M_base].

(* What a member of an object holds: raw bytes, a Name or a std::string. *)
Inductive cell := CBasic (b : list Z) | CName (n : name) | CStr (s : list Z).
(* How the objects of a table are laid out: element j of a member is read with tb_get and assigned
   with tb_set. A member the type does not have, or a byte pattern that is no value of the member's
   type, is undefined behaviour. tb_new is the default-constructed object. The kind of a primitive
   is fixed by the table it is in, so assigning it changes nothing in the model. *)
Record table_type (T : Type) := mk_tb {
  tb_meta : dbtype;
  tb_new : T;
  tb_name : T -> name;
  tb_get : T -> member -> nat -> outcome cell;
  tb_set : T -> member -> nat -> cell -> outcome T }.
Arguments mk_tb {T}. Arguments tb_meta {T}. Arguments tb_new {T}. Arguments tb_name {T}.
Arguments tb_get {T}. Arguments tb_set {T}.

Definition noprim : prim := mk_prim noname noname.
Definition get_prim (kind : Z) (p : prim) (m : member) : outcome cell :=
  match m with
  | M_kind => Ok (CBasic (le_bytes 4 kind))
  | M_name => Ok (CName (p_name p))
  | M_parent => Ok (CName (p_parent p))
  | _ => UB
  end.
Definition set_prim (p : prim) (m : member) (c : cell) : outcome prim :=
  match m, c with
  | M_kind, CBasic _ => Ok p
  | M_name, CName n => Ok (mk_prim n (p_parent p))
  | M_parent, CName n => Ok (mk_prim (p_name p) n)
  | _, _ => UB
  end.
Definition b2z (b : bool) : Z := if b then 1 else 0.
Definition z2b (z : Z) : bool := negb (z =? 0).

(* types with no member of their own: Namespace, Template, FlagAttribute *)
Definition tb_prim (meta : dbtype) (kind : Z) : table_type prim :=
  mk_tb meta noprim p_name (fun p m _ => get_prim kind p m) (fun p m _ c => set_prim p m c).
Definition tb_namespace := tb_prim m_NamespaceType 14.
Definition tb_template := tb_prim m_TemplateType 12.
Definition tb_flag := tb_prim m_FlagAttributeType 1.
Definition tb_type : table_type type_ :=
  mk_tb m_TypeType (mk_type noprim 0) (fun t => p_name (t_prim t))
    (fun t m _ => match m with
                  | M_size => Ok (CBasic (le_bytes 8 (t_size t)))
                  | _ => get_prim 6 (t_prim t) m
                  end)
    (fun t m _ c => match m, c with
                    | M_size, CBasic b => Ok (mk_type (t_prim t) (le_val b))
                    | _, _ => do p <- set_prim (t_prim t) m c; Ok (mk_type p (t_size t))
                    end).
Definition tb_enum_const : table_type enum_const :=
  mk_tb m_EnumConstantType (mk_econst noprim 0) (fun e => p_name (ec_prim e))
    (fun e m _ => match m with
                  | M_value => Ok (CBasic (le_bytes 4 (ec_value e)))
                  | _ => get_prim 7 (ec_prim e) m
                  end)
    (fun e m _ c => match m, c with
                    | M_value, CBasic b => Ok (mk_econst (ec_prim e) (s32 (le_val b)))
                    | _, _ => do p <- set_prim (ec_prim e) m c; Ok (mk_econst p (ec_value e))
                    end).
Definition tb_enum : table_type enum :=
  mk_tb m_EnumType (mk_enum noprim 0 0) (fun e => p_name (e_prim e))
    (fun e m _ => match m with
                  | M_size => Ok (CBasic (le_bytes 8 (e_size e)))
                  | M_scoped => Ok (CBasic (le_bytes 4 (e_scoped e)))
                  | _ => get_prim 8 (e_prim e) m
                  end)
    (fun e m _ c => match m, c with
                    | M_size, CBasic b => Ok (mk_enum (e_prim e) (le_val b) (e_scoped e))
                    | M_scoped, CBasic b => Ok (mk_enum (e_prim e) (e_size e) (s32 (le_val b)))
                    | _, _ => do p <- set_prim (e_prim e) m c; Ok (mk_enum p (e_size e) (e_scoped e))
                    end).
(* the four bytes of the operator, the byte of is_const and three bytes of padding, here zero *)
Definition qop_z (o : qop) : Z := match o with VALUE => 0 | POINTER => 1 | REFERENCE => 2 end.
Definition qual_bytes (q : qualifier) : list Z := le_bytes 4 (qop_z (q_op q)) ++ [b2z (q_const q); 0; 0; 0].
Definition qual_of (b : list Z) : outcome qualifier :=
  do o <- (match le_val (firstn 4 b) with 0 => Ok VALUE | 1 => Ok POINTER | 2 => Ok REFERENCE | _ => UB end);
  do c <- rd b 4;
  Ok (mk_qual o (z2b c)).
Definition tb_field : table_type field :=
  mk_tb m_FieldType (mk_field noprim noname (mk_qual VALUE false) (-1) 0) (fun f => p_name (f_prim f))
    (fun f m _ => match m with
                  | M_type => Ok (CName (f_type f))
                  | M_qualifier => Ok (CBasic (qual_bytes (f_qual f)))
                  | M_offset => Ok (CBasic (le_bytes 4 (f_offset f)))
                  | M_parent_uid => Ok (CBasic (le_bytes 4 (f_parent_uid f)))
                  | _ => get_prim 9 (f_prim f) m
                  end)
    (fun f m _ c => match m, c with
                    | M_type, CName n => Ok (mk_field (f_prim f) n (f_qual f) (f_offset f) (f_parent_uid f))
                    | M_qualifier, CBasic b =>
                        do q <- qual_of b; Ok (mk_field (f_prim f) (f_type f) q (f_offset f) (f_parent_uid f))
                    | M_offset, CBasic b => Ok (mk_field (f_prim f) (f_type f) (f_qual f) (s32 (le_val b)) (f_parent_uid f))
                    | M_parent_uid, CBasic b => Ok (mk_field (f_prim f) (f_type f) (f_qual f) (f_offset f) (le_val b))
                    | _, _ => do p <- set_prim (f_prim f) m c;
                              Ok (mk_field p (f_type f) (f_qual f) (f_offset f) (f_parent_uid f))
                    end).
Definition tb_function : table_type function :=
  mk_tb m_FunctionType (mk_func noprim 0 0) (fun f => p_name (fn_prim f))
    (fun f m _ => match m with
                  | M_uid => Ok (CBasic (le_bytes 4 (fn_uid f)))
                  | _ => get_prim 10 (fn_prim f) m
                  end)
    (fun f m _ c => match m, c with
                    | M_uid, CBasic b => Ok (mk_func (fn_prim f) (le_val b) (fn_address f))
                    | _, _ => do p <- set_prim (fn_prim f) m c; Ok (mk_func p (fn_uid f) (fn_address f))
                    end).
Definition tb_class : table_type class :=
  mk_tb m_ClassType (mk_class noprim 0 false) (fun c => p_name (c_prim c))
    (fun k m _ => match m with
                  | M_size => Ok (CBasic (le_bytes 8 (c_size k)))
                  | M_is_class => Ok (CBasic [b2z (c_is_class k)])
                  | _ => get_prim 13 (c_prim k) m
                  end)
    (fun k m _ c => match m, c with
                    | M_size, CBasic b => Ok (mk_class (c_prim k) (le_val b) (c_is_class k))
                    | M_is_class, CBasic b => do x <- rd b 0; Ok (mk_class (c_prim k) (c_size k) (z2b x))
                    | _, _ => do p <- set_prim (c_prim k) m c; Ok (mk_class p (c_size k) (c_is_class k))
                    end).
Definition tb_template_type : table_type template_type :=
  mk_tb m_TemplateTypeType (mk_ttype noprim 0 (repeat noname 4) (repeat false 4)) (fun t => p_name (tt_prim t))
    (fun t m j => match m with
                  | M_size => Ok (CBasic (le_bytes 8 (tt_size t)))
                  | M_param_types => do n <- rd (tt_types t) (Z.of_nat j); Ok (CName n)
                  | M_param_ptrs => do b <- rd (tt_ptrs t) (Z.of_nat j); Ok (CBasic [b2z b])
                  | _ => get_prim 11 (tt_prim t) m
                  end)
    (fun t m j c => match m, c with
                    | M_size, CBasic b => Ok (mk_ttype (tt_prim t) (le_val b) (tt_types t) (tt_ptrs t))
                    | M_param_types, CName n =>
                        do l <- wr (tt_types t) (Z.of_nat j) n; Ok (mk_ttype (tt_prim t) (tt_size t) l (tt_ptrs t))
                    | M_param_ptrs, CBasic b =>
                        do x <- rd b 0; do l <- wr (tt_ptrs t) (Z.of_nat j) (z2b x);
                        Ok (mk_ttype (tt_prim t) (tt_size t) (tt_types t) l)
                    | _, _ => do p <- set_prim (tt_prim t) m c; Ok (mk_ttype p (tt_size t) (tt_types t) (tt_ptrs t))
                    end).
Definition tb_int : table_type int_attr :=
  mk_tb m_IntAttributeType (mk_int noprim 0) (fun a => p_name (ia_prim a))
    (fun a m _ => match m with
                  | M_value => Ok (CBasic (le_bytes 4 (ia_value a)))
                  | _ => get_prim 2 (ia_prim a) m
                  end)
    (fun a m _ c => match m, c with
                    | M_value, CBasic b => Ok (mk_int (ia_prim a) (s32 (le_val b)))
                    | _, _ => do p <- set_prim (ia_prim a) m c; Ok (mk_int p (ia_value a))
                    end).
Definition tb_float : table_type float_attr :=
  mk_tb m_FloatAttributeType (mk_float noprim 0) (fun a => p_name (fa_prim a))
    (fun a m _ => match m with
                  | M_value => Ok (CBasic (le_bytes 4 (fa_value a)))
                  | _ => get_prim 3 (fa_prim a) m
                  end)
    (fun a m _ c => match m, c with
                    | M_value, CBasic b => Ok (mk_float (fa_prim a) (le_val b))
                    | _, _ => do p <- set_prim (fa_prim a) m c; Ok (mk_float p (fa_value a))
                    end).
Definition tb_pattr : table_type prim_attr :=
  mk_tb m_PrimitiveAttributeType (mk_pattr noprim noname) (fun a => p_name (pa_prim a))
    (fun a m _ => match m with
                  | M_value => Ok (CName (pa_value a))
                  | _ => get_prim 4 (pa_prim a) m
                  end)
    (fun a m _ c => match m, c with
                    | M_value, CName n => Ok (mk_pattr (pa_prim a) n)
                    | _, _ => do p <- set_prim (pa_prim a) m c; Ok (mk_pattr p (pa_value a))
                    end).
Definition tb_text : table_type text_attr :=
  mk_tb m_TextAttributeType (mk_text noprim []) (fun a => p_name (ta_prim a))
    (fun a m _ => match m with
                  | M_value => Ok (CStr (ta_value a))
                  | _ => get_prim 5 (ta_prim a) m
                  end)
    (fun a m _ c => match m, c with
                    | M_value, CStr s => Ok (mk_text (ta_prim a) s)
                    | _, _ => do p <- set_prim (ta_prim a) m c; Ok (mk_text p (ta_value a))
                    end).
Definition tb_container : table_type container_info :=
  mk_tb m_ContainerInfoType (mk_cinfo noname noname noname 0 0) ci_name
    (fun a m _ => match m with
                  | M_name => Ok (CName (ci_name a))
                  | M_read => Ok (CName (ci_read a))
                  | M_write => Ok (CName (ci_write a))
                  | M_flags => Ok (CBasic (le_bytes 4 (ci_flags a)))
                  | M_count => Ok (CBasic (le_bytes 4 (ci_count a)))
                  | _ => UB
                  end)
    (fun a m _ c => match m, c with
                    | M_name, CName n => Ok (mk_cinfo n (ci_read a) (ci_write a) (ci_flags a) (ci_count a))
                    | M_read, CName n => Ok (mk_cinfo (ci_name a) n (ci_write a) (ci_flags a) (ci_count a))
                    | M_write, CName n => Ok (mk_cinfo (ci_name a) (ci_read a) n (ci_flags a) (ci_count a))
                    | M_flags, CBasic b => Ok (mk_cinfo (ci_name a) (ci_read a) (ci_write a) (le_val b) (ci_count a))
                    | M_count, CBasic b => Ok (mk_cinfo (ci_name a) (ci_read a) (ci_write a) (ci_flags a) (le_val b))
                    | _, _ => UB
                    end).
Definition tb_inherit : table_type type_inheritance :=
  mk_tb m_InheritanceType (mk_inh noname noname noname) ti_name
    (fun a m _ => match m with
                  | M_name => Ok (CName (ti_name a))
                  | M_derived => Ok (CName (ti_derived a))
                  | M_base => Ok (CName (ti_base a))
                  | _ => UB
                  end)
    (fun a m _ c => match m, c with
                    | M_name, CName n => Ok (mk_inh n (ti_derived a) (ti_base a))
                    | M_derived, CName n => Ok (mk_inh (ti_name a) n (ti_base a))
                    | M_base, CName n => Ok (mk_inh (ti_name a) (ti_derived a) n)
                    | _, _ => UB
                    end).

(* ---- writing ---- *)

(* DatabaseBinarySerialiser.cpp:31-43 Write of an int or u32, and of a string. A string of 2^31
   bytes or more has a negative length. *)
Definition WriteInt (v : Z) : list Z := le_bytes 4 v.
Definition WriteString (s : list Z) : outcome (list Z) :=
  if zlen s <? 2 ^ 31 then Ok (WriteInt (zlen s) ++ s) else UB.

(* 46-76 CopyInteger / CopyMemory / CopyNameToHash / CopyStringToHash: the bytes stored for a cell.
   A basic cell always has its member's size. *)
Definition hash_of (s : list Z) : outcome Z := HashNameString (s ++ [0]) 0.
Definition pack_cell (f : dbfield) (c : cell) : outcome (list Z) :=
  match df_type f, c with
  | FT_BASIC, CBasic b => if zlen b =? df_psize f then Ok b else UB
  | FT_NAME, CName n => Ok (le_bytes 4 (n_hash n))
  | FT_STRING, CStr s => do h <- hash_of s; Ok (le_bytes 4 h)
  | _, _ => UB
  end.
(* 79-89 CopyStridedData, packing: element j of one field of every entry *)
Fixpoint pack_column {T} (tb : table_type T) (f : dbfield) (j : nat) (rows : list T) (dest stride : Z) (out : list Z)
  : outcome (list Z) :=
  match rows with
  | [] => Ok out
  | r :: rs =>
      do c <- tb_get tb r (df_member f) j;
      do b <- pack_cell f c;
      do out' <- wr_bytes out dest b;
      pack_column tb f j rs (dest + stride) stride out'
  end.
(* the (field, j) pairs in the order of the loops of 109-134: the type's own fields, then its base's *)
Fixpoint columns (t : dbtype) : list (dbfield * nat) :=
  flat_map (fun f => map (fun j => (f, j)) (seq 0 (df_count f))) (dt_fields t) ++
  match dt_base t with Some b => columns b | None => [] end.
(* 106-135 PackTable *)
Fixpoint pack_columns {T} (tb : table_type T) (cols : list (dbfield * nat)) (rows : list T) (out : list Z) : outcome (list Z) :=
  match cols with
  | [] => Ok out
  | (f, j) :: cs =>
      do out' <- pack_column tb f j rows (df_poff f + Z.of_nat j * df_psize f) (dt_psize (tb_meta tb)) out;
      pack_columns tb cs rows out'
  end.
Definition PackTable {T} (tb : table_type T) (rows : list T) (out : list Z) : outcome (list Z) :=
  pack_columns tb (columns (tb_meta tb)) rows out.
(* 149-174 WriteTable (and CopyMapToTable, 138-146). The allocated block is uninitialised in the
   code, zero here. *)
Definition WriteTable {T} (tb : table_type T) (m : zmap T) : outcome (list Z) :=
  let rows := map snd m in
  let packed_size := zlen rows * dt_psize (tb_meta tb) in
  if negb (packed_size <? 2 ^ 31) then UB else
  match rows with
  | [] => Ok (WriteInt 0)
  | _ => do data <- PackTable tb rows (repeat 0 (Z.to_nat packed_size)); Ok (WriteInt (zlen rows) ++ data)
  end.
(* the entries of a map from hash to string, as the two tables below write them *)
Fixpoint write_entries (l : list (Z * list Z)) : outcome (list Z) :=
  match l with
  | [] => Ok []
  | (h, s) :: r => do a <- WriteString s; do b <- write_entries r; Ok (WriteInt h ++ a ++ b)
  end.
(* 177-189 WriteNameTable *)
Definition WriteNameTable (names : zmap name) : outcome (list Z) :=
  do e <- write_entries (map (fun x => (n_hash (snd x), n_text (snd x))) names);
  Ok (WriteInt (zlen names) ++ e).
(* 199-206: the map from hash to text *)
Fixpoint text_map (l : list text_attr) (m : zmap (list Z)) : outcome (zmap (list Z)) :=
  match l with
  | [] => Ok m
  | a :: r => do h <- hash_of (ta_value a); text_map r (m_set h (ta_value a) m)
  end.
(* 192-214 WriteTextAttributeTable: the count is that of the attributes, not of the map *)
Definition WriteTextAttributeTable (texts : zmap text_attr) : outcome (list Z) :=
  do m <- text_map (map snd texts) [];
  do e <- write_entries m;
  Ok (WriteInt (zlen texts) ++ e).
(* 218-252 WriteBinaryDatabase *)
Definition WriteBinaryDatabase (db : database) : outcome (list Z) :=
  do a0 <- WriteNameTable (m_names db);
  do a1 <- WriteTextAttributeTable (m_text_attrs db);
  do a2 <- WriteTable tb_type (m_types db);
  do a3 <- WriteTable tb_enum_const (m_enum_consts db);
  do a4 <- WriteTable tb_enum (m_enums db);
  do a5 <- WriteTable tb_field (m_fields db);
  do a6 <- WriteTable tb_function (m_functions db);
  do a7 <- WriteTable tb_class (m_classes db);
  do a8 <- WriteTable tb_template (m_templates db);
  do a9 <- WriteTable tb_template_type (m_template_types db);
  do a10 <- WriteTable tb_namespace (m_namespaces db);
  do a11 <- WriteTable tb_flag (m_flag_attrs db);
  do a12 <- WriteTable tb_int (m_int_attrs db);
  do a13 <- WriteTable tb_float (m_float_attrs db);
  do a14 <- WriteTable tb_pattr (m_prim_attrs db);
  do a15 <- WriteTable tb_text (m_text_attrs db);
  do a16 <- WriteTable tb_container (m_containers db);
  do a17 <- WriteTable tb_inherit (m_inherits db);
  Ok (WriteInt FILE_HEADER ++ WriteInt FILE_VERSION ++ a0 ++ a1 ++ a2 ++ a3 ++ a4 ++ a5 ++ a6 ++ a7 ++ a8 ++
      a9 ++ a10 ++ a11 ++ a12 ++ a13 ++ a14 ++ a15 ++ a16 ++ a17).

(* ---- reading ---- *)

(* fread of n bytes whose result is used unchecked (257-263): past the end of the file it leaves
   uninitialised memory to be read *)
Definition fread (n : Z) (f : list Z) : outcome (list Z * list Z) :=
  if n <=? zlen f then Ok (firstn (Z.to_nat n) f, skipn (Z.to_nat n) f) else UB.
Definition ReadU32 (f : list Z) : outcome (Z * list Z) := do x <- fread 4 f; Ok (le_val (fst x), snd x).
Definition ReadInt (f : list Z) : outcome (Z * list Z) := do x <- fread 4 f; Ok (s32 (le_val (fst x)), snd x).
(* 266-278 Read<std::string>: the comparison with sizeof(data) - 1 is unsigned *)
Definition ReadString (f : list Z) : outcome (list Z * list Z) :=
  do x <- ReadInt f;
  let len := if u64 (fst x) >? 1023 then 1023 else fst x in
  do y <- fread len (snd x);
  do s <- c_str (fst y ++ [0]);
  Ok (s, snd y).

(* 281-295 CopyHashToName / CopyHashToString and the basic copies. texts[hash] is the empty string
   when it is absent. *)
Definition unpack_cell (names : zmap name) (texts : zmap (list Z)) (f : dbfield) (b : list Z) : cell :=
  match df_type f with
  | FT_BASIC => CBasic b
  | FT_NAME => CName (GetNameH names (le_val b))
  | FT_STRING => CStr (match m_find (le_val b) texts with Some s => s | None => [] end)
  end.
Fixpoint unpack_column {T} (tb : table_type T) names texts (f : dbfield) (j : nat) (rows : list T) (src stride : Z) (data : list Z)
  : outcome (list T) :=
  match rows with
  | [] => Ok []
  | r :: rs =>
      do b <- rd_bytes data src (df_psize f);
      do r' <- tb_set tb r (df_member f) j (unpack_cell names texts f b);
      do rs' <- unpack_column tb names texts f j rs (src + stride) stride data;
      Ok (r' :: rs')
  end.
(* 298-327 UnpackTable *)
Fixpoint unpack_columns {T} (tb : table_type T) names texts (cols : list (dbfield * nat)) (rows : list T) (data : list Z) : outcome (list T) :=
  match cols with
  | [] => Ok rows
  | (f, j) :: cs =>
      do rows' <- unpack_column tb names texts f j rows (df_poff f + Z.of_nat j * df_psize f) (dt_psize (tb_meta tb)) data;
      unpack_columns tb names texts cs rows' data
  end.
Definition UnpackTable {T} (tb : table_type T) names texts (rows : list T) (data : list Z) : outcome (list T) :=
  unpack_columns tb names texts (columns (tb_meta tb)) rows data.
(* 349-350: each entry is added under its name *)
Fixpoint add_all {T} (add : name -> T -> zmap T -> outcome (zmap T)) (nm : T -> name) (rows : list T) (m : zmap T) : outcome (zmap T) :=
  match rows with
  | [] => Ok m
  | r :: rs => do m' <- add (nm r) r m; add_all add nm rs m'
  end.
(* 330-352 ReadTable. A negative count makes std::vector throw. *)
Definition ReadTable {T} (tb : table_type T) (add : name -> T -> zmap T -> outcome (zmap T)) names texts (m : zmap T) (f : list Z)
  : outcome (zmap T * list Z) :=
  do x <- ReadInt f;
  let n := fst x in
  if n <? 0 then Trap else
  if n =? 0 then Ok (m, snd x) else
  let packed_size := n * dt_psize (tb_meta tb) in
  if negb (packed_size <? 2 ^ 31) then UB else
  do y <- fread packed_size (snd x);
  do rows <- UnpackTable tb names texts (repeat (tb_new tb) (Z.to_nat n)) (fst y);
  do m' <- add_all add (tb_name tb) rows m;
  Ok (m', snd y).
(* the loops of 355-385 *)
Fixpoint read_entries {V} (mk : Z -> list Z -> V) (n : nat) (m : zmap V) (f : list Z) : outcome (zmap V * list Z) :=
  match n with
  | O => Ok (m, f)
  | S n' =>
      do x <- ReadU32 f;
      do y <- ReadString (snd x);
      read_entries mk n' (m_set (fst x) (mk (fst x) (fst y)) m) (snd y)
  end.
(* 355-368 ReadNameTable *)
Definition ReadNameTable (names : zmap name) (f : list Z) : outcome (zmap name * list Z) :=
  do x <- ReadInt f; read_entries mk_name (Z.to_nat (fst x)) names (snd x).
(* 371-385 ReadTextAttributeTable *)
Definition ReadTextAttributeTable (f : list Z) : outcome (zmap (list Z) * list Z) :=
  do x <- ReadInt f; read_entries (fun _ s => s) (Z.to_nat (fst x)) [] (snd x).
(* 429-443 IsBinaryDatabase; a missing file is not a database *)
Definition IsBinaryDatabase (file : option (list Z)) : outcome bool :=
  match file with
  | None => Ok false
  | Some f =>
      do x <- ReadU32 f;
      do y <- ReadU32 (snd x);
      Ok ((fst x =? FILE_HEADER) && (fst y =? FILE_VERSION))
  end.
(* 389-426 ReadBinaryDatabase: the database afterwards, None when the file is refused *)
Definition ReadBinaryDatabase (file : option (list Z)) (db : database) : outcome (option database) :=
  do ok <- IsBinaryDatabase file;
  if negb ok then Ok None else
  match file with
  | None => Ok None
  | Some f =>
      do h <- ReadU32 f;
      do v <- ReadU32 (snd h);
      do x0 <- ReadNameTable (m_names db) (snd v);
      do x1 <- ReadTextAttributeTable (snd x0);
      let names := fst x0 in let texts := fst x1 in
      do x2 <- ReadTable tb_type db_add names texts (m_types db) (snd x1);
      do x3 <- ReadTable tb_enum_const db_add names texts (m_enum_consts db) (snd x2);
      do x4 <- ReadTable tb_enum db_add names texts (m_enums db) (snd x3);
      do x5 <- ReadTable tb_field db_add names texts (m_fields db) (snd x4);
      do x6 <- ReadTable tb_function db_add names texts (m_functions db) (snd x5);
      do x7 <- ReadTable tb_class db_add names texts (m_classes db) (snd x6);
      do x8 <- ReadTable tb_template db_add names texts (m_templates db) (snd x7);
      do x9 <- ReadTable tb_template_type db_add names texts (m_template_types db) (snd x8);
      do x10 <- ReadTable tb_namespace db_add names texts (m_namespaces db) (snd x9);
      do x11 <- ReadTable tb_flag db_add names texts (m_flag_attrs db) (snd x10);
      do x12 <- ReadTable tb_int db_add names texts (m_int_attrs db) (snd x11);
      do x13 <- ReadTable tb_float db_add names texts (m_float_attrs db) (snd x12);
      do x14 <- ReadTable tb_pattr db_add names texts (m_prim_attrs db) (snd x13);
      do x15 <- ReadTable tb_text db_add names texts (m_text_attrs db) (snd x14);
      do x16 <- ReadTable tb_container db_add_unique names texts (m_containers db) (snd x15);
      do x17 <- ReadTable tb_inherit db_add_unique names texts (m_inherits db) (snd x16);
      Ok (Some (mk_db names (fst x10) (fst x2) (fst x8) (fst x9) (fst x7) (fst x4) (fst x3) (fst x6) (fst x5)
                  (fst x11) (fst x12) (fst x13) (fst x14) (fst x15) (fst x16) (fst x17)))
  end.
