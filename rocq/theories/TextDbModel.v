(* Text database files: src/clReflectCore/DatabaseTextSerialiser.cpp. A file is the list of its
   bytes (text mode translates nothing, as on Unix). printf("%f") and sscanf("%f") are not modelled: they are the parameters pf and sf, from
   the bits of a float to its text and back. *)
From Verif Require Import Base Text HashModel Maps DatabaseModel FileUtilsModel.

(* DatabaseTextSerialiser.cpp:24 *)
Definition CURRENT_VERSION : Z := 1.
Definition tab : list Z := [9].
Definition nl : list Z := [10].
(* itohex with its static buffer; what the buffer held before has no effect (C41) *)
Definition hex (v : Z) : outcome (list Z) := itohex (repeat 0 9) (u32 v).
(* itoa takes an unsigned int *)
Definition dec (v : Z) : list Z := itoa (u32 v).

(* the C string at the start of a text: what fputs(s.c_str()) writes and what the reader sees of a
   line in the terminated buffer of ReadLine *)
Fixpoint c_cut (line : list Z) : list Z :=
  match line with [] => [] | c :: r => if c =? 0 then [] else c :: c_cut r end.

(* 34-41 WriteNamedRuler; the strcpy writes a terminator that the next line replaces *)
Definition ruler : list Z := str "---- --------------------------------------------------------------------" ++ nl ++ [0].
Definition WriteNamedRuler (text : list Z) : outcome (list Z) :=
  do a <- wr_bytes ruler 5 (text ++ [0]);
  do b <- wr a (5 + zlen text) 32;
  c_str b.
(* 44-47 WriteRuler *)
Definition WriteRuler : list Z := str "-------------------------------------------------------------------------" ++ nl.
(* 50-63 *)
Definition WriteTableHeader (title headers : list Z) : outcome (list Z) :=
  do a <- WriteNamedRuler title; Ok (a ++ headers ++ nl ++ WriteRuler).
Definition WriteTableFooter : list Z := WriteRuler ++ nl ++ nl.

(* 66-71; fputs stops at a NUL in the text *)
Definition WriteName (n : name) : outcome (list Z) := do h <- hex (n_hash n); Ok (h ++ tab ++ c_cut (n_text n)).
(* 74-79 *)
Definition WritePrimitive (p : prim) : outcome (list Z) :=
  do a <- hex (n_hash (p_name p)); do b <- hex (n_hash (p_parent p)); Ok (a ++ tab ++ b).
(* 82-87 *)
Definition write_type (p : prim) (size : Z) : outcome (list Z) :=
  do a <- WritePrimitive p; do b <- hex size; Ok (a ++ tab ++ b).
Definition WriteType (t : type_) := write_type (t_prim t) (t_size t).
Definition flag (b : bool) : list Z := if b then str "1" else str "0".
(* 90-95 *)
Definition WriteClass (c : class) : outcome (list Z) :=
  do a <- write_type (c_prim c) (c_size c); Ok (a ++ tab ++ tab ++ flag (c_is_class c)).
(* 97-117; another value of the enumeration prints nothing *)
Definition WriteEnumScoped (s : Z) : list Z :=
  match s with 0 => str "n" | 1 => str "c" | 2 => str "s" | _ => [] end.
Definition WriteEnum (e : enum) : outcome (list Z) :=
  do a <- write_type (e_prim e) (e_size e); Ok (a ++ tab ++ WriteEnumScoped (e_scoped e)).
(* 120-125 *)
Definition WriteEnumConstant (e : enum_const) : outcome (list Z) :=
  do a <- WritePrimitive (ec_prim e); Ok (a ++ tab ++ dec (ec_value e)).
(* 128-138 *)
Definition WriteQualifier (q : qualifier) : list Z :=
  (match q_op q with VALUE => str "v" | POINTER => str "p" | REFERENCE => str "r" end) ++ tab ++ flag (q_const q).
(* 141-152 *)
Definition WriteField (f : field) : outcome (list Z) :=
  do a <- WritePrimitive (f_prim f);
  do t <- hex (n_hash (f_type f));
  do u <- hex (f_parent_uid f);
  Ok (a ++ tab ++ t ++ tab ++ WriteQualifier (f_qual f) ++ tab ++ dec (f_offset f) ++ tab ++ tab ++ u).
(* 155-160 *)
Definition WriteFunction (f : function) : outcome (list Z) :=
  do a <- WritePrimitive (fn_prim f); do u <- hex (fn_uid f); Ok (a ++ tab ++ u).
(* 163-177: only the parameters with a type *)
Fixpoint write_params (ts : list name) (ps : list bool) : outcome (list Z) :=
  match ts, ps with
  | t :: ts', p :: ps' =>
      do r <- write_params ts' ps';
      if n_hash t =? 0 then Ok r else do h <- hex (n_hash t); Ok (h ++ tab ++ flag p ++ tab ++ r)
  | _, _ => Ok []
  end.
Definition WriteTemplateType (t : template_type) : outcome (list Z) :=
  do a <- write_type (tt_prim t) (tt_size t);
  do ps <- write_params (tt_types t) (tt_ptrs t);
  Ok (a ++ tab ++ ps).
(* 180-185 *)
Definition WriteIntAttribute (a : int_attr) : outcome (list Z) :=
  do p <- WritePrimitive (ia_prim a); Ok (p ++ tab ++ dec (ia_value a)).
(* 188-193 *)
Definition WriteFloatAttribute (pf : Z -> list Z) (a : float_attr) : outcome (list Z) :=
  do p <- WritePrimitive (fa_prim a); Ok (p ++ tab ++ pf (fa_value a)).
(* 196-201 *)
Definition WritePrimitiveAttribute (a : prim_attr) : outcome (list Z) :=
  do p <- WritePrimitive (pa_prim a); do v <- hex (n_hash (pa_value a)); Ok (p ++ tab ++ v).
(* 204-215 *)
Definition WriteContainerInfo (c : container_info) : outcome (list Z) :=
  do a <- hex (n_hash (ci_name c)); do b <- hex (n_hash (ci_read c)); do d <- hex (n_hash (ci_write c));
  do e <- hex (ci_flags c); do g <- hex (ci_count c);
  Ok (a ++ tab ++ b ++ tab ++ d ++ tab ++ e ++ tab ++ g).
(* 217-224 *)
Definition WriteTypeInheritance (t : type_inheritance) : outcome (list Z) :=
  do a <- hex (n_hash (ti_name t)); do b <- hex (n_hash (ti_derived t)); do d <- hex (n_hash (ti_base t));
  Ok (a ++ tab ++ b ++ tab ++ d).
(* 226-231 *)
Definition WriteTextAttribute (a : text_attr) : outcome (list Z) :=
  do p <- WritePrimitive (ta_prim a); Ok (p ++ tab ++ c_cut (ta_value a)).

(* 234-244 WriteTable (255-264 for names) *)
Fixpoint write_rows {T} (print : T -> outcome (list Z)) (rows : list T) : outcome (list Z) :=
  match rows with
  | [] => Ok []
  | r :: rs => do a <- print r; do b <- write_rows print rs; Ok (a ++ nl ++ b)
  end.
Definition WriteTable {T} (print : T -> outcome (list Z)) (m : zmap T) (title headers : list Z) : outcome (list Z) :=
  do h <- WriteTableHeader title headers;
  do r <- write_rows print (map snd m);
  Ok (h ++ r ++ WriteTableFooter).

(* the column headers, with \t for a tab *)
Definition cols (l : list string) : list Z :=
  match l with [] => [] | s :: r => str s ++ concat (map (fun x => tab ++ tab ++ str x) r) end.
(* 268-304 WriteTextDatabase *)
Definition text_header : list Z :=
  nl ++ str "clReflect Database" ++ nl ++ str "Format Version: " ++ dec CURRENT_VERSION ++ nl ++ nl ++ nl.
Definition WriteTextDatabase (pf : Z -> list Z) (db : database) : outcome (list Z) :=
  do a0 <- WriteTable WriteName (m_names db) (str "Names") (cols ["Hash"; "Name"]%string);
  do a1 <- WriteTable WriteType (m_types db) (str "Types") (cols ["Name"; "Parent"; "Size"]%string);
  do a2 <- WriteTable WriteEnumConstant (m_enum_consts db) (str "Enum Constants") (cols ["Name"; "Parent"; "Value"]%string);
  do a3 <- WriteTable WriteEnum (m_enums db) (str "Enums") (cols ["Name"; "Parent"; "Size"; "Scoped"]%string);
  do a4 <- WriteTable WriteField (m_fields db) (str "Fields")
             (cols ["Name"; "Parent"; "Type"; "Mod"]%string ++ tab ++ str "Cst" ++ tab ++ str "Offs" ++ tab ++ str "UID");
  do a5 <- WriteTable WriteFunction (m_functions db) (str "Functions") (cols ["Name"; "Parent"; "UID"]%string);
  do a6 <- WriteTable WriteClass (m_classes db) (str "Classes") (cols ["Name"; "Parent"; "Size"; "Base"; "Is Class"]%string);
  do a7 <- WriteTable WritePrimitive (m_templates db) (str "Templates") (cols ["Name"; "Parent"]%string);
  do a8 <- WriteTable WriteTemplateType (m_template_types db) (str "Template Types") (cols ["Name"; "Parent"; "Argument type and pointer pairs"]%string);
  do a9 <- WriteTable WritePrimitive (m_namespaces db) (str "Namespaces") (cols ["Name"; "Parent"]%string);
  do a10 <- WriteTable WritePrimitive (m_flag_attrs db) (str "Flag Attributes") (cols ["Name"; "Parent"]%string);
  do a11 <- WriteTable WriteIntAttribute (m_int_attrs db) (str "Int Attributes") (cols ["Name"; "Parent"; "Value"]%string);
  do a12 <- WriteTable (WriteFloatAttribute pf) (m_float_attrs db) (str "Float Attributes") (cols ["Name"; "Parent"; "Value"]%string);
  do a13 <- WriteTable WritePrimitiveAttribute (m_prim_attrs db) (str "Primitive Attributes") (cols ["Name"; "Parent"; "Value"]%string);
  do a14 <- WriteTable WriteTextAttribute (m_text_attrs db) (str "Text Attributes") (cols ["Name"; "Parent"; "Value"]%string);
  do a15 <- WriteTable WriteContainerInfo (m_containers db) (str "Containers") (cols ["Name"; "Read"; "Write"; "Flags"; "Count"]%string);
  do a16 <- WriteTable WriteTypeInheritance (m_inherits db) (str "Inheritance") (cols ["Name"; "Derived"; "Base"]%string);
  Ok (text_header ++ a0 ++ a1 ++ a2 ++ a3 ++ a4 ++ a5 ++ a6 ++ a7 ++ a8 ++ a9 ++ a10 ++ a11 ++ a12 ++ a13 ++ a14 ++ a15 ++ a16).

(* ---- reading ---- *)

(* strtok (C library) with one delimiter: leading delimiters are skipped, then a token up to the
   next one; none at the end of the text *)
Fixpoint skip_delim (d : Z) (t : list Z) : list Z :=
  match t with c :: r => if c =? d then skip_delim d r else t | [] => [] end.
Fixpoint take_token (d : Z) (t : list Z) : list Z * list Z :=
  match t with
  | [] => ([], [])
  | c :: r => if c =? d then ([], r) else let x := take_token d r in (c :: fst x, snd x)
  end.
(* 313-327 StringTokeniser::Get; None is the null pointer *)
Definition tok_get (d : Z) (t : list Z) : option (list Z) * list Z :=
  match skip_delim d t with
  | [] => (None, [])
  | t' => let x := take_token d t' in (Some (fst x), snd x)
  end.
(* atoi (C library): white space, a sign, digits; a value that is no int is undefined behaviour *)
Definition is_space (c : Z) : bool := (c =? 32) || ((9 <=? c) && (c <=? 13)).
Fixpoint skip_space (s : list Z) : list Z := match s with c :: r => if is_space c then skip_space r else s | [] => [] end.
Fixpoint atoi_digits (s : list Z) (acc : Z) : Z :=
  match s with
  | c :: r => if (48 <=? c) && (c <=? 57) then atoi_digits r (acc * 10 + (c - 48)) else acc
  | [] => acc
  end.
Definition atoi (s : list Z) : outcome Z :=
  let v := match skip_space s with
           | 45 :: r => - atoi_digits r 0
           | 43 :: r => atoi_digits r 0
           | r => atoi_digits r 0
           end in
  if (-2147483648 <=? v) && (v <? 2147483648) then Ok v else UB.
(* 330-343 GetHexInt, GetInt *)
Definition tok_hex (t : list Z) : Z * list Z :=
  match tok_get 9 t with (None, r) => (0, r) | (Some s, r) => (hextoi s, r) end.
Definition tok_int (d : Z) (t : list Z) : outcome (Z * list Z) :=
  match tok_get d t with (None, r) => Ok (0, r) | (Some s, r) => do v <- atoi s; Ok (v, r) end.

(* the database with one table replaced *)
Definition with_names d x := mk_db x (m_namespaces d) (m_types d) (m_templates d) (m_template_types d) (m_classes d) (m_enums d) (m_enum_consts d) (m_functions d) (m_fields d) (m_flag_attrs d) (m_int_attrs d) (m_float_attrs d) (m_prim_attrs d) (m_text_attrs d) (m_containers d) (m_inherits d).
Definition with_namespaces d x := mk_db (m_names d) x (m_types d) (m_templates d) (m_template_types d) (m_classes d) (m_enums d) (m_enum_consts d) (m_functions d) (m_fields d) (m_flag_attrs d) (m_int_attrs d) (m_float_attrs d) (m_prim_attrs d) (m_text_attrs d) (m_containers d) (m_inherits d).
Definition with_types d x := mk_db (m_names d) (m_namespaces d) x (m_templates d) (m_template_types d) (m_classes d) (m_enums d) (m_enum_consts d) (m_functions d) (m_fields d) (m_flag_attrs d) (m_int_attrs d) (m_float_attrs d) (m_prim_attrs d) (m_text_attrs d) (m_containers d) (m_inherits d).
Definition with_templates d x := mk_db (m_names d) (m_namespaces d) (m_types d) x (m_template_types d) (m_classes d) (m_enums d) (m_enum_consts d) (m_functions d) (m_fields d) (m_flag_attrs d) (m_int_attrs d) (m_float_attrs d) (m_prim_attrs d) (m_text_attrs d) (m_containers d) (m_inherits d).
Definition with_template_types d x := mk_db (m_names d) (m_namespaces d) (m_types d) (m_templates d) x (m_classes d) (m_enums d) (m_enum_consts d) (m_functions d) (m_fields d) (m_flag_attrs d) (m_int_attrs d) (m_float_attrs d) (m_prim_attrs d) (m_text_attrs d) (m_containers d) (m_inherits d).
Definition with_classes d x := mk_db (m_names d) (m_namespaces d) (m_types d) (m_templates d) (m_template_types d) x (m_enums d) (m_enum_consts d) (m_functions d) (m_fields d) (m_flag_attrs d) (m_int_attrs d) (m_float_attrs d) (m_prim_attrs d) (m_text_attrs d) (m_containers d) (m_inherits d).
Definition with_enums d x := mk_db (m_names d) (m_namespaces d) (m_types d) (m_templates d) (m_template_types d) (m_classes d) x (m_enum_consts d) (m_functions d) (m_fields d) (m_flag_attrs d) (m_int_attrs d) (m_float_attrs d) (m_prim_attrs d) (m_text_attrs d) (m_containers d) (m_inherits d).
Definition with_enum_consts d x := mk_db (m_names d) (m_namespaces d) (m_types d) (m_templates d) (m_template_types d) (m_classes d) (m_enums d) x (m_functions d) (m_fields d) (m_flag_attrs d) (m_int_attrs d) (m_float_attrs d) (m_prim_attrs d) (m_text_attrs d) (m_containers d) (m_inherits d).
Definition with_functions d x := mk_db (m_names d) (m_namespaces d) (m_types d) (m_templates d) (m_template_types d) (m_classes d) (m_enums d) (m_enum_consts d) x (m_fields d) (m_flag_attrs d) (m_int_attrs d) (m_float_attrs d) (m_prim_attrs d) (m_text_attrs d) (m_containers d) (m_inherits d).
Definition with_fields d x := mk_db (m_names d) (m_namespaces d) (m_types d) (m_templates d) (m_template_types d) (m_classes d) (m_enums d) (m_enum_consts d) (m_functions d) x (m_flag_attrs d) (m_int_attrs d) (m_float_attrs d) (m_prim_attrs d) (m_text_attrs d) (m_containers d) (m_inherits d).
Definition with_flag_attrs d x := mk_db (m_names d) (m_namespaces d) (m_types d) (m_templates d) (m_template_types d) (m_classes d) (m_enums d) (m_enum_consts d) (m_functions d) (m_fields d) x (m_int_attrs d) (m_float_attrs d) (m_prim_attrs d) (m_text_attrs d) (m_containers d) (m_inherits d).
Definition with_int_attrs d x := mk_db (m_names d) (m_namespaces d) (m_types d) (m_templates d) (m_template_types d) (m_classes d) (m_enums d) (m_enum_consts d) (m_functions d) (m_fields d) (m_flag_attrs d) x (m_float_attrs d) (m_prim_attrs d) (m_text_attrs d) (m_containers d) (m_inherits d).
Definition with_float_attrs d x := mk_db (m_names d) (m_namespaces d) (m_types d) (m_templates d) (m_template_types d) (m_classes d) (m_enums d) (m_enum_consts d) (m_functions d) (m_fields d) (m_flag_attrs d) (m_int_attrs d) x (m_prim_attrs d) (m_text_attrs d) (m_containers d) (m_inherits d).
Definition with_prim_attrs d x := mk_db (m_names d) (m_namespaces d) (m_types d) (m_templates d) (m_template_types d) (m_classes d) (m_enums d) (m_enum_consts d) (m_functions d) (m_fields d) (m_flag_attrs d) (m_int_attrs d) (m_float_attrs d) x (m_text_attrs d) (m_containers d) (m_inherits d).
Definition with_text_attrs d x := mk_db (m_names d) (m_namespaces d) (m_types d) (m_templates d) (m_template_types d) (m_classes d) (m_enums d) (m_enum_consts d) (m_functions d) (m_fields d) (m_flag_attrs d) (m_int_attrs d) (m_float_attrs d) (m_prim_attrs d) x (m_containers d) (m_inherits d).
Definition with_containers d x := mk_db (m_names d) (m_namespaces d) (m_types d) (m_templates d) (m_template_types d) (m_classes d) (m_enums d) (m_enum_consts d) (m_functions d) (m_fields d) (m_flag_attrs d) (m_int_attrs d) (m_float_attrs d) (m_prim_attrs d) (m_text_attrs d) x (m_inherits d).
Definition with_inherits d x := mk_db (m_names d) (m_namespaces d) (m_types d) (m_templates d) (m_template_types d) (m_classes d) (m_enums d) (m_enum_consts d) (m_functions d) (m_fields d) (m_flag_attrs d) (m_int_attrs d) (m_float_attrs d) (m_prim_attrs d) (m_text_attrs d) (m_containers d) x.

(* db.GetName(hash) *)
Definition gn (d : database) (h : Z) : name := GetNameH (m_names d) h.
(* 346-350 GetNameAndParent followed by the two lookups every parser makes *)
Definition tok_prim (d : database) (t : list Z) : prim * list Z :=
  let n := tok_hex t in let p := tok_hex (snd n) in
  (mk_prim (gn d (fst n)) (gn d (fst p)), snd p).

(* 358-367 ParseName *)
Definition ParseName (line : list Z) (d : database) : outcome database :=
  let h := tok_hex line in
  match tok_get 9 (snd h) with
  | (Some t, _) => if fst h =? 0 then Ok d else Ok (with_names d (m_set (fst h) (mk_name (fst h) t) (m_names d)))
  | (None, _) => Ok d
  end.
(* 370-383 ParsePrimitive for Namespace, Template and FlagAttribute *)
Definition ParseNamespace (line : list Z) (d : database) : outcome database :=
  let p := fst (tok_prim d line) in do m <- db_add (p_name p) p (m_namespaces d); Ok (with_namespaces d m).
Definition ParseTemplate (line : list Z) (d : database) : outcome database :=
  let p := fst (tok_prim d line) in do m <- db_add (p_name p) p (m_templates d); Ok (with_templates d m).
Definition ParseFlagAttribute (line : list Z) (d : database) : outcome database :=
  let p := fst (tok_prim d line) in do m <- db_add (p_name p) p (m_flag_attrs d); Ok (with_flag_attrs d m).
(* 388-406 ParseType *)
Definition ParseType (line : list Z) (d : database) : outcome database :=
  let p := tok_prim d line in let s := tok_hex (snd p) in
  do m <- db_add (p_name (fst p)) (mk_type (fst p) (fst s)) (m_types d); Ok (with_types d m).
(* 409-427 *)
Definition ParseEnumConstant (line : list Z) (d : database) : outcome database :=
  let p := tok_prim d line in
  do v <- tok_int 9 (snd p);
  do m <- db_add (p_name (fst p)) (mk_econst (fst p) (fst v)) (m_enum_consts d); Ok (with_enum_consts d m).
(* 429-448 ParseEnumScoped: a null token is dereferenced, another letter leaves the result
   uninitialised *)
Definition ParseEnumScoped (t : list Z) : outcome Z :=
  match tok_get 9 t with
  | (Some (110 :: _), _) => Ok 0
  | (Some (99 :: _), _) => Ok 1
  | (Some (115 :: _), _) => Ok 2
  | _ => UB
  end.
(* 450-468 ParseEnum: the size is discarded and becomes sizeof(int) *)
Definition ParseEnum (line : list Z) (d : database) : outcome database :=
  let p := tok_prim d line in let s := tok_hex (snd p) in
  do k <- ParseEnumScoped (snd s);
  do m <- db_add (p_name (fst p)) (mk_enum (fst p) 4 k) (m_enums d); Ok (with_enums d m).
(* 471-486 ParseQualifier: null tokens are dereferenced *)
Definition ParseQualifier (t : list Z) : outcome (qualifier * list Z) :=
  match tok_get 9 t with
  | (None, _) => UB
  | (Some m, r) =>
      match tok_get 9 r with
      | (None, _) => UB
      | (Some c, r') =>
          Ok (mk_qual (match m with 112 :: _ => POINTER | 114 :: _ => REFERENCE | _ => VALUE end)
                      (match c with 48 :: _ => false | _ => true end), r')
      end
  end.
(* 489-516 ParseField *)
Definition ParseField (line : list Z) (d : database) : outcome database :=
  let p := tok_prim d line in let t := tok_hex (snd p) in
  do q <- ParseQualifier (snd t);
  do o <- tok_int 9 (snd q);
  let u := tok_hex (snd o) in
  do m <- db_add (p_name (fst p)) (mk_field (fst p) (gn d (fst t)) (fst q) (fst o) (fst u)) (m_fields d); Ok (with_fields d m).
(* 519-537 ParseFunction *)
Definition ParseFunction (line : list Z) (d : database) : outcome database :=
  let p := tok_prim d line in let u := tok_hex (snd p) in
  do m <- db_add (p_name (fst p)) (mk_func (fst p) (fst u) 0) (m_functions d); Ok (with_functions d m).
(* 540-560 ParseClass *)
Definition ParseClass (line : list Z) (d : database) : outcome database :=
  let p := tok_prim d line in let s := tok_hex (snd p) in
  do k <- tok_int 9 (snd s);
  do m <- db_add (p_name (fst p)) (mk_class (fst p) (fst s) (negb (fst k =? 0))) (m_classes d); Ok (with_classes d m).
(* 574-584: up to four parameters; the loop stops at the first that reads as zero *)
Fixpoint parse_params (d : database) (n : nat) (i : Z) (t : list Z) (ts : list name) (ps : list bool) : outcome (list name * list bool) :=
  match n with
  | O => Ok (ts, ps)
  | S n' =>
      let h := tok_hex t in
      if fst h =? 0 then Ok (ts, ps) else
      do ts' <- wr ts i (gn d (fst h));
      do p <- tok_int 9 (snd h);
      do ps' <- wr ps i (negb (fst p =? 0));
      parse_params d n' (i + 1) (snd p) ts' ps'
  end.
(* 563-589 ParseTemplateType *)
Definition ParseTemplateType (line : list Z) (d : database) : outcome database :=
  let p := tok_prim d line in let s := tok_hex (snd p) in
  do a <- parse_params d 4 0 (snd s) (repeat noname 4) (repeat false 4);
  do m <- db_add (p_name (fst p)) (mk_ttype (fst p) (fst s) (fst a) (snd a)) (m_template_types d); Ok (with_template_types d m).
(* 592-610 ParseIntAttribute *)
Definition ParseIntAttribute (line : list Z) (d : database) : outcome database :=
  let p := tok_prim d line in
  do v <- tok_int 9 (snd p);
  do m <- db_add (p_name (fst p)) (mk_int (fst p) (fst v)) (m_int_attrs d); Ok (with_int_attrs d m).
(* 613-632 ParseFloatAttribute: sscanf of a null token is undefined *)
Definition ParseFloatAttribute (sf : list Z -> Z) (line : list Z) (d : database) : outcome database :=
  let p := tok_prim d line in
  match tok_get 9 (snd p) with
  | (None, _) => UB
  | (Some t, _) => do m <- db_add (p_name (fst p)) (mk_float (fst p) (sf t)) (m_float_attrs d); Ok (with_float_attrs d m)
  end.
(* 635-653 ParsePrimitiveAttribute *)
Definition ParsePrimitiveAttribute (line : list Z) (d : database) : outcome database :=
  let p := tok_prim d line in let v := tok_hex (snd p) in
  do m <- db_add (p_name (fst p)) (mk_pattr (fst p) (gn d (fst v))) (m_prim_attrs d); Ok (with_prim_attrs d m).
(* 656-674 ParseTextAttribute: a null value makes a std::string from a null pointer *)
Definition ParseTextAttribute (line : list Z) (d : database) : outcome database :=
  let p := tok_prim d line in
  match tok_get 9 (snd p) with
  | (None, _) => UB
  | (Some t, _) => do m <- db_add (p_name (fst p)) (mk_text (fst p) t) (m_text_attrs d); Ok (with_text_attrs d m)
  end.
(* 677-696 ParseContainerInfo *)
Definition ParseContainerInfo (line : list Z) (d : database) : outcome database :=
  let a := tok_hex line in let b := tok_hex (snd a) in let c := tok_hex (snd b) in
  let e := tok_hex (snd c) in let g := tok_hex (snd e) in
  let ci := mk_cinfo (gn d (fst a)) (gn d (fst b)) (gn d (fst c)) (fst e) (fst g) in
  do m <- db_add_unique (ci_name ci) ci (m_containers d); Ok (with_containers d m).
(* 698-713 ParseInheritance *)
Definition ParseInheritance (line : list Z) (d : database) : outcome database :=
  let a := tok_hex line in let b := tok_hex (snd a) in let c := tok_hex (snd b) in
  let ti := mk_inh (gn d (fst a)) (gn d (fst b)) (gn d (fst c)) in
  do m <- db_add_unique (ti_name ti) ti (m_inherits d); Ok (with_inherits d m).

(* 736-745: the rows of a table, until a ruler or the end of the file. Beside the rest of the file
   and the database the loops return the static line buffer, which the later ParseTable calls look
   at; at the end of the file what it holds no longer matters. *)
Fixpoint parse_rows (fuel : nat) (parse : list Z -> database -> outcome database) (f line : list Z) (d : database)
  : outcome (list Z * list Z * database) :=
  match fuel with
  | O => Fuel
  | S n =>
      match ReadLine f with
      | (None, r) => Ok (r, line, d)
      | (Some l, r) =>
          let l' := c_cut l in
          if startswith l' (str "----") then Ok (r, l', d)
          else do d' <- parse l' d; parse_rows n parse r l' d'
      end
  end.
(* 715-747 ParseTable *)
Definition ParseTable (fuel : nat) (title : list Z) (parse : list Z -> database -> outcome database) (f line : list Z) (d : database)
  : outcome (list Z * list Z * database) :=
  if startswith line (str "---- " ++ title ++ str " ") then
    match ReadLine f with
    | (None, r) => Ok (r, line, d)
    | (Some l, r) =>
        match ReadLine r with
        | (None, r') => Ok (r', c_cut l, d)
        | (Some l', r') => parse_rows fuel parse r' (c_cut l') d
        end
    end
  else Ok (f, line, d).
(* 762-778: the tables looked for, in order *)
Definition parsers (sf : list Z -> Z) : list (list Z * (list Z -> database -> outcome database)) :=
  [(str "Names", ParseName); (str "Namespaces", ParseNamespace); (str "Types", ParseType);
   (str "Enum Constants", ParseEnumConstant); (str "Enums", ParseEnum); (str "Fields", ParseField);
   (str "Functions", ParseFunction); (str "Templates", ParseTemplate); (str "Template Types", ParseTemplateType);
   (str "Classes", ParseClass); (str "Flag Attributes", ParseFlagAttribute); (str "Int Attributes", ParseIntAttribute);
   (str "Float Attributes", ParseFloatAttribute sf); (str "Primitive Attributes", ParsePrimitiveAttribute);
   (str "Text Attributes", ParseTextAttribute); (str "Containers", ParseContainerInfo); (str "Inheritance", ParseInheritance)].
Fixpoint try_tables (fuel : nat) (ps : list (list Z * (list Z -> database -> outcome database))) (f line : list Z) (d : database)
  : outcome (list Z * list Z * database) :=
  match ps with
  | [] => Ok (f, line, d)
  | (t, p) :: r => do x <- ParseTable fuel t p f line d; try_tables fuel r (fst (fst x)) (snd (fst x)) (snd x)
  end.
Fixpoint read_tables (fuel : nat) (sf : list Z -> Z) (f : list Z) (d : database) : outcome database :=
  match fuel with
  | O => Fuel
  | S n =>
      match ReadLine f with
      | (None, _) => Ok d
      | (Some l, r) => do x <- try_tables (S n) (parsers sf) r (c_cut l) d; read_tables n sf (fst (fst x)) (snd x)
      end
  end.
(* 786-821 IsTextDatabase; a missing file is not a database *)
Fixpoint text_check (fuel : nat) (f : list Z) (line_index : Z) (is_text_db : bool) : outcome bool :=
  match fuel with
  | O => Fuel
  | S n =>
      match ReadLine f with
      | (None, _) => Ok is_text_db
      | (Some l, r) =>
          let line := c_cut l in
          let is_text_db := if startswith line (str "clReflect Database") then true else is_text_db in
          if is_text_db && startswith line (str "Format Version: ") then
            do v <- tok_int 58 (snd (tok_get 58 line));
            Ok (if fst v =? CURRENT_VERSION then is_text_db else false)
          else if line_index >? 5 then Ok is_text_db
          else text_check n r (line_index + 1) is_text_db
      end
  end.
Definition IsTextDatabase (file : option (list Z)) : outcome bool :=
  match file with None => Ok false | Some f => text_check (S (length f)) f 0 true end.
(* 750-783 ReadTextDatabase: None when the file is refused. The fuel covers every line of the file. *)
Definition ReadTextDatabase (sf : list Z -> Z) (file : option (list Z)) (d : database) : outcome (option database) :=
  do ok <- IsTextDatabase file;
  if negb ok then Ok None else
  match file with
  | None => Ok None
  | Some f => do d' <- read_tables (S (length f)) sf f d; Ok (Some d')
  end.
