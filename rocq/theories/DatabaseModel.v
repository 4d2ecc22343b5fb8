(* The offline database: src/clReflectCore/Database.h, Database.cpp. *)
From Verif Require Import Base Text HashModel Maps.

(* Database.h:45-68 Name. Equality of names compares hashes only (53-61). *)
Record name := mk_name { n_hash : Z; n_text : list Z }.
Definition noname : name := mk_name 0 [].
Definition name_eqb (a b : name) : bool := n_hash a =? n_hash b.

(* Database.h:74-101 Qualifier *)
Inductive qop := VALUE | POINTER | REFERENCE.
Definition qop_eqb (a b : qop) : bool :=
  match a, b with VALUE, VALUE | POINTER, POINTER | REFERENCE, REFERENCE => true | _, _ => false end.
Record qualifier := mk_qual { q_op : qop; q_const : bool }.
Definition qual_eqb (a b : qualifier) : bool := qop_eqb (q_op a) (q_op b) && Bool.eqb (q_const a) (q_const b).

(* Database.h:107-156 Primitive: name and parent. The kind is fixed by the table a primitive is in. *)
Record prim := mk_prim { p_name : name; p_parent : name }.
Definition prim_eqb (a b : prim) : bool := name_eqb (p_name a) (p_name b) && name_eqb (p_parent a) (p_parent b).

(* Database.h:162-234 attributes *)
Record int_attr := mk_int { ia_prim : prim; ia_value : Z }.
Record float_attr := mk_float { fa_prim : prim; fa_value : Z (* IEEE single, as its 32 bits *) }.
Record prim_attr := mk_pattr { pa_prim : prim; pa_value : name }.
Record text_attr := mk_text { ta_prim : prim; ta_value : list Z }.
(* Database.h:240-267 Type *)
Record type_ := mk_type { t_prim : prim; t_size : Z }.
(* Database.h:273-295 *)
Record enum_const := mk_econst { ec_prim : prim; ec_value : Z }.
(* Database.h:301-323; scoped is None/Class/Struct as 0/1/2 *)
Record enum := mk_enum { e_prim : prim; e_size : Z; e_scoped : Z }.
(* Database.h:329-373 *)
Record field := mk_field { f_prim : prim; f_type : name; f_qual : qualifier; f_offset : Z; f_parent_uid : Z }.
(* Database.h:381-411 *)
Record function := mk_func { fn_prim : prim; fn_uid : Z; fn_address : Z }.
(* Database.h:419-461; the two arrays of four *)
Record template_type := mk_ttype { tt_prim : prim; tt_size : Z; tt_types : list name; tt_ptrs : list bool }.
(* Database.h:483-511 *)
Record class := mk_class { c_prim : prim; c_size : Z; c_is_class : bool }.
Definition FORWARD_DECL_SIZE : Z := 4294967295.
(* Database.h:563-588 *)
Record container_info := mk_cinfo { ci_name : name; ci_read : name; ci_write : name; ci_flags : Z; ci_count : Z }.
(* Database.h:594-603 *)
Record type_inheritance := mk_inh { ti_name : name; ti_derived : name; ti_base : name }.

(* the Equals methods *)
Definition int_attr_eqb (a b : int_attr) := prim_eqb (ia_prim a) (ia_prim b) && (ia_value a =? ia_value b).
(* float ==: NaN equals nothing, the two zeros are equal *)
Definition f_is_nan (v : Z) : bool := 2139095040 <? Z.land v 2147483647.
Definition f_is_zero (v : Z) : bool := Z.land v 2147483647 =? 0.
Definition f_eqb (a b : Z) : bool :=
  negb (f_is_nan a) && negb (f_is_nan b) && ((a =? b) || (f_is_zero a && f_is_zero b)).
Definition float_attr_eqb (a b : float_attr) := prim_eqb (fa_prim a) (fa_prim b) && f_eqb (fa_value a) (fa_value b).
Definition prim_attr_eqb (a b : prim_attr) := prim_eqb (pa_prim a) (pa_prim b) && name_eqb (pa_value a) (pa_value b).
Definition text_attr_eqb (a b : text_attr) := prim_eqb (ta_prim a) (ta_prim b) && list_eqb (ta_value a) (ta_value b).
Definition enum_const_eqb (a b : enum_const) := prim_eqb (ec_prim a) (ec_prim b) && (ec_value a =? ec_value b).
Definition field_eqb (a b : field) :=
  prim_eqb (f_prim a) (f_prim b) && name_eqb (f_type a) (f_type b) && qual_eqb (f_qual a) (f_qual b) &&
  (f_offset a =? f_offset b) && (f_parent_uid a =? f_parent_uid b).
Definition function_eqb (a b : function) := prim_eqb (fn_prim a) (fn_prim b) && (fn_uid a =? fn_uid b).

(* Database.h:679-702 the tables *)
Record database := mk_db {
  m_names : zmap name;
  m_namespaces : zmap prim;
  m_types : zmap type_;
  m_templates : zmap prim;
  m_template_types : zmap template_type;
  m_classes : zmap class;
  m_enums : zmap enum;
  m_enum_consts : zmap enum_const;
  m_functions : zmap function;
  m_fields : zmap field;
  m_flag_attrs : zmap prim;
  m_int_attrs : zmap int_attr;
  m_float_attrs : zmap float_attr;
  m_prim_attrs : zmap prim_attr;
  m_text_attrs : zmap text_attr;
  m_containers : zmap container_info;
  m_inherits : zmap type_inheritance }.
Definition db_empty : database := mk_db [] [] [] [] [] [] [] [] [] [] [] [] [] [] [] [] [].

(* Database.cpp:97-124 GetName(const char* ). None is the null pointer; the text is read as a
   C string, so its terminator is supplied here. The assert is the collision check. *)
Definition GetName (names : zmap name) (text : option (list Z)) : outcome (name * zmap name) :=
  match text with
  | None => Ok (noname, names)
  | Some t =>
      do hash <- HashNameString (t ++ [0]) 0;
      if hash =? 0 then Ok (noname, names)
      else match m_find hash names with
           | Some nm => do _ <- assert (list_eqb (n_text nm) t); Ok (nm, names)
           | None => Ok (mk_name hash t, m_set hash (mk_name hash t) names)
           end
  end.
(* Database.cpp:127-138 GetName(u32) *)
Definition GetNameH (names : zmap name) (hash : Z) : name :=
  match m_find hash names with Some nm => nm | None => noname end.

(* a history of GetName calls *)
Fixpoint get_names (names : zmap name) (l : list (list Z)) : outcome (zmap name) :=
  match l with
  | [] => Ok names
  | t :: r => do x <- GetName names (Some t); get_names (snd x) r
  end.

(* Database.h:631-636 Add for the multimap tables *)
Definition db_add {T} (nm : name) (v : T) (m : zmap T) : outcome (zmap T) :=
  do _ <- assert (negb (n_hash nm =? 0));
  Ok (mm_insert (n_hash nm) v m).
(* and for the two std::map tables *)
Definition db_add_unique {T} (nm : name) (v : T) (m : zmap T) : outcome (zmap T) :=
  do _ <- assert (negb (n_hash nm =? 0));
  Ok (m_insert (n_hash nm) v m).

(* Database.cpp:18-26: the spelled type of a parameter *)
Definition spelled (f : field) : list Z :=
  (if q_const (f_qual f) then str "const " else []) ++ n_text (f_type f) ++
  match q_op (f_qual f) with POINTER => str "*" | REFERENCE => str "&" | VALUE => [] end.
Definition CalcFieldHash (f : field) : outcome Z := HashNameString (spelled f ++ [0]) 0.
(* Database.cpp:30-41 *)
Fixpoint unique_id (acc : Z) (ps : list field) : outcome Z :=
  match ps with
  | [] => Ok acc
  | p :: r => do h <- CalcFieldHash p; do acc' <- MixHashes acc h; unique_id acc' r
  end.
Definition CalculateFunctionUniqueID (ps : list field) : outcome Z := unique_id 0 ps.

(* Database.cpp:85-94 AddTypeInheritance *)
Definition AddTypeInheritance (db_names : zmap name) (inh : zmap type_inheritance) (derived base : name)
  : outcome (zmap name * zmap type_inheritance) :=
  do x <- GetName db_names (Some (n_text base ++ str "<-" ++ n_text derived));
  Ok (snd x, m_set (n_hash (fst x)) (mk_inh (fst x) derived base) inh).
