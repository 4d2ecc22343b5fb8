(* The scanner: src/clReflectScan/ReflectionSpecs.cpp, ASTConsumer.cpp and Main.cpp.
   Clang's AST is the input. It is given as the types qt and decl below, which hold what the scanner asks
   Clang for and nothing else; that Clang answers so is trusted. Texts are C strings without their zero. *)
From Verif Require Import Base Text HashModel Maps FileUtilsModel DatabaseModel AttrModel.
Local Open Scope string_scope.
Local Open Scope list_scope.
Local Open Scope Z_scope.

(* ---- what Clang hands over: types ---- *)
(* the record declaration of a type (getAsCXXRecordDecl): none, one that is no template
   specialisation (TSK_Undeclared), or the template specialisation with this number *)
Inductive rdecl := RD_none | RD_plain | RD_spec (i : Z).
(* types by type class. printed is getAsString without qualifiers. Typedef and Elaborated are both T_sugar,
   which holds the type meant; T_other is every class the scanner does not name. Volatile and restrict are
   left out: removeLocalFastQualifiers drops them and nothing records them *)
Inductive ty :=
| T_builtin (printed : list Z)
| T_enum (printed : list Z)
| T_record (printed : list Z) (rd : rdecl)
| T_tspec (printed : list Z) (rd : rdecl)
| T_sugar (to : qt)
| T_pointer (to : qt)
| T_reference (to : qt)
| T_array (n : Z) (of : qt)
| T_other
with qt := Q (is_const : bool) (t : ty).

(* a base class as written, and a class template specialisation *)
Record base := mk_base { b_virtual : bool; b_type : qt }.
Inductive targ := TA_type (q : qt) | TA_other.
Record cts := mk_cts { s_template : list Z; s_args : list targ; s_bases : list base; s_size : Z }.
(* the specialisations, by number: a specialisation may refer to itself *)
Notation env := (Z -> cts).

(* ---- what Clang hands over: declarations ---- *)
(* isInvalidDecl, getQualifiedNameAsString and the texts of the annotations; for a class template these are
   the annotations of the templated declaration (ASTConsumer.cpp:503-511) *)
Record hdr := mk_hdr { h_invalid : bool; h_name : list Z; h_annots : list (list Z) }.
(* isThisDeclarationADefinition, isFreeStanding, getNumVBases != 0, bases, isAnonymousStructOrUnion,
   getTagKind == TTK_Class, the size of the record layout *)
Record rcd := mk_rcd { r_def : bool; r_free : bool; r_vbases : bool; r_bases : list base; r_anon : bool;
                       r_class : bool; r_size : Z }.
(* isFirstDecl, getCallResultType, the parameters *)
Record fn := mk_fn { f_first : bool; f_ret : qt; f_params : list (list Z * qt) }.
Inductive leaf :=
| L_enum (scoped : Z) (consts : list (list Z * Z))
| L_function (f : fn)
| L_method (is_operator is_instance : bool) (this : qt) (f : fn)
| L_field (anon : bool) (nm : list Z) (bits : Z) (q : qt)   (* bits: offset in the layout of the record it is in *)
| L_template (params : Z) (fwd : bool)       (* fwd: IsForwardDeclaration of the templated declaration *)
| L_other.                                   (* any other named declaration *)
Inductive decl :=
| D_namespace (h : hdr) (l : list decl)
| D_record (h : hdr) (r : rcd) (l : list decl)
| D_leaf (h : hdr) (k : leaf)
| D_unnamed.                                 (* not a NamedDecl *)

(* ---- the scanner's state: the database, m_AllowReflect and the warnings printed ---- *)
Record st := mk_st { st_db : database; st_allow : bool; st_warn : list (list Z) }.
Definition set_db (d : database) (s : st) : st := mk_st d (st_allow s) (st_warn s).
Definition set_allow (b : bool) (s : st) : st := mk_st (st_db s) b (st_warn s).
(* Status::Print; only the symbol the warning is about is kept *)
Definition warn (subject : list Z) (s : st) : st := mk_st (st_db s) (st_allow s) (st_warn s ++ [subject]).

Definition set_names v d := mk_db v (m_namespaces d) (m_types d) (m_templates d) (m_template_types d) (m_classes d) (m_enums d) (m_enum_consts d) (m_functions d) (m_fields d) (m_flag_attrs d) (m_int_attrs d) (m_float_attrs d) (m_prim_attrs d) (m_text_attrs d) (m_containers d) (m_inherits d).
Definition set_namespaces v d := mk_db (m_names d) v (m_types d) (m_templates d) (m_template_types d) (m_classes d) (m_enums d) (m_enum_consts d) (m_functions d) (m_fields d) (m_flag_attrs d) (m_int_attrs d) (m_float_attrs d) (m_prim_attrs d) (m_text_attrs d) (m_containers d) (m_inherits d).
Definition set_types v d := mk_db (m_names d) (m_namespaces d) v (m_templates d) (m_template_types d) (m_classes d) (m_enums d) (m_enum_consts d) (m_functions d) (m_fields d) (m_flag_attrs d) (m_int_attrs d) (m_float_attrs d) (m_prim_attrs d) (m_text_attrs d) (m_containers d) (m_inherits d).
Definition set_templates v d := mk_db (m_names d) (m_namespaces d) (m_types d) v (m_template_types d) (m_classes d) (m_enums d) (m_enum_consts d) (m_functions d) (m_fields d) (m_flag_attrs d) (m_int_attrs d) (m_float_attrs d) (m_prim_attrs d) (m_text_attrs d) (m_containers d) (m_inherits d).
Definition set_template_types v d := mk_db (m_names d) (m_namespaces d) (m_types d) (m_templates d) v (m_classes d) (m_enums d) (m_enum_consts d) (m_functions d) (m_fields d) (m_flag_attrs d) (m_int_attrs d) (m_float_attrs d) (m_prim_attrs d) (m_text_attrs d) (m_containers d) (m_inherits d).
Definition set_classes v d := mk_db (m_names d) (m_namespaces d) (m_types d) (m_templates d) (m_template_types d) v (m_enums d) (m_enum_consts d) (m_functions d) (m_fields d) (m_flag_attrs d) (m_int_attrs d) (m_float_attrs d) (m_prim_attrs d) (m_text_attrs d) (m_containers d) (m_inherits d).
Definition set_enums v d := mk_db (m_names d) (m_namespaces d) (m_types d) (m_templates d) (m_template_types d) (m_classes d) v (m_enum_consts d) (m_functions d) (m_fields d) (m_flag_attrs d) (m_int_attrs d) (m_float_attrs d) (m_prim_attrs d) (m_text_attrs d) (m_containers d) (m_inherits d).
Definition set_enum_consts v d := mk_db (m_names d) (m_namespaces d) (m_types d) (m_templates d) (m_template_types d) (m_classes d) (m_enums d) v (m_functions d) (m_fields d) (m_flag_attrs d) (m_int_attrs d) (m_float_attrs d) (m_prim_attrs d) (m_text_attrs d) (m_containers d) (m_inherits d).
Definition set_functions v d := mk_db (m_names d) (m_namespaces d) (m_types d) (m_templates d) (m_template_types d) (m_classes d) (m_enums d) (m_enum_consts d) v (m_fields d) (m_flag_attrs d) (m_int_attrs d) (m_float_attrs d) (m_prim_attrs d) (m_text_attrs d) (m_containers d) (m_inherits d).
Definition set_fields v d := mk_db (m_names d) (m_namespaces d) (m_types d) (m_templates d) (m_template_types d) (m_classes d) (m_enums d) (m_enum_consts d) (m_functions d) v (m_flag_attrs d) (m_int_attrs d) (m_float_attrs d) (m_prim_attrs d) (m_text_attrs d) (m_containers d) (m_inherits d).
Definition set_flag_attrs v d := mk_db (m_names d) (m_namespaces d) (m_types d) (m_templates d) (m_template_types d) (m_classes d) (m_enums d) (m_enum_consts d) (m_functions d) (m_fields d) v (m_int_attrs d) (m_float_attrs d) (m_prim_attrs d) (m_text_attrs d) (m_containers d) (m_inherits d).
Definition set_int_attrs v d := mk_db (m_names d) (m_namespaces d) (m_types d) (m_templates d) (m_template_types d) (m_classes d) (m_enums d) (m_enum_consts d) (m_functions d) (m_fields d) (m_flag_attrs d) v (m_float_attrs d) (m_prim_attrs d) (m_text_attrs d) (m_containers d) (m_inherits d).
Definition set_float_attrs v d := mk_db (m_names d) (m_namespaces d) (m_types d) (m_templates d) (m_template_types d) (m_classes d) (m_enums d) (m_enum_consts d) (m_functions d) (m_fields d) (m_flag_attrs d) (m_int_attrs d) v (m_prim_attrs d) (m_text_attrs d) (m_containers d) (m_inherits d).
Definition set_prim_attrs v d := mk_db (m_names d) (m_namespaces d) (m_types d) (m_templates d) (m_template_types d) (m_classes d) (m_enums d) (m_enum_consts d) (m_functions d) (m_fields d) (m_flag_attrs d) (m_int_attrs d) (m_float_attrs d) v (m_text_attrs d) (m_containers d) (m_inherits d).
Definition set_text_attrs v d := mk_db (m_names d) (m_namespaces d) (m_types d) (m_templates d) (m_template_types d) (m_classes d) (m_enums d) (m_enum_consts d) (m_functions d) (m_fields d) (m_flag_attrs d) (m_int_attrs d) (m_float_attrs d) (m_prim_attrs d) v (m_containers d) (m_inherits d).
Definition set_containers v d := mk_db (m_names d) (m_namespaces d) (m_types d) (m_templates d) (m_template_types d) (m_classes d) (m_enums d) (m_enum_consts d) (m_functions d) (m_fields d) (m_flag_attrs d) (m_int_attrs d) (m_float_attrs d) (m_prim_attrs d) (m_text_attrs d) v (m_inherits d).
Definition set_inherits v d := mk_db (m_names d) (m_namespaces d) (m_types d) (m_templates d) (m_template_types d) (m_classes d) (m_enums d) (m_enum_consts d) (m_functions d) (m_fields d) (m_flag_attrs d) (m_int_attrs d) (m_float_attrs d) (m_prim_attrs d) (m_text_attrs d) (m_containers d) v.

(* Database.cpp:97-124 on the whole database *)
Definition db_name (d : database) (t : list Z) : outcome (name * database) :=
  do x <- GetName (m_names d) (Some t); Ok (fst x, set_names (snd x) d).
(* Database.h:642-654 GetFirstPrimitive in one of the tables *)
Definition first_prim {T} (m : zmap T) (t : list Z) : outcome (option T) :=
  do h <- HashNameString (t ++ [0]) 0; Ok (m_find h m).

(* ---- ReflectionSpecs ---- *)
Inductive spec_type := RST_None | RST_Full | RST_Partial.
(* the two maps, keyed by text. Iterating over the containers takes them in the order of first insertion, not in
   that of their keys; they are added to tables keyed by name, where the order does not matter *)
Record specs := mk_specs { rs_types : list (list Z * spec_type); rs_containers : list (list Z * (list Z * list Z * bool)) }.
Definition specs_empty : specs := mk_specs [] [].
Fixpoint t_find {T} (k : list Z) (m : list (list Z * T)) : option T :=
  match m with [] => None | (k', v) :: r => if list_eqb k' k then Some v else t_find k r end.
Fixpoint t_set {T} (k : list Z) (v : T) (m : list (list Z * T)) : list (list Z * T) :=
  match m with
  | [] => [(k, v)]
  | (k', v') :: r => if list_eqb k' k then (k, v) :: r else (k', v') :: t_set k v r
  end.
(* ReflectionSpecs.cpp:143-151 *)
Definition GetSpec (s : specs) (nm : list Z) : spec_type :=
  match t_find nm (rs_types s) with None => RST_None | Some t => t end.
(* 153-161 *)
Definition AddReflectionSpec (nm : list Z) (t : spec_type) (s : specs) : specs :=
  match t_find nm (rs_types s) with
  | None => mk_specs (t_set nm t (rs_types s)) (rs_containers s)
  | Some _ => s
  end.
(* StringRef::split(info, "-"): every separator splits, empty pieces are kept *)
Fixpoint split_dash (acc s : list Z) : list (list Z) :=
  match s with
  | [] => [rev acc]
  | c :: r => if c =? 45 then rev acc :: split_dash [] r else split_dash (c :: acc) r
  end.
(* 23-64 GetReflectionSpec: the namespace marked, and the annotation found. The three warnings are left out *)
Definition is_internal (d : decl) : bool :=
  match d with D_namespace h _ => list_eqb (h_name h) (str "clcpp_internal") | _ => false end.
Definition set_invalid (d : decl) : decl :=
  match d with
  | D_namespace h l => D_namespace (mk_hdr true (h_name h) (h_annots h)) l
  | _ => d
  end.
Definition GetReflectionSpec (d : decl) : decl * option (list Z) :=
  if is_internal d then
    (set_invalid d,
     match d with
     | D_namespace _ (D_record h _ _ :: _) => match h_annots h with [] => None | a :: _ => Some a end
     | _ => None
     end)
  else (d, None).
(* 76-141 Gather: what one annotation adds *)
Definition gather_spec (a : list Z) (s : specs) : specs :=
  if is_prefix (str "full-") a then AddReflectionSpec (skipn 5 a) RST_Full s
  else if is_prefix (str "part-") a then AddReflectionSpec (skipn 5 a) RST_Partial s
  else if is_prefix (str "container-") a then
    match split_dash [] a with
    | [_; nm; rd; wr; key] =>
        if list_eqb key (str "haskey") then mk_specs (rs_types s) (t_set nm (rd, wr, true) (rs_containers s))
        else if list_eqb key (str "nokey") then mk_specs (rs_types s) (t_set nm (rd, wr, false) (rs_containers s))
        else s
    | _ => s
    end
  else s.
Fixpoint Gather (l : list decl) (s : specs) : list decl * specs :=
  match l with
  | [] => ([], s)
  | d :: r =>
      let x := GetReflectionSpec d in
      let s' := match snd x with None => s | Some a => gather_spec a s end in
      let y := Gather r s' in
      (fst x :: fst y, snd y)
  end.

(* ---- types ---- *)
(* ASTConsumer.cpp:146-175 UpdateTypedefOrElaborated: the canonical type has the qualifiers met on the way *)
Fixpoint update (q : qt) : qt :=
  match q with
  | Q c (T_sugar to) => let 'Q c' t := update to in Q (c || c') t
  | _ => q
  end.
(* getAsString of a type without its qualifiers. Only classes, enums and builtin types are ever printed *)
Definition printed (t : ty) : list Z :=
  match t with
  | T_builtin p | T_enum p => p
  | T_record p _ | T_tspec p _ => p
  | _ => []
  end.
(* 125-129 Remove *)
Fixpoint remove_loop (fuel : nat) (s pat : list Z) : outcome (list Z) :=
  match fuel with
  | O => Fuel
  | S n =>
      match string_find s pat 0 with
      | None => Ok s
      | Some i => remove_loop n (firstn i s ++ skipn (i + length pat) s) pat
      end
  end.
Definition Remove (s pat : list Z) : outcome (list Z) := remove_loop (S (length s)) s pat.
Definition Replace (s pat rep : list Z) : outcome (list Z) := StringReplace (S (length s)) s pat rep.

(* Status: Good with what the function produced, or Bad, silently or not *)
Inductive presult (A : Type) := Good (a : A) | Bad (silent : bool).
Arguments Good {A} a.
Arguments Bad {A} silent.
(* 131-140 ParameterInfo *)
Record pinfo := mk_pinfo { pi_type : list Z; pi_qual : qualifier; pi_count : Z }.
Definition UINT_MAX : Z := 4294967295.
Definition MAX_NB_ARGS : Z := 4.

Section Types.
(* ParseTemplateSpecialisation of a class template specialisation, called on its number *)
Variable pcts : database -> Z -> outcome (presult (list Z) * database).

(* 299-325 ParseTemplateSpecialisation(type, type_name_str): the name, changed for specialisations only *)
Definition parse_spec_type (db : database) (t : ty) (type_name : list Z) : outcome (presult (list Z) * database) :=
  match t with
  | T_record _ (RD_spec i) | T_tspec _ (RD_spec i) => pcts db i
  | T_tspec _ RD_plain => Ok (Bad true, db)
  | _ => Ok (Good type_name, db)
  end.
(* 389-406 the end of GetParameterInfo: tidying the name *)
Definition tidy (s : list Z) : outcome (list Z) :=
  do a <- Remove s (str "enum ");
  do b <- Remove a (str "struct ");
  do c <- Remove b (str "class ");
  do d <- Replace c (str " *") (str "*");
  Replace d (str " &") (str "&").
(* 327-408 GetParameterInfo, after the array has been stripped *)
Definition element_info (db : database) (count : Z) (q : qt) : outcome (presult pinfo * database) :=
  let q1 := update q in
  let '(op, q2) :=
    match q1 with
    | Q _ (T_pointer to) => (POINTER, to)
    | Q _ (T_reference to) => (REFERENCE, to)
    | _ => (VALUE, q1)
    end in
  let 'Q is_const t := update q2 in
  match t with
  | T_builtin _ | T_enum _ | T_record _ _ | T_tspec _ _ =>
      do x <- parse_spec_type db t (printed t);
      match fst x with
      | Bad s => Ok (Bad s, snd x)
      | Good nm => do nm' <- tidy nm; Ok (Good (mk_pinfo nm' (mk_qual op is_const) count), snd x)
      end
  | _ => Ok (Bad false, db)
  end.
Definition GetParameterInfo (db : database) (q : qt) : outcome (presult pinfo * database) :=
  match q with
  | Q _ (T_array n of) => if UINT_MAX <? n then Ok (Bad false, db) else element_info db n of
  | _ => element_info db 0 q
  end.
(* 177-203 ParseBaseClass. The printed name has the qualifiers a typedef may have added *)
Definition ParseBaseClass (db : database) (derived : name) (b : base) : outcome (presult name * database) :=
  let 'Q is_const t := update (b_type b) in
  do a <- Remove ((if is_const then str "const " else []) ++ printed t) (str "struct ");
  do nm <- Remove a (str "class ");
  if b_virtual b then Ok (Bad false, db) else
  do x <- parse_spec_type db t nm;
  match fst x with
  | Bad s => Ok (Bad s, snd x)
  | Good nm' =>
      do y <- db_name (snd x) nm';
      do z <- AddTypeInheritance (m_names (snd y)) (m_inherits (snd y)) derived (fst y);
      Ok (Good (fst y), set_inherits (snd z) (set_names (fst z) (snd y)))
  end.
(* 228-254 the template arguments: their infos, and their names joined *)
Fixpoint parse_targs (db : database) (first : bool) (l : list targ) : outcome (presult (list pinfo * list Z) * database) :=
  match l with
  | [] => Ok (Good ([], []), db)
  | TA_other :: _ => Ok (Bad false, db)
  | TA_type q :: r =>
      do x <- GetParameterInfo db q;
      match fst x with
      | Bad s => Ok (Bad s, snd x)
      | Good i =>
          if qop_eqb (q_op (pi_qual i)) REFERENCE then Ok (Bad false, snd x)
          else if negb (pi_count i =? 0) then Ok (Bad false, snd x)
          else
            do y <- parse_targs (snd x) false r;
            match fst y with
            | Bad s => Ok (Bad s, snd y)
            | Good (is, t) =>
                Ok (Good (i :: is, (if first then [] else str ",") ++ pi_type i ++
                                   (if qop_eqb (q_op (pi_qual i)) POINTER then str "*" else []) ++ t), snd y)
            end
      end
  end.
(* 263-273 the base classes, one after the other; what the first ones added stays when a later one fails *)
Fixpoint parse_bases (db : database) (derived : name) (l : list base) : outcome (presult (list name) * database) :=
  match l with
  | [] => Ok (Good [], db)
  | b :: r =>
      do x <- ParseBaseClass db derived b;
      match fst x with
      | Bad s => Ok (Bad s, snd x)
      | Good n =>
          do y <- parse_bases (snd x) derived r;
          match fst y with Bad s => Ok (Bad s, snd y) | Good ns => Ok (Good (n :: ns), snd y) end
      end
  end.
End Types.
(* 280-285 the names of the template arguments *)
Fixpoint get_type_names (db : database) (l : list pinfo) : outcome (list name * database) :=
  match l with
  | [] => Ok ([], db)
  | i :: r =>
      do x <- db_name db (pi_type i);
      do y <- get_type_names (snd x) r;
      Ok (fst x :: fst y, snd y)
  end.
(* the arrays of the record, with their defaults after the arguments *)
Definition pad4 {T} (d : T) (l : list T) : list T := firstn 4 (l ++ repeat d 4).
(* 205-297 ParseTemplateSpecialisation(cts_decl): fuel bounds the depth of the recursion *)
Fixpoint parse_cts (fuel : nat) (E : env) (db : database) (i : Z) : outcome (presult (list Z) * database) :=
  match fuel with
  | O => Fuel
  | S n =>
      let c := E i in
      do p <- db_name db (s_template c);
      if MAX_NB_ARGS <=? zlen (s_args c) then Ok (Bad false, snd p) else
      do a <- parse_targs (parse_cts n E) (snd p) true (s_args c);
      match fst a with
      | Bad s => Ok (Bad s, snd a)
      | Good (infos, text) =>
          let type_name_str := s_template c ++ str "<" ++ text ++ str ">" in
          do found <- first_prim (m_template_types (snd a)) type_name_str;
          match found with
          | Some _ => Ok (Good type_name_str, snd a)
          | None =>
              do t <- db_name (snd a) type_name_str;
              do b <- parse_bases (parse_cts n E) (snd t) (fst t) (s_bases c);
              match fst b with
              | Bad s => Ok (Bad s, snd b)
              | Good _ =>
                  do ns <- get_type_names (snd b) infos;
                  let tt := mk_ttype (mk_prim (fst t) (fst p)) (u32 (s_size c)) (pad4 noname (fst ns))
                              (pad4 false (map (fun i => qop_eqb (q_op (pi_qual i)) POINTER) infos)) in
                  do m <- db_add (fst t) tt (m_template_types (snd ns));
                  Ok (Good type_name_str, set_template_types m (snd ns))
              end
          end
      end
  end.

Definition IS_C_ARRAY : Z := 2.
Definition HAS_KEY : Z := 1.
(* 410-435 MakeField *)
Definition MakeField (fuel : nat) (E : env) (db : database) (q : qt) (param_name parent_name : list Z) (index : Z)
  : outcome (presult field * database) :=
  do x <- GetParameterInfo (parse_cts fuel E) db q;
  match fst x with
  | Bad s => Ok (Bad s, snd x)
  | Good info =>
      do t <- db_name (snd x) (pi_type info);
      do n <- db_name (snd t) param_name;
      do p <- db_name (snd n) parent_name;
      let f := mk_field (mk_prim (fst n) (fst p)) (fst t) (pi_qual info) index 0 in
      if pi_count info =? 0 then Ok (Good f, snd p)
      else
        do c <- db_name (snd p) (parent_name ++ str "::" ++ param_name);
        do m <- db_add_unique (fst c) (mk_cinfo (fst c) noname noname IS_C_ARRAY (pi_count info)) (m_containers (snd c));
        Ok (Good f, set_containers m (snd c))
  end.

(* ---- attributes ---- *)
(* 437-448 AddAttribute: compared with the first attribute of that name only *)
Definition add_attr_in {T} (eqb : T -> T -> bool) (nm : name) (v : T) (m : zmap T) : outcome (zmap T) :=
  match m_find (n_hash nm) m with
  | Some w => if eqb w v then Ok m else db_add nm v m
  | None => db_add nm v m
  end.
Definition add_attr (parent : name) (a : attr) (d : database) : outcome database :=
  match a with
  | FlagAttr n => do m <- add_attr_in prim_eqb n (mk_prim n parent) (m_flag_attrs d); Ok (set_flag_attrs m d)
  | IntAttr n v => do m <- add_attr_in int_attr_eqb n (mk_int (mk_prim n parent) v) (m_int_attrs d); Ok (set_int_attrs m d)
  | FloatAttr n v => do m <- add_attr_in float_attr_eqb n (mk_float (mk_prim n parent) v) (m_float_attrs d); Ok (set_float_attrs m d)
  | PrimAttr n v => do m <- add_attr_in prim_attr_eqb n (mk_pattr (mk_prim n parent) v) (m_prim_attrs d); Ok (set_prim_attrs m d)
  | TextAttr n v => do m <- add_attr_in text_attr_eqb n (mk_text (mk_prim n parent) v) (m_text_attrs d); Ok (set_text_attrs m d)
  end.
Definition attr_name (a : attr) : name :=
  match a with FlagAttr n | IntAttr n _ | FloatAttr n _ | PrimAttr n _ | TextAttr n _ => n end.
(* 450-470 IsForwardDeclaration *)
Definition is_forward (d : decl) : bool :=
  match d with
  | D_record _ r _ => negb (r_def r) && r_free r
  | D_leaf _ (L_template _ fwd) => fwd
  | _ => false
  end.
(* 472-478; the tests of result are for PAR_Normal and PAR_NoReflect *)
Inductive presult_attr := PAR_Normal | PAR_Reflect | PAR_ReflectPartial | PAR_NoReflect.
Definition is_normal (r : presult_attr) : bool := match r with PAR_Normal => true | _ => false end.
Definition is_noreflect (r : presult_attr) : bool := match r with PAR_NoReflect => true | _ => false end.
(* 513-536 one after the other, each adding its names *)
Definition strip_attr (text : list Z) : list Z := if is_prefix (str "attr:") text then skipn 5 text else text.
Fixpoint parse_annots (sf : list Z -> Z) (names : zmap name) (l : list (list Z)) : outcome (list attr * zmap name) :=
  match l with
  | [] => Ok ([], names)
  | a :: r =>
      do x <- ParseAttributes sf names (strip_attr a ++ [0]);
      do y <- parse_annots sf (snd x) r;
      Ok (fst x ++ fst y, snd y)
  end.
(* 578-601: the parent's name is asked for again for every attribute *)
Fixpoint add_attrs (parent : list Z) (l : list attr) (d : database) : outcome database :=
  match l with
  | [] => Ok d
  | a :: r =>
      do p <- db_name d parent;
      do d' <- add_attr (fst p) a (snd p);
      add_attrs parent r d'
  end.
(* 480-623 ParseAttributes. The warnings about a second reflection spec are left out: they change nothing *)
Definition ParseDeclAttributes (sf : list Z -> Z) (sp : specs) (d : decl) (h : hdr) (allow : bool) (db : database)
  : outcome (presult_attr * database) :=
  let r0 := match GetSpec sp (h_name h) with RST_Full => PAR_Reflect | RST_Partial => PAR_ReflectPartial | RST_None => PAR_Normal end in
  do x <- parse_annots sf (m_names db) (h_annots h);
  do reflect_hash <- HashNameString (str "reflect" ++ [0]) 0;
  do reflect_part_hash <- HashNameString (str "reflect_part" ++ [0]) 0;
  do noreflect_hash <- HashNameString (str "noreflect" ++ [0]) 0;
  let result :=
    match fst x with
    | [] => r0
    | a :: _ =>
        let name_hash := n_hash (attr_name a) in
        if name_hash =? reflect_hash then PAR_Reflect
        else if name_hash =? reflect_part_hash then PAR_ReflectPartial
        else if name_hash =? noreflect_hash then PAR_NoReflect
        else r0
    end in
  let attributes := if is_normal result then fst x else tl (fst x) in
  do db' <- (if allow || negb (is_noreflect result) then add_attrs (h_name h) attributes (set_names (snd x) db)
             else Ok (set_names (snd x) db));
  Ok (if is_forward d then PAR_ReflectPartial else result, db').

(* ---- declarations ---- *)
(* 1042-1065 the parameters of MakeFunction, named and numbered; index is what the next one gets *)
Fixpoint make_params (fuel : nat) (E : env) (db : database) (function_name : list Z) (index : Z) (l : list (list Z * qt))
  : outcome (presult (list field) * database) :=
  match l with
  | [] => Ok (Good [], db)
  | (nm, q) :: r =>
      let nm' := match nm with [] => str "unnamed" ++ itoa index | _ => nm end in
      do x <- MakeField fuel E db q nm' function_name index;
      match fst x with
      | Bad s => Ok (Bad s, snd x)
      | Good f =>
          do y <- make_params fuel E (snd x) function_name (index + 1) r;
          match fst y with Bad s => Ok (Bad s, snd y) | Good fs => Ok (Good (f :: fs), snd y) end
      end
  end.
Definition with_uid (uid : Z) (f : field) : field := mk_field (f_prim f) (f_type f) (f_qual f) (f_offset f) uid.
Definition add_field (f : field) (d : database) : outcome database :=
  do m <- db_add (p_name (f_prim f)) f (m_fields d); Ok (set_fields m d).
Fixpoint add_fields (l : list field) (d : database) : outcome database :=
  match l with [] => Ok d | f :: r => do d' <- add_field f d; add_fields r d' end.
(* a failed Status printed, unless it is silent *)
Definition print_bad (silent : bool) (subject : list Z) (s : st) : st := if silent then s else warn subject s.
(* 1020-1107 MakeFunction *)
Definition MakeFunction (fuel : nat) (E : env) (f : fn) (function_name parent_name : list Z) (this : list field) (s : st)
  : outcome st :=
  if negb (f_first f) then Ok s else
  do r <- MakeField fuel E (st_db s) (f_ret f) (str "return") function_name (-1);
  match fst r with
  | Bad silent => Ok (print_bad silent function_name (set_db (snd r) s))
  | Good ret =>
      do ps <- make_params fuel E (snd r) function_name (zlen this) (f_params f);
      match fst ps with
      | Bad silent => Ok (print_bad silent function_name (set_db (snd ps) s))
      | Good params =>
          let parameters := this ++ params in
          do uid <- CalculateFunctionUniqueID parameters;
          do n <- db_name (snd ps) function_name;
          do p <- db_name (snd n) parent_name;
          do m <- db_add (fst n) (mk_func (mk_prim (fst n) (fst p)) uid 0) (m_functions (snd p));
          let d := set_functions m (snd p) in
          do d1 <- (if list_eqb (n_text (f_type ret)) (str "void") then Ok d else add_field (with_uid uid ret) d);
          do d2 <- add_fields (map (with_uid uid) parameters) d1;
          Ok (set_db d2 s)
      end
  end.
(* 922-949 AddMethodDecl *)
Definition AddMethodDecl (fuel : nat) (E : env) (is_operator is_instance : bool) (this : qt) (f : fn)
  (nm parent_name : list Z) (s : st) : outcome st :=
  if is_operator then Ok s
  else if is_instance then
    do t <- MakeField fuel E (st_db s) this (str "this") nm 0;
    match fst t with
    | Bad silent => Ok (print_bad silent nm (set_db (snd t) s))
    | Good this_param => MakeFunction fuel E f nm parent_name [this_param] (set_db (snd t) s)
    end
  else MakeFunction fuel E f nm parent_name [] s.
(* 951-979 AddFieldDecl. Without a layout the pointer is null *)
Definition AddFieldDecl (fuel : nat) (E : env) (anon : bool) (field_name : list Z) (bits : Z) (q : qt) (parent_name : list Z)
  (layout : bool) (s : st) : outcome st :=
  if anon then Ok s
  else if negb layout then UB
  else
    do x <- MakeField fuel E (st_db s) q field_name parent_name (s32 (u32 (bits / 8)));
    match fst x with
    | Bad silent => Ok (print_bad silent parent_name (set_db (snd x) s))
    | Good f => do d <- add_field f (snd x); Ok (set_db d s)
    end.
(* 981-1002 AddClassTemplateDecl *)
Definition AddClassTemplateDecl (params : Z) (nm parent_name : list Z) (s : st) : outcome st :=
  do found <- first_prim (m_templates (st_db s)) nm;
  match found with
  | Some _ => Ok s
  | None =>
      if MAX_NB_ARGS <? params then Ok (warn nm s)
      else
        do n <- db_name (st_db s) nm;
        do p <- db_name (snd n) parent_name;
        do m <- db_add (fst n) (mk_prim (fst n) (fst p)) (m_templates (snd p));
        Ok (set_db (set_templates m (snd p)) s)
  end.
(* 892-910 the constants of an enum: value_int is the low word of the value, as an int *)
Fixpoint add_constants (enum_name parent_name : list Z) (l : list (list Z * Z)) (d : database) : outcome database :=
  match l with
  | [] => Ok d
  | (c, v) :: r =>
      let constant_name := match parent_name with [] => c | _ => parent_name ++ str "::" ++ c end in
      do n <- db_name d constant_name;
      do p <- db_name (snd n) enum_name;
      do m <- db_add (fst n) (mk_econst (mk_prim (fst n) (fst p)) (s32 v)) (m_enum_consts (snd p));
      add_constants enum_name parent_name r (set_enum_consts m (snd p))
  end.
(* 859-913 AddEnumDecl; the size of an Enum is always sizeof(int) (Database.h:317) *)
Definition AddEnumDecl (scoped : Z) (consts : list (list Z * Z)) (nm parent_name : list Z) (s : st) : outcome st :=
  do n <- db_name (st_db s) nm;
  do p <- db_name (snd n) parent_name;
  do m <- db_add (fst n) (mk_enum (mk_prim (fst n) (fst p)) 4 scoped) (m_enums (snd p));
  do d <- add_constants nm parent_name consts (set_enums m (snd p));
  Ok (set_db d s).
(* 731-742 AddNamespaceDecl, up to its contents *)
Definition AddNamespaceDecl (nm parent_name : list Z) (s : st) : outcome st :=
  do found <- first_prim (m_namespaces (st_db s)) nm;
  match found with
  | Some _ => Ok s
  | None =>
      do n <- db_name (st_db s) nm;
      do p <- db_name (snd n) parent_name;
      do m <- db_add (fst n) (mk_prim (fst n) (fst p)) (m_namespaces (snd p));
      Ok (set_db (set_namespaces m (snd p)) s)
  end.
(* 796-816 the base classes of a record: each is added to the inheritance table a second time, as the same entry *)
Fixpoint class_bases (fuel : nat) (E : env) (db : database) (derived : name) (l : list base) : outcome (presult unit * database) :=
  match l with
  | [] => Ok (Good tt, db)
  | b :: r =>
      do x <- ParseBaseClass (parse_cts fuel E) db derived b;
      match fst x with
      | Bad s => Ok (Bad s, snd x)
      | Good n =>
          do z <- AddTypeInheritance (m_names (snd x)) (m_inherits (snd x)) derived n;
          class_bases fuel E (set_inherits (snd z) (set_names (fst z) (snd x))) derived r
      end
  end.
(* 744-857 AddClassDecl, up to its contents: the state, and, when the contents are to be added, the scope they go to *)
Definition AddClassDecl (fuel : nat) (E : env) (r : rcd) (nm parent_name : list Z) (s : st) : outcome (st * option (list Z)) :=
  if negb (r_def r) && negb (r_free r) then Ok (s, None) else
  let forward_decl := negb (r_def r) in
  if negb forward_decl && r_vbases r then Ok (warn nm s, None) else
  do tn <- db_name (st_db s) nm;
  do b <- (if forward_decl then Ok (Good tt, snd tn) else class_bases fuel E (snd tn) (fst tn) (r_bases r));
  match fst b with
  | Bad silent => Ok (print_bad silent nm (set_db (snd b) s), None)
  | Good _ =>
      let d := snd b in
      if r_anon r then Ok (set_db d s, Some parent_name)
      else
        do found <- first_prim (m_classes d) nm;
        do d1 <- match found with
                 | Some _ => Ok d
                 | None =>
                     do n <- db_name d nm;
                     do p <- db_name (snd n) parent_name;
                     do m <- db_add (fst n) (mk_class (mk_prim (fst n) (fst p)) FORWARD_DECL_SIZE (r_class r)) (m_classes (snd p));
                     Ok (set_classes m (snd p))
                 end;
        if forward_decl then Ok (set_db d1 s, None)
        else
          do h <- HashNameString (nm ++ [0]) 0;
          match m_find h (m_classes d1) with
          | None => UB
          | Some c =>
              let m := m_update h (mk_class (c_prim c) (u32 (r_size r)) (c_is_class c)) (m_classes d1) in
              Ok (set_db (set_classes m d1) s, Some nm)
          end
  end.
(* 668-729 AddDecl and 1004-1018 AddContainedDecls. layout: whether there is a record layout *)
Section Decls.
Variables (fuel : nat) (sf : list Z -> Z) (E : env) (sp : specs).
Definition add_leaf (k : leaf) (nm parent_name : list Z) (layout : bool) (s : st) : outcome st :=
  match k with
  | L_enum scoped consts => AddEnumDecl scoped consts nm parent_name s
  | L_function f => MakeFunction fuel E f nm parent_name [] s
  | L_method op inst this f => AddMethodDecl fuel E op inst this f nm parent_name s
  | L_field anon n bits q => AddFieldDecl fuel E anon n bits q parent_name layout s
  | L_template params _ => AddClassTemplateDecl params nm parent_name s
  | L_other => Ok s
  end.
Fixpoint AddDecl (d : decl) (parent_name : list Z) (layout : bool) (s : st) {struct d} : outcome st :=
  let contained := fix contained (l : list decl) (scope : list Z) (layout : bool) (s : st) {struct l} : outcome st :=
    match l with
    | [] => Ok s
    | c :: r => do s' <- AddDecl c scope layout s; contained r scope layout s'
    end in
  let run (h : hdr) (body : st -> outcome st) : outcome st :=
    if h_invalid h then Ok s else
    do x <- ParseDeclAttributes sf sp d h (st_allow s) (st_db s);
    let s1 := set_db (snd x) s in
    match fst x with
    | PAR_NoReflect => Ok s1
    | PAR_Reflect => do s2 <- body (set_allow true s1); Ok (set_allow (st_allow s) s2)
    | PAR_ReflectPartial => body s1
    | PAR_Normal => if st_allow s1 then body s1 else Ok s1
    end in
  match d with
  | D_namespace h l => run h (fun s => do s' <- AddNamespaceDecl (h_name h) parent_name s; contained l (h_name h) false s')
  | D_record h r l => run h (fun s =>
      do x <- AddClassDecl fuel E r (h_name h) parent_name s;
      match snd x with None => Ok (fst x) | Some scope => contained l scope true (fst x) end)
  | D_leaf h k => run h (add_leaf k (h_name h) parent_name layout)
  | D_unnamed => Ok s
  end.
(* 637-666 WalkTranlationUnit *)
Definition top_level (d : decl) : bool :=
  match d with
  | D_namespace _ _ | D_record _ _ _ | D_leaf _ (L_function _) | D_leaf _ (L_enum _ _) | D_leaf _ (L_template _ _) => true
  | _ => false
  end.
Fixpoint walk_tu (l : list decl) (s : st) : outcome st :=
  match l with
  | [] => Ok s
  | d :: r => do s' <- (if top_level d then AddDecl d [] false s else Ok s); walk_tu r s'
  end.
End Decls.

(* ---- Main.cpp ---- *)
(* Database.cpp:50-74, with the sizes of a 64-bit Linux build *)
Definition base_types : list (list Z * Z) :=
  [(str "void", 0); (str "bool", 1); (str "char", 1); (str "unsigned char", 1); (str "wchar_t", 4); (str "short", 2);
   (str "unsigned short", 2); (str "int", 4); (str "unsigned int", 4); (str "long", 8); (str "unsigned long", 8);
   (str "float", 4); (str "double", 8); (str "long long", 8); (str "unsigned long long", 8)].
Fixpoint add_base_types (l : list (list Z * Z)) (d : database) : outcome database :=
  match l with
  | [] => Ok d
  | (t, size) :: r =>
      do n <- db_name d t;
      do m <- db_add (fst n) (mk_type (mk_prim (fst n) noname) size) (m_types (snd n));
      add_base_types r (set_types m (snd n))
  end.
Definition AddBaseTypePrimitives (d : database) : outcome database := add_base_types base_types d.
(* Main.cpp:143-155 one translation unit: the handler of tool.run *)
Definition scan_tu (fuel : nat) (sf : list Z -> Z) (E : env) (tu : list decl) (x : specs * st) : outcome (specs * st) :=
  let g := Gather tu (fst x) in
  do d <- AddBaseTypePrimitives (st_db (snd x));
  do s <- walk_tu fuel sf E (snd g) (fst g) (set_db d (snd x));
  Ok (snd g, s).
Fixpoint scan_tus (fuel : nat) (sf : list Z -> Z) (tus : list (env * list decl)) (x : specs * st) : outcome (specs * st) :=
  match tus with
  | [] => Ok x
  | (E, tu) :: r => do x' <- scan_tu fuel sf E tu x; scan_tus fuel sf r x'
  end.
(* Database.cpp:75-83 AddContainerInfo, for all container specs (Main.cpp:162-168) *)
Fixpoint add_containers (l : list (list Z * (list Z * list Z * bool))) (d : database) : outcome database :=
  match l with
  | [] => Ok d
  | (c, (r, w, k)) :: rest =>
      do nc <- db_name d c;
      do nr <- db_name (snd nc) r;
      do nw <- db_name (snd nr) w;
      add_containers rest
        (set_containers (m_set (n_hash (fst nc)) (mk_cinfo (fst nc) (fst nr) (fst nw) (if k then HAS_KEY else 0) 0)
                               (m_containers (snd nw))) (snd nw))
  end.
(* 142-168: the whole run, over every source given *)
Definition scan (fuel : nat) (sf : list Z -> Z) (tus : list (env * list decl)) : outcome (database * list (list Z)) :=
  do x <- scan_tus fuel sf tus (specs_empty, mk_st db_empty false []);
  do d <- add_containers (rs_containers (fst x)) (st_db (snd x));
  Ok (d, st_warn (snd x)).
