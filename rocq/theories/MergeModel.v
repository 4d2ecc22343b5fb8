(* src/clReflectMerge/DatabaseMerge.cpp *)
From Verif Require Import Base Text HashModel Maps DatabaseModel.

(* DatabaseMerge.cpp:21-36 MergeUniques; nm gives an object's name, add is AddPrimitive *)
Fixpoint MergeUniques {T} (nm : T -> name) (add : name -> T -> zmap T -> outcome (zmap T))
    (dest src : zmap T) : outcome (zmap T) :=
  match src with
  | [] => Ok dest
  | (k, v) :: r =>
      do dest' <- match m_find k dest with
                  | None => add (nm v) v dest
                  | Some _ => Ok dest
                  end;
      MergeUniques nm add dest' r
  end.

(* DatabaseMerge.cpp:38-73 MergeClasses; the size warning is not modelled (no effect on the data) *)
Definition class_name (c : class) : name := p_name (c_prim c).
Fixpoint MergeClasses (dest src : zmap class) : outcome (zmap class) :=
  match src with
  | [] => Ok dest
  | (k, v) :: r =>
      do dest' <- match m_find k dest with
                  | None => db_add (class_name v) v dest
                  | Some d =>
                      if (c_size d =? FORWARD_DECL_SIZE) && negb (c_size v =? FORWARD_DECL_SIZE)
                      then Ok (m_update k v dest) else Ok dest
                  end;
      MergeClasses dest' r
  end.

(* DatabaseMerge.cpp:75-108 MergeOverloads; eqb is i->second.Equals(src->second) *)
Fixpoint MergeOverloads {T} (nm : T -> name) (eqb : T -> T -> bool) (dest src : zmap T) : outcome (zmap T) :=
  match src with
  | [] => Ok dest
  | (k, v) :: r =>
      do dest' <- match m_find k dest with
                  | None => db_add (nm v) v dest
                  | Some _ =>
                      if existsb (fun d => eqb d v) (m_range k dest) then Ok dest
                      else db_add (nm v) v dest
                  end;
      MergeOverloads nm eqb dest' r
  end.

(* DatabaseMerge.cpp:117-119 *)
Fixpoint MergeNames (dest src : zmap name) : outcome (zmap name) :=
  match src with
  | [] => Ok dest
  | (_, n) :: r => do x <- GetName dest (Some (n_text n)); MergeNames (snd x) r
  end.

(* DatabaseMerge.cpp:113-156 MergeDatabases *)
Definition MergeDatabases (d s : database) : outcome database :=
  do names <- MergeNames (m_names d) (m_names s);
  do namespaces <- MergeUniques p_name db_add (m_namespaces d) (m_namespaces s);
  do types <- MergeUniques (fun t => p_name (t_prim t)) db_add (m_types d) (m_types s);
  do enums <- MergeUniques (fun e => p_name (e_prim e)) db_add (m_enums d) (m_enums s);
  do templates <- MergeUniques p_name db_add (m_templates d) (m_templates s);
  do ttypes <- MergeUniques (fun t => p_name (tt_prim t)) db_add (m_template_types d) (m_template_types s);
  do classes <- MergeClasses (m_classes d) (m_classes s);
  do econsts <- MergeOverloads (fun e => p_name (ec_prim e)) enum_const_eqb (m_enum_consts d) (m_enum_consts s);
  do funcs <- MergeOverloads (fun f => p_name (fn_prim f)) function_eqb (m_functions d) (m_functions s);
  do fields <- MergeOverloads (fun f => p_name (f_prim f)) field_eqb (m_fields d) (m_fields s);
  do flags <- MergeOverloads p_name prim_eqb (m_flag_attrs d) (m_flag_attrs s);
  do ints <- MergeOverloads (fun a => p_name (ia_prim a)) int_attr_eqb (m_int_attrs d) (m_int_attrs s);
  do floats <- MergeOverloads (fun a => p_name (fa_prim a)) float_attr_eqb (m_float_attrs d) (m_float_attrs s);
  do prims <- MergeOverloads (fun a => p_name (pa_prim a)) prim_attr_eqb (m_prim_attrs d) (m_prim_attrs s);
  do texts <- MergeOverloads (fun a => p_name (ta_prim a)) text_attr_eqb (m_text_attrs d) (m_text_attrs s);
  do conts <- MergeUniques ci_name db_add_unique (m_containers d) (m_containers s);
  do inhs <- MergeUniques ti_name db_add_unique (m_inherits d) (m_inherits s);
  Ok (mk_db names namespaces types templates ttypes classes enums econsts funcs fields flags ints floats prims texts conts inhs).

(* src/clReflectMerge/Main.cpp:45-63: an empty database receives each file in turn *)
Fixpoint MergeAll (d : database) (l : list database) : outcome database :=
  match l with
  | [] => Ok d
  | s :: r => do d' <- MergeDatabases d s; MergeAll d' r
  end.
