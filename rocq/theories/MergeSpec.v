(* What merging tables means. *)
From Verif Require Import Base Text Maps DatabaseModel NamesProofs.

(* tables as the rest of the program builds them: in key order, keyed by the non-zero name hash *)
Definition wf_table {T} (nm : T -> name) (m : zmap T) : Prop :=
  sorted (keys m) /\ forall k v, In (k, v) m -> k = n_hash (nm v) /\ k <> 0.
Definition wf_map {T} (nm : T -> name) (m : zmap T) : Prop := ssorted (keys m) /\ wf_table nm m.

(* one object per name: kept if present, otherwise the first one of src *)
Definition uniques_merged {T} (d s d' : zmap T) : Prop :=
  forall k, m_range k d' = match m_range k d with [] => firstn 1 (m_range k s) | l => l end.

(* everything of d stays, in order; from src exactly what is not there already *)
Definition overloads_merged {T} (eqb : T -> T -> bool) (d s d' : zmap T) : Prop :=
  forall k, exists new, m_range k d' = m_range k d ++ new /\
    (forall v, In v new -> In v (m_range k s)) /\
    (forall v, In v (m_range k s) -> exists w, In w (m_range k d') /\ (w = v \/ eqb w v = true)) /\
    (forall a v b, new = a ++ v :: b -> forall w, In w (m_range k d ++ a) -> eqb w v = false).

Definition is_fwd (c : class) : bool := c_size c =? FORWARD_DECL_SIZE.
(* the class a name stands for: the one in d unless that is a forward declaration *)
Definition classes_merged (d s d' : zmap class) : Prop :=
  forall k,
    m_find k d' = match m_find k d with
                  | Some c => if is_fwd c then
                                match find (fun c => negb (is_fwd c)) (m_range k s) with Some c' => Some c' | None => Some c end
                              else Some c
                  | None => match find (fun c => negb (is_fwd c)) (m_range k s) with
                            | Some c' => Some c'
                            | None => hd_error (m_range k s)
                            end
                  end /\
    tl (m_range k d') = tl (m_range k d).

Definition no_nan (m : zmap float_attr) : Prop := forall k v, In (k, v) m -> f_is_nan (fa_value v) = false.

(* a database whose tables are well formed *)
Definition wf_db (d : database) : Prop :=
  names_ok (m_names d) /\ (forall h n, In (h, n) (m_names d) -> text_ok (n_text n)) /\
  wf_table p_name (m_namespaces d) /\ wf_table (fun t => p_name (t_prim t)) (m_types d) /\
  wf_table p_name (m_templates d) /\ wf_table (fun t => p_name (tt_prim t)) (m_template_types d) /\
  wf_table (fun c => p_name (c_prim c)) (m_classes d) /\ wf_table (fun e => p_name (e_prim e)) (m_enums d) /\
  wf_table (fun e => p_name (ec_prim e)) (m_enum_consts d) /\ wf_table (fun f => p_name (fn_prim f)) (m_functions d) /\
  wf_table (fun f => p_name (f_prim f)) (m_fields d) /\ wf_table p_name (m_flag_attrs d) /\
  wf_table (fun a => p_name (ia_prim a)) (m_int_attrs d) /\ wf_table (fun a => p_name (fa_prim a)) (m_float_attrs d) /\
  wf_table (fun a => p_name (pa_prim a)) (m_prim_attrs d) /\ wf_table (fun a => p_name (ta_prim a)) (m_text_attrs d) /\
  wf_map ci_name (m_containers d) /\ wf_map ti_name (m_inherits d) /\ no_nan (m_float_attrs d).

Definition names_merged (d s d' : zmap name) : Prop :=
  forall h n, m_find h d' = Some n <-> m_find h d = Some n \/ m_find h s = Some n.

Definition merged (d s d' : database) : Prop :=
  names_merged (m_names d) (m_names s) (m_names d') /\
  uniques_merged (m_namespaces d) (m_namespaces s) (m_namespaces d') /\
  uniques_merged (m_types d) (m_types s) (m_types d') /\
  uniques_merged (m_templates d) (m_templates s) (m_templates d') /\
  uniques_merged (m_template_types d) (m_template_types s) (m_template_types d') /\
  uniques_merged (m_enums d) (m_enums s) (m_enums d') /\
  uniques_merged (m_containers d) (m_containers s) (m_containers d') /\
  uniques_merged (m_inherits d) (m_inherits s) (m_inherits d') /\
  classes_merged (m_classes d) (m_classes s) (m_classes d') /\
  overloads_merged enum_const_eqb (m_enum_consts d) (m_enum_consts s) (m_enum_consts d') /\
  overloads_merged function_eqb (m_functions d) (m_functions s) (m_functions d') /\
  overloads_merged field_eqb (m_fields d) (m_fields s) (m_fields d') /\
  overloads_merged prim_eqb (m_flag_attrs d) (m_flag_attrs s) (m_flag_attrs d') /\
  overloads_merged int_attr_eqb (m_int_attrs d) (m_int_attrs s) (m_int_attrs d') /\
  overloads_merged float_attr_eqb (m_float_attrs d) (m_float_attrs s) (m_float_attrs d') /\
  overloads_merged prim_attr_eqb (m_prim_attrs d) (m_prim_attrs s) (m_prim_attrs d') /\
  overloads_merged text_attr_eqb (m_text_attrs d) (m_text_attrs s) (m_text_attrs d').

(* no two databases use one hash for two texts *)
Definition compatible (d s : database) : Prop :=
  forall h n1 n2, m_find h (m_names d) = Some n1 -> m_find h (m_names s) = Some n2 -> n1 = n2.

(* the overloads r that name k has after merging the tables srcs into an empty one *)
Definition overload_union {T} (eqb : T -> T -> bool) (srcs : list (zmap T)) (k : Z) (r : list T) : Prop :=
  (forall v, In v r -> exists s, In s srcs /\ In v (m_range k s)) /\
  (forall s v, In s srcs -> In v (m_range k s) -> exists w, In w r /\ eqb w v = true) /\
  ForallOrdPairs (fun a b => eqb a b = false) r.
(* two lists hold the same things, up to eqb and order *)
Definition same_set {T} (eqb : T -> T -> bool) (r1 r2 : list T) : Prop :=
  length r1 = length r2 /\ (forall v, In v r1 -> exists w, In w r2 /\ eqb w v = true) /\
  (forall v, In v r2 -> exists w, In w r1 /\ eqb w v = true).
(* a statement about each of the eight tables of overloadable primitives *)
Definition each_overload_table (P : forall T, (T -> T -> bool) -> (database -> zmap T) -> Prop) : Prop :=
  P enum_const enum_const_eqb m_enum_consts /\ P function function_eqb m_functions /\ P field field_eqb m_fields /\
  P prim prim_eqb m_flag_attrs /\ P int_attr int_attr_eqb m_int_attrs /\ P float_attr float_attr_eqb m_float_attrs /\
  P prim_attr prim_attr_eqb m_prim_attrs /\ P text_attr text_attr_eqb m_text_attrs.

(* when two overloads of one name count as one: names compare by hash *)
Definition same_prim (a b : prim) : Prop := n_hash (p_name a) = n_hash (p_name b) /\ n_hash (p_parent a) = n_hash (p_parent b).
Definition same_enum_const (a b : enum_const) : Prop := same_prim (ec_prim a) (ec_prim b) /\ ec_value a = ec_value b.
(* the address of a function does not count *)
Definition same_function (a b : function) : Prop := same_prim (fn_prim a) (fn_prim b) /\ fn_uid a = fn_uid b.
Definition same_field (a b : field) : Prop :=
  same_prim (f_prim a) (f_prim b) /\ n_hash (f_type a) = n_hash (f_type b) /\ f_qual a = f_qual b /\ f_offset a = f_offset b /\ f_parent_uid a = f_parent_uid b.
Definition same_int_attr (a b : int_attr) : Prop := same_prim (ia_prim a) (ia_prim b) /\ ia_value a = ia_value b.
(* +0 and -0 count as one, a NaN is never the same as another *)
Definition same_float_attr (a b : float_attr) : Prop :=
  same_prim (fa_prim a) (fa_prim b) /\
  f_is_nan (fa_value a) = false /\ f_is_nan (fa_value b) = false /\ (fa_value a = fa_value b \/ (f_is_zero (fa_value a) = true /\ f_is_zero (fa_value b) = true)).
Definition same_prim_attr (a b : prim_attr) : Prop := same_prim (pa_prim a) (pa_prim b) /\ n_hash (pa_value a) = n_hash (pa_value b).
Definition same_text_attr (a b : text_attr) : Prop := same_prim (ta_prim a) (ta_prim b) /\ ta_value a = ta_value b.
