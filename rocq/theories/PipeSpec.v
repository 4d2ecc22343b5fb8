(* What it takes for the database of a scan to go through a file, be merged with others and be exported. *)
From Verif Require Import Base Text HashModel Maps DatabaseModel AttrModel NamesProofs MergeSpec BinarySpec TextDbSpec ScanModel.
From Verif Require ScanSpec.

(* ---- limits of the files ---- *)
Definition at_most_rows {T} (m : zmap T) : Prop := zlen m < 2 ^ 25.
(* names and texts of less than 1 KB, tables that keep the file under 2 GB, numbers of the width the file has for them,
   and no container or base class whose name has hash 0 *)
Definition fits (d : database) : Prop :=
  zlen (m_names d) < 2 ^ 31 /\ all_rows (fun n => short_text (n_text n)) (m_names d) /\
  at_most_rows (m_namespaces d) /\ at_most_rows (m_types d) /\ at_most_rows (m_templates d) /\ at_most_rows (m_template_types d) /\
  at_most_rows (m_classes d) /\ at_most_rows (m_enums d) /\ at_most_rows (m_enum_consts d) /\ at_most_rows (m_functions d) /\
  at_most_rows (m_fields d) /\ at_most_rows (m_flag_attrs d) /\ at_most_rows (m_int_attrs d) /\ at_most_rows (m_float_attrs d) /\
  at_most_rows (m_prim_attrs d) /\ at_most_rows (m_text_attrs d) /\ at_most_rows (m_containers d) /\ at_most_rows (m_inherits d) /\
  all_rows (fun e => is_s32 (e_scoped e)) (m_enums d) /\ all_rows (fun f => is_s32 (f_offset f)) (m_fields d) /\
  all_rows (fun a => is_u32 (fa_value a)) (m_float_attrs d) /\ all_rows (fun a => short_text (ta_value a)) (m_text_attrs d) /\
  all_rows (fun c => is_u32 (ci_count c)) (m_containers d) /\ ~ In 0 (keys (m_containers d)) /\ ~ In 0 (keys (m_inherits d)).
(* in a text file names and texts stand in one column of a line *)
Definition fits_text (pf : Z -> list Z) (d : database) : Prop :=
  all_rows (fun n => column_text 4086 (n_text n)) (m_names d) /\
  all_rows (fun e => 0 <= e_scoped e <= 2) (m_enums d) /\ all_rows (fun a => column_text 4000 (pf (fa_value a))) (m_float_attrs d) /\
  all_rows (fun a => column_text 4077 (ta_value a)) (m_text_attrs d) /\
  ~ In 0 (keys (m_containers d)) /\ ~ In 0 (keys (m_inherits d)).

(* ---- several scans, merged ---- *)
(* one run of the scanner for each list of translation units *)
Definition scanned (sf : list Z -> Z) (runs : list (list (env * list decl))) (ds : list database) : Prop :=
  Forall2 (fun tus d => ScanSpec.coherent (ScanSpec.units tus) /\ exists fuel w, scan fuel sf tus = Ok (d, w)) runs ds.
(* texts of less than 2 GB, no NaN, and no container or base class whose name has hash 0 *)
Definition mergeable (d : database) : Prop :=
  all_rows (fun n => text_ok (n_text n)) (m_names d) /\ no_nan (m_float_attrs d) /\
  ~ In 0 (keys (m_containers d)) /\ ~ In 0 (keys (m_inherits d)).
(* something some run says *)
Definition declared (sf : list Z -> Z) (runs : list (list (env * list decl))) (ev : ScanSpec.event) : Prop :=
  exists tus, In tus runs /\ ScanSpec.given sf tus ev.
(* of the classes of one name: the first with a definition, else the first *)
Definition best_class (cs : list class) : list class := firstn 1 (filter (fun c => negb (is_fwd c)) cs ++ cs).

(* ---- export ---- *)
(* no anonymous union or struct directly in a namespace or at the top of a source: its members would have no class *)
Fixpoint unions_in_classes (inside : bool) (d : decl) : bool :=
  match d with
  | D_namespace _ l => forallb (unions_in_classes false) l
  | D_record _ r l => (negb (r_anon r) || inside) && forallb (unions_in_classes true) l
  | D_leaf _ _ | D_unnamed => true
  end.
Definition no_loose_unions (tus : list (env * list decl)) : Prop :=
  forall E tu d, In (E, tu) tus -> In d tu -> unions_in_classes false d = true.
(* no two of the types, classes, enums and template types have the same name *)
Definition one_kind (d : database) : Prop :=
  NoDup (map fst (m_types d) ++ map fst (m_classes d) ++ map fst (m_enums d) ++ map fst (m_template_types d)).
(* row number i of a table, as the export sees it: the primitive of kind k at place (k, i) *)
Definition at_row {T} (m : zmap T) (i : nat) (v : T) : Prop := exists h, nth_error m i = Some (h, v).
(* the parameters and the return value of a function, and the members of a class, by their own account *)
Definition of_function (fn : function) (f : field) : Prop := n_hash (p_parent (f_prim f)) = n_hash (p_name (fn_prim fn)) /\ f_parent_uid f = fn_uid fn.
Definition of_class (h : Z) (f : field) : Prop := n_hash (p_parent (f_prim f)) = h.
