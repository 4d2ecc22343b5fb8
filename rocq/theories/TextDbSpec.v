(* Which databases a text file can hold, and what is read back. *)
From Verif Require Import Base Text Maps DatabaseModel BinarySpec FileUtilsSpec.

(* a text that stands in one column: not empty, no tab, newline or NUL, and not too long *)
Definition column_text (max : Z) (s : list Z) : Prop :=
  s <> [] /\ zlen s <= max /\ ~ In 9 s /\ ~ In 10 s /\ ~ In 0 s.

(* a table in key order, keyed by non-zero name hashes *)
Definition text_table {T} (nm : T -> name) (good : T -> Prop) (m : zmap T) : Prop :=
  sorted (keys m) /\ forall k v, In (k, v) m -> k = n_hash (nm v) /\ k <> 0 /\ good v.

(* pf is how a float is printed *)
Definition text_storable (pf : Z -> list Z) (db : database) : Prop :=
  let nm := m_names db in
  ssorted (keys nm) /\
  (forall h n, In (h, n) nm -> n_hash n = h /\ h <> 0 /\ is_u32 h /\ column_text 4086 (n_text n)) /\
  text_table p_name (known_prim nm) (m_namespaces db) /\
  text_table (fun t => p_name (t_prim t)) (fun t => known_prim nm (t_prim t)) (m_types db) /\
  text_table p_name (known_prim nm) (m_templates db) /\
  text_table (fun t => p_name (tt_prim t))
    (fun t => known_prim nm (tt_prim t) /\ Forall (known nm) (tt_types t) /\
              length (tt_types t) = 4%nat /\ length (tt_ptrs t) = 4%nat) (m_template_types db) /\
  text_table (fun c => p_name (c_prim c)) (fun c => known_prim nm (c_prim c)) (m_classes db) /\
  text_table (fun e => p_name (e_prim e)) (fun e => known_prim nm (e_prim e) /\ 0 <= e_scoped e <= 2) (m_enums db) /\
  text_table (fun e => p_name (ec_prim e)) (fun e => known_prim nm (ec_prim e)) (m_enum_consts db) /\
  text_table (fun f => p_name (fn_prim f)) (fun f => known_prim nm (fn_prim f)) (m_functions db) /\
  text_table (fun f => p_name (f_prim f)) (fun f => known_prim nm (f_prim f) /\ known nm (f_type f)) (m_fields db) /\
  text_table p_name (known_prim nm) (m_flag_attrs db) /\
  text_table (fun a => p_name (ia_prim a)) (fun a => known_prim nm (ia_prim a)) (m_int_attrs db) /\
  text_table (fun a => p_name (fa_prim a)) (fun a => known_prim nm (fa_prim a) /\ column_text 4000 (pf (fa_value a))) (m_float_attrs db) /\
  text_table (fun a => p_name (pa_prim a)) (fun a => known_prim nm (pa_prim a) /\ known nm (pa_value a)) (m_prim_attrs db) /\
  text_table (fun a => p_name (ta_prim a)) (fun a => known_prim nm (ta_prim a) /\ column_text 4077 (ta_value a)) (m_text_attrs db) /\
  text_table ci_name (fun c => known nm (ci_name c) /\ known nm (ci_read c) /\ known nm (ci_write c)) (m_containers db) /\
  text_table ti_name (fun t => known nm (ti_name t) /\ known nm (ti_derived t) /\ known nm (ti_base t)) (m_inherits db) /\
  ssorted (keys (m_containers db)) /\ ssorted (keys (m_inherits db)).

(* What is read back. Integers are printed unsigned and cut to nine digits, sizes and the other
   numbers are 32 bit, enums always get size 4, the template parameters lose their gaps, floats go
   through their text (sf reads what pf printed) and function addresses are lost. *)
Definition text_int (v : Z) : Z := let u := v mod 2 ^ 32 in if u <? 10 ^ 9 then u else u / 10.
Definition text_u32 (v : Z) : Z := v mod 2 ^ 32.
Definition given (x : name * bool) : bool := negb (n_hash (fst x) =? 0).
Definition text_ttype (t : template_type) : template_type :=
  let l := filter given (combine (tt_types t) (tt_ptrs t)) in
  mk_ttype (tt_prim t) (text_u32 (tt_size t))
    (firstn 4 (map fst l ++ repeat noname 4)) (firstn 4 (map snd l ++ repeat false 4)).
Definition mapped {T} (f : T -> T) (m : zmap T) : zmap T := map (fun x => (fst x, f (snd x))) m.
Definition text_stored (pf : Z -> list Z) (sf : list Z -> Z) (db : database) : database :=
  mk_db (m_names db) (m_namespaces db)
    (mapped (fun t => mk_type (t_prim t) (text_u32 (t_size t))) (m_types db))
    (m_templates db)
    (mapped text_ttype (m_template_types db))
    (mapped (fun c => mk_class (c_prim c) (text_u32 (c_size c)) (c_is_class c)) (m_classes db))
    (mapped (fun e => mk_enum (e_prim e) 4 (e_scoped e)) (m_enums db))
    (mapped (fun e => mk_econst (ec_prim e) (text_int (ec_value e))) (m_enum_consts db))
    (mapped (fun f => mk_func (fn_prim f) (text_u32 (fn_uid f)) 0) (m_functions db))
    (mapped (fun f => mk_field (f_prim f) (f_type f) (f_qual f) (text_int (f_offset f)) (text_u32 (f_parent_uid f))) (m_fields db))
    (m_flag_attrs db)
    (mapped (fun a => mk_int (ia_prim a) (text_int (ia_value a))) (m_int_attrs db))
    (mapped (fun a => mk_float (fa_prim a) (sf (pf (fa_value a)))) (m_float_attrs db))
    (m_prim_attrs db) (m_text_attrs db)
    (mapped (fun c => mk_cinfo (ci_name c) (ci_read c) (ci_write c) (text_u32 (ci_flags c)) (text_u32 (ci_count c))) (m_containers db))
    (m_inherits db).

(* the databases the file keeps exactly *)
Definition all_rows {T} (P : T -> Prop) (m : zmap T) : Prop := forall k v, In (k, v) m -> P v.
(* the template parameters in use come first *)
Definition no_gaps (t : template_type) : Prop :=
  exists l n, combine (tt_types t) (tt_ptrs t) = l ++ repeat (noname, false) n /\ Forall (fun x => n_hash (fst x) <> 0) l.
Definition text_exact (pf : Z -> list Z) (sf : list Z -> Z) (db : database) : Prop :=
  all_rows (fun t => is_u32 (t_size t)) (m_types db) /\
  all_rows (fun t => is_u32 (tt_size t) /\ no_gaps t) (m_template_types db) /\
  all_rows (fun c => is_u32 (c_size c)) (m_classes db) /\
  all_rows (fun e => e_size e = 4) (m_enums db) /\
  all_rows (fun e => 0 <= ec_value e < 10 ^ 9) (m_enum_consts db) /\
  all_rows (fun f => is_u32 (fn_uid f) /\ fn_address f = 0) (m_functions db) /\
  all_rows (fun f => 0 <= f_offset f < 10 ^ 9 /\ is_u32 (f_parent_uid f)) (m_fields db) /\
  all_rows (fun a => 0 <= ia_value a < 10 ^ 9) (m_int_attrs db) /\
  all_rows (fun a => sf (pf (fa_value a)) = fa_value a) (m_float_attrs db) /\
  all_rows (fun c => is_u32 (ci_flags c) /\ is_u32 (ci_count c)) (m_containers db).

(* C38: what the check looks at. The text of a line is what precedes its first NUL, at most 4095
   bytes; only the first seven lines count. *)
Fixpoint upto (d : Z) (s : list Z) : list Z :=
  match s with [] => [] | c :: r => if c =? d then [] else c :: upto d r end.
Definition line_text (l : list Z) : list Z := upto 0 (firstn 4095 l).
Definition version_line (l : list Z) : Prop := exists v, line_text l = str "Format Version: " ++ v.
(* the decimal number after blanks: what C reads as the version *)
Definition blank (c : Z) : Prop := c = 32 \/ 9 <= c <= 13.
Definition says_version (l : list Z) (n : Z) : Prop :=
  exists b ds r, line_text l = str "Format Version: " ++ b ++ ds ++ r /\
    Forall blank b /\ ds <> [] /\ dec_number ds = Some n /\
    match r with c :: _ => dec_digit c = None | [] => True end.
