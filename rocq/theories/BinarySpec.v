(* Which databases a binary file can hold, and what is read back. *)
From Verif Require Import Base Text HashModel Maps DatabaseModel.

(* a name in the table, or the null name *)
Definition known (names : zmap name) (n : name) : Prop := n = noname \/ m_find (n_hash n) names = Some n.
Definition known_prim names (p : prim) : Prop := known names (p_name p) /\ known names (p_parent p).
(* a text that fits the reader's buffer *)
Definition short_text (s : list Z) : Prop := c_string s /\ zlen s <= 1023.

(* a table in key order, keyed by non-zero name hashes, whose file stays under 2 GB *)
Definition table_ok {T} (nm : T -> name) (good : T -> Prop) (m : zmap T) : Prop :=
  sorted (keys m) /\ zlen m < 2 ^ 25 /\
  forall k v, In (k, v) m -> k = n_hash (nm v) /\ k <> 0 /\ good v.

Definition storable (db : database) : Prop :=
  let nm := m_names db in
  ssorted (keys nm) /\ zlen nm < 2 ^ 31 /\
  (forall h n, In (h, n) nm -> n_hash n = h /\ h <> 0 /\ is_u32 h /\ short_text (n_text n)) /\
  table_ok p_name (known_prim nm) (m_namespaces db) /\
  table_ok (fun t => p_name (t_prim t)) (fun t => known_prim nm (t_prim t) /\ is_u64 (t_size t)) (m_types db) /\
  table_ok p_name (known_prim nm) (m_templates db) /\
  table_ok (fun t => p_name (tt_prim t))
    (fun t => known_prim nm (tt_prim t) /\ is_u64 (tt_size t) /\ Forall (known nm) (tt_types t) /\
              length (tt_types t) = 4%nat /\ length (tt_ptrs t) = 4%nat) (m_template_types db) /\
  table_ok (fun c => p_name (c_prim c)) (fun c => known_prim nm (c_prim c) /\ is_u64 (c_size c)) (m_classes db) /\
  table_ok (fun e => p_name (e_prim e))
    (fun e => known_prim nm (e_prim e) /\ is_u64 (e_size e) /\ is_s32 (e_scoped e)) (m_enums db) /\
  table_ok (fun e => p_name (ec_prim e)) (fun e => known_prim nm (ec_prim e) /\ is_s32 (ec_value e)) (m_enum_consts db) /\
  table_ok (fun f => p_name (fn_prim f)) (fun f => known_prim nm (fn_prim f) /\ is_u32 (fn_uid f)) (m_functions db) /\
  table_ok (fun f => p_name (f_prim f))
    (fun f => known_prim nm (f_prim f) /\ known nm (f_type f) /\ is_s32 (f_offset f) /\ is_u32 (f_parent_uid f)) (m_fields db) /\
  table_ok p_name (known_prim nm) (m_flag_attrs db) /\
  table_ok (fun a => p_name (ia_prim a)) (fun a => known_prim nm (ia_prim a) /\ is_s32 (ia_value a)) (m_int_attrs db) /\
  table_ok (fun a => p_name (fa_prim a)) (fun a => known_prim nm (fa_prim a) /\ is_u32 (fa_value a)) (m_float_attrs db) /\
  table_ok (fun a => p_name (pa_prim a)) (fun a => known_prim nm (pa_prim a) /\ known nm (pa_value a)) (m_prim_attrs db) /\
  table_ok (fun a => p_name (ta_prim a)) (fun a => known_prim nm (ta_prim a) /\ short_text (ta_value a)) (m_text_attrs db) /\
  table_ok ci_name
    (fun c => known nm (ci_name c) /\ known nm (ci_read c) /\ known nm (ci_write c) /\ is_u32 (ci_flags c) /\ is_u32 (ci_count c))
    (m_containers db) /\
  table_ok ti_name (fun t => known nm (ti_name t) /\ known nm (ti_derived t) /\ known nm (ti_base t)) (m_inherits db) /\
  ssorted (keys (m_containers db)) /\ ssorted (keys (m_inherits db)).

(* no two text attributes have values of the same hash: in particular no value is used twice *)
Definition distinct_texts (db : database) : Prop :=
  NoDup (map (fun a => HashNameString (ta_value (snd a) ++ [0]) 0) (m_text_attrs db)).

(* what is read back: everything but the function addresses *)
Definition without_address (f : function) : function := mk_func (fn_prim f) (fn_uid f) 0.
Definition stored (db : database) : database :=
  mk_db (m_names db) (m_namespaces db) (m_types db) (m_templates db) (m_template_types db) (m_classes db) (m_enums db)
    (m_enum_consts db) (map (fun x => (fst x, without_address (snd x))) (m_functions db)) (m_fields db) (m_flag_attrs db)
    (m_int_attrs db) (m_float_attrs db) (m_prim_attrs db) (m_text_attrs db) (m_containers db) (m_inherits db).
