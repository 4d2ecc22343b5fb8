(* Versions of the types of a program, and what an object saved by one version gives an object of the other. *)
From Verif Require Import Base SearchModel JsonNumModel JsonObjModel JsonObjSpec.

(* serialisation leaves out what is transient on disk, network or export (attribute bits 0, 1 and 3) *)
Definition transient_bits : Z := 11.
Definition lasting (flag_attributes : Z) : Prop := has_flag flag_attributes transient_bits = false.

(* the fields saved for an object of a class, with the hashes of their names: its own and those of its bases *)
Inductive vb_saved (E : list rtype) : nat -> Z -> rfield -> Prop :=
| vs_own : forall ty t fa fs h f, nth_error E ty = Some t -> rt_kind t = K_class fa fs -> lasting fa -> In (h, f) fs -> lasting (rf_flags f) -> vb_saved E ty h f
| vs_base : forall ty t fa fs b h f, nth_error E ty = Some t -> rt_kind t = K_class fa fs -> lasting fa -> In b (rt_bases t) -> vb_saved E b h f -> vb_saved E ty h f.
(* the field of that name an object of a class can be given back *)
Definition new_field (E : list rtype) (ty : nat) (h : Z) : option rfield :=
  match find_field (S ty) E ty h with
  | Some f => if has_flag (rf_flags f) transient_bits then None else Some f
  | None => None
  end.
(* an element both fields have: element 0 when they are no arrays *)
Definition common (f f' : rfield) (i : Z) : Prop :=
  match rf_count f, rf_count f' with
  | None, None => i = 0
  | Some n, Some n' => rf_ptr f = false /\ rf_ptr f' = false /\ 0 <= i < n /\ i < n'
  | _, _ => False
  end.
Definition is_class (t : rtype) : bool := match rt_kind t with K_class _ _ => true | _ => false end.
(* offset d in objects of the old type holds a number or enum of type t which the new type has at offset d', of type t':
   the fields and array elements on the way have the same names, places and type names *)
Inductive matching (E E' : list rtype) : nat -> nat -> Z -> Z -> rtype -> rtype -> Prop :=
| mt_leaf : forall ty ty' t t', nth_error E ty = Some t -> nth_error E' ty' = Some t' -> is_class t = false -> is_class t' = false -> matching E E' ty ty' 0 0 t t'
| mt_member : forall ty ty' h f f' et et' i d d' t t', vb_saved E ty h f -> new_field E' ty' h = Some f' ->
    nth_error E (rf_type f) = Some et -> nth_error E' (rf_type f') = Some et' -> rt_hash et = rt_hash et' -> common f f' i ->
    matching E E' (rf_type f) (rf_type f') d d' t t' ->
    matching E E' ty ty' (rf_offset f + i * rt_size et + d) (rf_offset f' + i * rt_size et' + d') t t'.
(* the hash of the name of the first constant with a value, 0 if there is none *)
Definition constant_hash (cs : list (entry (list Z * Z))) (value : Z) : Z :=
  match find (fun e => snd (snd e) =? value) cs with Some e => fst e | None => 0 end.
(* what the new version gets for the bytes of a number or enum: numbers of another size are dropped; enums keep the
   constant, not its value, and are dropped when there is no such constant any more *)
Definition converted (t t' : rtype) (bytes : list Z) : option (list Z) :=
  match rt_kind t, rt_kind t' with
  | K_type, K_type => if rt_size t =? rt_size t' then Some bytes else None
  | K_enum _ cs, K_enum _ cs' =>
      if rt_size t' =? 4 then
        match lookup cs' (constant_hash cs (s32 (le_val bytes))) with Some (_, v) => Some (le_bytes 4 v) | None => None end
      else None
  | _, _ => None
  end.

(* ---- what types must be like ---- *)
(* how many bytes of an object a field is taken to have; one that is no array is taken for a value even if it is a pointer *)
Definition vb_space (f : rfield) (et : rtype) : Z :=
  match rf_count f with None => rt_size et | Some n => n * (if rf_ptr f then 8 else rt_size et) end.
Definition vb_type_ok (E : list rtype) (i : nat) (t : rtype) : Prop :=
  0 < rt_size t < 2 ^ 32 /\ is_u32 (rt_hash t) /\ rt_hash t <> 0 /\
  match rt_kind t with
  | K_type => rt_bases t = []
  | K_enum _ cs => rt_bases t = [] /\ forall e, In e cs -> is_u32 (fst e)
  | K_class _ fs =>
      (forall b, In b (rt_bases t) -> exists bt, nth_error E b = Some bt /\ is_class bt = true /\ rt_size bt <= rt_size t) /\
      (forall h f et, In (h, f) fs -> nth_error E (rf_type f) = Some et ->
         is_u32 h /\ 0 <= rf_offset f /\ rf_offset f + vb_space f et <= rt_size t /\ match rf_count f with Some n => is_u32 n | None => True end)
  end.
Definition vb_types_ok (E : list rtype) : Prop := wf_types E /\ forall i t, nth_error E i = Some t -> vb_type_ok E i t.
(* in the version that saves, enums are ints, and classes are built from types that come before them; only arrays of
   pointers may go the other way *)
Definition vb_savable (E : list rtype) : Prop :=
  forall i t, nth_error E i = Some t ->
    match rt_kind t with
    | K_type => True
    | K_enum _ _ => rt_size t = 4
    | K_class _ fs => forall h f, In (h, f) fs -> lasting (rf_flags f) -> (rf_type f < i)%nat \/ (rf_count f <> None /\ rf_ptr f = true)
    end.
(* a type name stands for the same kind of type in both versions, and a field for an array in both or in none; arrays
   keep their element type, and remain arrays of pointers *)
Definition same_kind (t t' : rtype) : Prop :=
  match rt_kind t, rt_kind t' with K_type, K_type | K_enum _ _, K_enum _ _ | K_class _ _, K_class _ _ => True | _, _ => False end.
Definition vb_agree (E E' : list rtype) : Prop :=
  forall u v t t', nth_error E u = Some t -> nth_error E' v = Some t' -> rt_hash t = rt_hash t' -> same_kind t t' /\
    forall h f f' et et', vb_saved E u h f -> new_field E' v h = Some f' -> nth_error E (rf_type f) = Some et -> nth_error E' (rf_type f') = Some et' ->
      match rf_count f, rf_count f' with
      | None, None => True
      | Some _, Some _ => rf_ptr f = rf_ptr f' /\ rt_hash et = rt_hash et'
      | _, _ => False
      end.
(* a class and its bases have one saved field of a name *)
Definition names_apart (E : list rtype) : Prop := forall ty h f g, vb_saved E ty h f -> vb_saved E ty h g -> f = g.
(* different fields take different bytes *)
Definition fields_apart (E : list rtype) : Prop :=
  forall ty h g f f' et et', new_field E ty h = Some f -> new_field E ty g = Some f' -> h <> g ->
    nth_error E (rf_type f) = Some et -> nth_error E (rf_type f') = Some et' ->
    rf_offset f + vb_space f et <= rf_offset f' \/ rf_offset f' + vb_space f' et' <= rf_offset f.
(* n bytes of memory at an address that is not null *)
Definition block (mem : list Z) (object n : Z) : Prop := 0 < object /\ object + n <= zlen mem /\ zlen mem < 2 ^ 63.
(* bytes stand in the data at a position *)
Definition stands (data : list Z) (pos : Z) (bytes : list Z) : Prop := exists pre post, data = pre ++ bytes ++ post /\ zlen pre = pos.

(* ---- one version ---- *)
(* an object of a type has a saved number or enum of type t at offset d *)
Inductive vb_leaf (E : list rtype) : nat -> Z -> rtype -> Prop :=
| vl_here : forall ty t, nth_error E ty = Some t -> is_class t = false -> vb_leaf E ty 0 t
| vl_member : forall ty h f et i d t, vb_saved E ty h f -> nth_error E (rf_type f) = Some et ->
    match rf_count f with None => i = 0 | Some n => rf_ptr f = false /\ 0 <= i < n end ->
    vb_leaf E (rf_type f) d t -> vb_leaf E ty (rf_offset f + i * rt_size et + d) t.
Definition vb_carried (E : list rtype) (ty : nat) (x : Z) : Prop := exists d t, vb_leaf E ty d t /\ d <= x < d + rt_size t.
(* a name stands for one type, and for one field of a class with its bases *)
Definition one_meaning (E : list rtype) : Prop :=
  (forall u v t t', nth_error E u = Some t -> nth_error E v = Some t' -> rt_hash t = rt_hash t' -> u = v) /\
  (forall ty h f g, has_member E ty h f -> has_member E ty h g -> f = g).

(* ---- arbitrary data ---- *)
(* enums take at least the four bytes an enum constant is stored in *)
Definition enums_wide (E : list rtype) : Prop := forall i t flags cs, nth_error E i = Some t -> rt_kind t = K_enum flags cs -> 4 <= rt_size t.
