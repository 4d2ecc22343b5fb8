(* Versioned binary: src/clReflectUtil/SerialiseVersionedBinary.cpp. Memory, types and fields are as in JsonObjModel.v;
   what is written to a WriteBuffer is given as the bytes appended (WriteBuffer is modelled in BufferModel.v).
   Not modelled: types with a container info (dynamic containers and dictionaries, KIND_TEMPLATE_TYPE): containers are the
   C arrays of fields, which have no keys. *)
From Verif Require Import Base Text HashModel SearchModel RuntimeModel JsonNumModel JsonObjModel.

(* inc/clcpp/clcpp.h:338-351 attrFlag_DiskTransient, attrFlag_NetworkTransient and attrFlag_ExportTransient *)
Definition attrFlag_Transient := 11.
Definition skipped (flag_attributes : Z) : bool := is_transient flag_attributes attrFlag_Transient.
(* functions named by the save_vbin and load_vbin attributes of a field: they are given the object and the field's place
   in it; a save function appends bytes, a load function reads from a position in the data and may store in memory *)
Definition custom_save := rfield -> option (Z -> Z -> outcome (list Z)).
Definition custom_load := rfield -> option (Z -> Z -> Z -> list Z -> outcome (Z * list Z)).

(* ---- saving ---- *)
(* 74-96 ChunkHeaderWriter with 46-72 SizeBackPatcher: the hashes, the size of what follows, what follows. The size is an
   unsigned int *)
Definition sized (body : list Z) : list Z := le_bytes 4 (zlen body) ++ body.
Definition chunk (type_hash name_hash : Z) (body : list Z) : list Z := le_bytes 4 type_hash ++ le_bytes 4 name_hash ++ sized body.
(* 161-164; the size is converted to unsigned int *)
Definition vb_SaveType (mem : list Z) (object : Z) (t : rtype) : outcome (list Z) := rd_bytes mem object (u32 (rt_size t)).
(* 172-181; a Name has the hash 0 when it is not assigned *)
Fixpoint enum_hash (constants : list (entry (list Z * Z))) (value : Z) : Z :=
  match constants with
  | [] => 0
  | (hash, (_, enum_value)) :: r => if enum_value =? value then hash else enum_hash r value
  end.
(* 166-186 *)
Definition vb_SaveEnum (mem : list Z) (object : Z) (constants : list (entry (list Z * Z))) : outcome (list Z) :=
  do bytes <- rd_bytes mem object 4; Ok (le_bytes 4 (enum_hash constants (s32 (le_val bytes)))).
(* 107-128 ContainerChunkHeader: valueTypeSize *)
Definition value_size (t : rtype) (is_ptr : bool) : Z :=
  if is_ptr then 8
  else if (rt_hash t =? 0) || match rt_kind t with K_class _ _ => true | _ => false end then 0
  else u32 (rt_size t).
(* 130-135; there is no key type *)
Definition container_header (count : Z) (t : rtype) (is_ptr : bool) : list Z :=
  le_bytes 4 count ++ le_bytes 4 0 ++ le_bytes 4 0 ++ le_bytes 4 (rt_hash t) ++ le_bytes 4 (value_size t is_ptr).
(* 193-229 the loop of SaveContainer with n rounds left; size is valueTypeSize, save is SaveObject. Nothing is written for
   a pointer *)
Fixpoint vb_save_elements (n : nat) (save : Z -> outcome (list Z)) (size : Z) (is_ptr : bool) (it : array_iter) : outcome (list Z) :=
  match n with
  | O => Ok []
  | S n =>
      do value <- array_get it;
      do body <- (if is_ptr then Ok [] else save value);
      do r <- vb_save_elements n save size is_ptr (array_next it);
      Ok ((if size =? 0 then sized body else body) ++ r)
  end.
(* a loop whose steps append bytes *)
Fixpoint append_all {A} (f : A -> outcome (list Z)) (l : list A) : outcome (list Z) :=
  match l with [] => Ok [] | a :: r => do x <- f a; do y <- append_all f r; Ok (x ++ y) end.

Section Save.
Variable E : list rtype.
Variable mem : list Z.
Variable custom : custom_save.
(* 188-238 SaveContainer, SaveFieldArray *)
Definition vb_SaveFieldArray (save : Z -> outcome (list Z)) (object : Z) (f : rfield) (count : Z) : outcome (list Z) :=
  do t <- get_type E (rf_type f);
  do af <- array_of E f count;
  do it <- array_init af object;
  do r <- vb_save_elements (Z.to_nat (u32 count)) save (value_size t (rf_ptr f)) (rf_ptr f) it;
  Ok (container_header (u32 count) t (rf_ptr f) ++ r).
(* 240-272 SaveClassField; save is SaveObject on the field's type. Whether the field is a pointer makes no difference
   when it is not an array *)
Definition vb_SaveClassField (save : Z -> outcome (list Z)) (object : Z) (e : entry rfield) : outcome (list Z) :=
  let f := snd e in
  if skipped (rf_flags f) then Ok [] else
  do t <- get_type E (rf_type f);
  do body <- match custom f with
             | Some run => run object (object + rf_offset f)
             | None => match rf_count f with
                       | Some count => vb_SaveFieldArray save (object + rf_offset f) f count
                       | None => save (object + rf_offset f)
                       end
             end;
  Ok (chunk (rt_hash t) (fst e) body).
(* SaveObject 306-336, SaveClass 274-297. AsClass asserts. n bounds the depth of the calls *)
Fixpoint vb_SaveObject (n : nat) (object : Z) (ty : nat) : outcome (list Z) :=
  match n with
  | O => Fuel
  | S n =>
      do t <- get_type E ty;
      match rt_kind t with
      | K_type => vb_SaveType mem object t
      | K_enum _ constants => vb_SaveEnum mem object constants
      | K_class _ _ => vb_SaveClass n object ty
      end
  end
with vb_SaveClass (n : nat) (object : Z) (ty : nat) : outcome (list Z) :=
  match n with
  | O => Fuel
  | S n =>
      do t <- get_type E ty;
      match rt_kind t with
      | K_class flag_attributes fields =>
          if skipped flag_attributes then Ok []
          else
            do own <- append_all (fun e => vb_SaveClassField (fun o => vb_SaveObject n o (rf_type (snd e))) object e) fields;
            do base <- append_all (fun b => vb_SaveClass n object b) (rt_bases t);
            Ok (own ++ base)
      | _ => Trap
      end
  end.
End Save.
(* 616-620 SaveVersionedBinary *)
Definition SaveVersionedBinary (fuel : nat) (E : list rtype) (custom : custom_save) (mem : list Z) (object : Z) (ty : nat) : outcome (list Z) :=
  do t <- get_type E ty;
  do body <- vb_SaveObject E mem custom fuel object ty;
  Ok (chunk (rt_hash t) 0 body).

(* ---- loading ---- *)
(* where the ReadBuffer is, and memory *)
Record vstate := mk_vs { vs_pos : Z; vs_mem : list Z }.
(* FindFieldsRecursive 471-489; depth bounds the calls *)
Fixpoint vb_find (depth : nat) (E : list rtype) (ty : nat) (hash : Z) : outcome (option rfield) :=
  match depth with
  | O => Fuel
  | S depth =>
      do t <- get_type E ty;
      match rt_kind t with
      | K_class _ fields =>
          do field <- FindPrimitive fields hash;
          match field with
          | Some e => Ok (Some (snd e))
          | None => (fix bases (l : list nat) : outcome (option rfield) :=
                       match l with
                       | [] => Ok None
                       | b :: r => do field <- vb_find depth E b hash;
                                   match field with Some f => Ok (Some f) | None => bases r end
                       end) (rt_bases t)
          end
      | _ => Trap
      end
  end.

Section Load.
Variable E : list rtype.
Variable data : list Z.
Variable custom : custom_load.

(* Serialise.cpp:123-129 ReadBuffer::Read: the bytes and the position afterwards. A position before the data comes from a
   negative seek *)
Definition vb_read (pos length : Z) : outcome (list Z * Z) :=
  do _ <- assert (pos + length <=? zlen data);
  if pos <? 0 then UB else Ok (slice data pos length, pos + length).
(* reading an unsigned int *)
Definition vb_u32 (pos : Z) : outcome (Z * Z) := do x <- vb_read pos 4; Ok (le_val (fst x), snd x).
(* Serialise.cpp:137-141 SeekRel of an unsigned int, which is converted to int *)
Definition vb_seek (pos offset : Z) : outcome Z :=
  do _ <- assert (pos + s32 offset <=? zlen data); Ok (pos + s32 offset).

(* 338-348 *)
Definition vb_LoadType (s : vstate) (object : Z) (t : rtype) (data_size : Z) : outcome vstate :=
  if negb (rt_size t =? data_size) then do p <- vb_seek (vs_pos s) data_size; Ok (mk_vs p (vs_mem s))
  else
    do x <- vb_read (vs_pos s) (u32 (rt_size t));
    do m <- wr_bytes (vs_mem s) object (fst x);
    Ok (mk_vs (snd x) m).
(* 350-370 *)
Definition vb_LoadEnum (s : vstate) (object : Z) (t : rtype) (constants : list (entry (list Z * Z))) (data_size : Z) : outcome vstate :=
  if negb (rt_size t =? data_size) then do p <- vb_seek (vs_pos s) data_size; Ok (mk_vs p (vs_mem s))
  else
    do x <- vb_u32 (vs_pos s);
    do constant <- FindPrimitive constants (fst x);
    match constant with
    | Some (_, (_, value)) => do m <- wr_bytes (vs_mem s) object (le_bytes 4 value); Ok (mk_vs (snd x) m)
    | None => Ok (mk_vs (snd x) (vs_mem s))
    end.
(* 400-438 the loop of LoadContainer with n rounds left; size is header.valueTypeSize, load is LoadObject *)
Fixpoint vb_load_elements (n : nat) (load : vstate -> Z -> Z -> outcome vstate) (size : Z) (is_ptr : bool) (s : vstate) (it : array_iter) : outcome vstate :=
  match n with
  | O => Ok s
  | S n =>
      do e <- array_add_empty it;
      do x <- (if size =? 0 then vb_u32 (vs_pos s) else Ok (size, vs_pos s));
      let s := mk_vs (snd x) (vs_mem s) in
      do s <- (if is_ptr then Ok s else load s (fst e) (fst x));
      vb_load_elements n load size is_ptr s (snd e)
  end.
(* 372-461 LoadContainer for a C array of expected_count elements of type t *)
Definition vb_LoadContainer (load : vstate -> Z -> Z -> outcome vstate) (s : vstate) (it : array_iter) (t : rtype) (is_ptr : bool) (data_size expected_count : Z) : outcome vstate :=
  let end_pos := u32 (u32 (vs_pos s) + data_size) in
  do hcount <- vb_u32 (vs_pos s);
  do key_hash <- vb_u32 (snd hcount);
  do key_size <- vb_u32 (snd key_hash);
  do value_hash <- vb_u32 (snd key_size);
  do vsize <- vb_u32 (snd value_hash);
  let s := mk_vs (snd vsize) (vs_mem s) in
  let count := if expected_count <? fst hcount then expected_count else fst hcount in
  if negb (fst value_hash =? 0) && negb (fst value_hash =? rt_hash t) then
    do p <- vb_seek (vs_pos s) data_size; Ok (mk_vs p (vs_mem s))
  else
    do s <- vb_load_elements (Z.to_nat count) load (fst vsize) is_ptr s it;
    let bytes_left := s32 (u32 (end_pos - u32 (vs_pos s))) in
    if (bytes_left >? 0) && negb (fst hcount =? count) then
      do p <- vb_seek (vs_pos s) bytes_left; Ok (mk_vs p (vs_mem s))
    else Ok s.
(* 463-469 LoadFieldArray *)
Definition vb_LoadFieldArray (load : vstate -> Z -> Z -> outcome vstate) (s : vstate) (object : Z) (f : rfield) (count data_size : Z) : outcome vstate :=
  do t <- get_type E (rf_type f);
  do af <- array_of E f count;
  do it <- array_init af object;
  vb_LoadContainer load s it t (rf_ptr f) data_size (u32 count).

(* LoadObject 581-613, the loop of LoadClass 546-568, LoadClassField 491-542. n bounds the calls and rounds. Where a class
   ends up is not checked. end_pos - position of 525 and 530 is taken not to overflow *)
Fixpoint vb_LoadObject (n : nat) (s : vstate) (object : Z) (ty : nat) (data_size type_hash : Z) : outcome vstate :=
  match n with
  | O => Fuel
  | S n =>
      do t <- get_type E ty;
      if negb (type_hash =? rt_hash t) then do p <- vb_seek (vs_pos s) data_size; Ok (mk_vs p (vs_mem s))
      else
      match rt_kind t with
      | K_type => vb_LoadType s object t data_size
      | K_enum _ constants => vb_LoadEnum s object t constants data_size
      | K_class _ _ => vb_class_loop n s object ty (u32 (u32 (vs_pos s) + data_size))
      end
  end
with vb_class_loop (n : nat) (s : vstate) (object : Z) (ty : nat) (end_pos : Z) : outcome vstate :=
  match n with
  | O => Fuel
  | S n =>
      if u32 (vs_pos s) <? end_pos then
        do s <- vb_LoadClassField n s object ty;
        vb_class_loop n s object ty end_pos
      else Ok s
  end
with vb_LoadClassField (n : nat) (s : vstate) (object : Z) (ty : nat) : outcome vstate :=
  match n with
  | O => Fuel
  | S n =>
      do type_hash <- vb_u32 (vs_pos s);
      do name_hash <- vb_u32 (snd type_hash);
      do data_size <- vb_u32 (snd name_hash);
      let s := mk_vs (snd data_size) (vs_mem s) in
      do field <- vb_find (S (length E)) E ty (fst name_hash);
      match field with
      | None => do p <- vb_seek (vs_pos s) (fst data_size); Ok (mk_vs p (vs_mem s))
      | Some f =>
          if skipped (rf_flags f) then do p <- vb_seek (vs_pos s) (fst data_size); Ok (mk_vs p (vs_mem s))
          else
          let field_object := object + rf_offset f in
          match custom f with
          | Some run =>
              let end_pos := s32 (u32 (u32 (vs_pos s) + fst data_size)) in
              do x <- run object field_object (vs_pos s) (vs_mem s);
              let position := s32 (u32 (fst x)) in
              if position =? end_pos then Ok (mk_vs (fst x) (snd x))
              else do p <- vb_seek (fst x) (end_pos - position); Ok (mk_vs p (snd x))
          | None =>
              match rf_count f with
              | Some count =>
                  do t <- get_type E (rf_type f);
                  vb_LoadFieldArray (fun s o size => vb_LoadObject n s o (rf_type f) size (rt_hash t)) s field_object f count (fst data_size)
              | None => vb_LoadObject n s field_object (rf_type f) (fst data_size) (fst type_hash)
              end
          end
      end
  end.
End Load.
(* 622-628 LoadVersionedBinary on the bytes of a ReadBuffer at a position *)
Definition LoadVersionedBinary (fuel : nat) (E : list rtype) (custom : custom_load) (data : list Z) (s : vstate) (object : Z) (ty : nat) : outcome vstate :=
  do type_hash <- vb_u32 data (vs_pos s);
  do name_hash <- vb_u32 data (snd type_hash);
  do data_size <- vb_u32 data (snd name_hash);
  vb_LoadObject E data custom fuel (mk_vs (snd data_size) (vs_mem s)) object ty (fst data_size) (fst type_hash).
