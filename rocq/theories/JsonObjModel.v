(* Objects in JSON: src/clReflectUtil/SerialiseJSON.cpp:87-160, 239-570, 572-592, 727-1180. Numbers are in JsonNumModel.v,
   the lexer in JsonLexModel.v, C-array iterators in RuntimeModel.v.
   Memory is a list of bytes; an address is an index in it and 0 the null pointer. Types are numbered; a Type* is the
   number of a type in a table. Not modelled: types with a container info (dynamic containers and dictionaries), classes with
   custom load and save, pre-save and post-load functions. *)
From Verif Require Import Base Text HashModel SearchModel RuntimeModel JsonLexModel JsonNumModel.

(* Field: its name's text, offset, flag_attributes, type, whether qualifier.op is POINTER (nothing distinguishes VALUE from
   REFERENCE), and the count of its container info when it is a C array. The hash of its name is the key of the entry
   it has in its class *)
Record rfield := mk_rfield { rf_name : list Z; rf_offset : Z; rf_flags : Z; rf_type : nat; rf_ptr : bool; rf_count : option Z }.
(* an enum constant is its name's text and its value. For an enum: whether its attributes have one called flags
   (113-114, 733-734), and its constants; for a class flag_attributes and fields *)
Inductive rkind :=
| K_type
| K_enum (are_flags : bool) (constants : list (entry (list Z * Z)))
| K_class (flag_attributes : Z) (fields : list (entry rfield)).
Record rtype := mk_rtype { rt_hash : Z; rt_size : Z; rt_kind : rkind; rt_bases : list nat }.
(* dereferencing a Type* *)
Definition get_type (E : list rtype) (ty : nat) : outcome rtype := match nth_error E ty with Some t => Ok t | None => UB end.

(* inc/clutl/Serialise.h:166-185 IPtrMap: CanMapPtr on a pointer and the number of its type, MapPtr *)
Record ptr_map := mk_ptr_map { CanMapPtr : Z -> nat -> bool; MapPtr : Z -> Z }.
(* Serialise.h:141-160 JSONFlags *)
Definition INDENT_MASK := 15.
Definition FORMAT_OUTPUT := 16.
Definition SORT_CLASS_FIELDS_BY_OFFSET := 128.
(* class_type->flag_attributes & transient_flags *)
Definition is_transient (flag_attributes transient_flags : Z) : bool := has_flag flag_attributes transient_flags.

(* ---- saving; every function gives the bytes it appends to the WriteBuffer ---- *)
(* 579-592; text is the characters before the terminator *)
Definition SaveString (text : list Z) : list Z := 34 :: text ++ [34].

(* 737-775 the loop over the constants of an enum with flags; value is not 0. enum_written is whether something has been
   written *)
Fixpoint save_flags (constants : list (entry (list Z * Z))) (value : Z) (enum_written : bool) : list Z :=
  match constants with
  | [] => if enum_written then [34] else SaveString (str "clReflect_JSON_EnumFlagNotFound")
  | (_, (name, enum_value)) :: r =>
      if negb (Z.land value enum_value =? 0) then
        let value := Z.ldiff value enum_value in
        (if enum_written then 124 else 34) :: name ++ (if value =? 0 then [34] else save_flags r value true)
      else save_flags r value enum_written
  end.
(* 779-786 the linear search *)
Fixpoint enum_name (constants : list (entry (list Z * Z))) (value : Z) : list Z :=
  match constants with
  | [] => str "clReflect_JSON_EnumValueNotFound"
  | (_, (name, enum_value)) :: r => if enum_value =? value then name else enum_name r value
  end.
(* 727-791 *)
Definition SaveEnum (mem : list Z) (object : Z) (are_flags : bool) (constants : list (entry (list Z * Z))) : outcome (list Z) :=
  do bytes <- rd_bytes mem object 4;
  let value := s32 (le_val bytes) in
  if are_flags && negb (value =? 0) then Ok (save_flags constants value false)
  else Ok (SaveString (enum_name constants value)).

(* reading a pointer *)
Definition rd_ptr (mem : list Z) (address : Z) : outcome Z := do b <- rd_bytes mem address 8; Ok (le_val b).
(* 793-808; the null pointer map is dereferenced *)
Definition SavePtr (mem : list Z) (object : Z) (pm : option ptr_map) (flags : Z) : outcome (list Z) :=
  do ptr <- rd_ptr mem object;
  match pm with
  | None => UB
  | Some pm =>
      let hash := u32 (MapPtr pm ptr) in
      if has_flag flags EMIT_HEX_POINTERS then do h <- SaveHexInteger hash; Ok (str "0x" ++ h)
      else SaveUnsignedInteger hash
  end.

(* 874-886 *)
Definition NewLine (flags : Z) : list Z :=
  if has_flag flags FORMAT_OUTPUT then 10 :: repeat 9 (Z.to_nat (Z.land flags INDENT_MASK)) else [].
(* 895-898, 913-916 the flags with another indent level *)
Definition indented (flags by_ : Z) : Z := Z.lor (Z.ldiff flags INDENT_MASK) (Z.land (Z.land flags INDENT_MASK + by_) INDENT_MASK).
(* 888-907: the flags afterwards and the text *)
Definition OpenScope (flags : Z) : Z * list Z :=
  if has_flag flags FORMAT_OUTPUT then (indented flags 1, NewLine flags ++ 123 :: NewLine (indented flags 1)) else (flags, [123]).
(* 909-927 *)
Definition CloseScope (flags : Z) : list Z :=
  if has_flag flags FORMAT_OUTPUT then NewLine (indented flags (-1)) ++ 125 :: NewLine (indented flags (-1)) else [125].

(* a loop whose steps append text and update a flag *)
Fixpoint save_seq {A} (f : A -> bool -> outcome (list Z * bool)) (l : list A) (written : bool) : outcome (list Z * bool) :=
  match l with
  | [] => Ok ([], written)
  | a :: r => do x <- f a written; do y <- save_seq f r (snd x); Ok (fst x ++ fst y, snd y)
  end.

(* 987-1004 the inner loop: the field with the lowest offset above last_offset; lowest is the best so far *)
Fixpoint lowest_field (fields : list (entry rfield)) (transient_flags last_offset lowest_offset : Z) (lowest : option rfield) : Z * option rfield :=
  match fields with
  | [] => (lowest_offset, lowest)
  | (_, f) :: r =>
      if is_transient (rf_flags f) transient_flags then lowest_field r transient_flags last_offset lowest_offset lowest
      else if (rf_offset f >? last_offset) && (rf_offset f <? lowest_offset) then lowest_field r transient_flags last_offset (rf_offset f) (Some f)
      else lowest_field r transient_flags last_offset lowest_offset lowest
  end.
(* 981-1013 the outer loop with n rounds left: the fields in the order they are saved *)
Fixpoint by_offset (n : nat) (fields : list (entry rfield)) (transient_flags last_offset : Z) : list rfield :=
  match n with
  | O => []
  | S n =>
      match lowest_field fields transient_flags last_offset 2147483647 None with
      | (o, Some f) => f :: by_offset n fields transient_flags o
      | (_, None) => by_offset n fields transient_flags last_offset
      end
  end.
(* 971-1032: the fields SaveClassFields saves, in its order *)
Definition fields_to_save (fields : list (entry rfield)) (flags transient_flags : Z) : list rfield :=
  if has_flag flags SORT_CLASS_FIELDS_BY_OFFSET then by_offset (length fields) fields transient_flags (-1)
  else filter (fun f => negb (is_transient (rf_flags f) transient_flags)) (map snd fields).

Section Save.
Variable E : list rtype.
Variable F : floats.
Variable lut : list (option basic).
Variable mem : list Z.
Variable pm : option ptr_map.
Variable transient_flags : Z.

(* the answer of a pointer map that may be null, 841-842, 955-956 *)
Definition can_map (ptr : Z) (ty : nat) : bool := match pm with None => false | Some pm => CanMapPtr pm ptr ty end.

(* 818-854 the loop of SaveContainer with n rounds left on the elements of a C array: type, is_ptr, iterator. save is
   SaveObject. A pointer the caller does not want moves nothing on *)
Fixpoint save_elements (n : nat) (save : Z -> outcome (list Z)) (ty : nat) (is_ptr : bool) (flags : Z) (it : array_iter) (written : bool) : outcome (list Z) :=
  match n with
  | O => Ok []
  | S n =>
      do value <- array_get it;
      let comma := if written then [44] else [] in
      if is_ptr then
        do ptr <- rd_ptr mem value;
        if can_map ptr ty then
          do text <- SavePtr mem value pm flags;
          do r <- save_elements n save ty is_ptr flags (array_next it) true;
          Ok (comma ++ text ++ r)
        else do r <- save_elements n save ty is_ptr flags it written; Ok (comma ++ r)
      else
        do text <- save value;
        do r <- save_elements n save ty is_ptr flags (array_next it) true;
        Ok (comma ++ text ++ r)
  end.
(* Containers.cpp:26-48 for a field *)
Definition array_of (f : rfield) (count : Z) : outcome array_field :=
  do t <- get_type E (rf_type f); Ok (mk_array_field (rt_size t) (rf_ptr f) count).
(* 859-872 SaveFieldArray *)
Definition SaveFieldArray (save : Z -> outcome (list Z)) (object : Z) (f : rfield) (count flags : Z) : outcome (list Z) :=
  do af <- array_of f count;
  do it <- array_init af object;
  if u32 count =? 0 then Ok (str "[]")
  else do r <- save_elements (Z.to_nat (u32 count)) save (rf_type f) (rf_ptr f) flags it false; Ok (91 :: r ++ [93]).
(* 929-944 SaveFieldObject; save is SaveObject on the field's type *)
Definition SaveFieldObject (save : Z -> outcome (list Z)) (object : Z) (f : rfield) (flags : Z) : outcome (list Z) :=
  match rf_count f with
  | Some count => SaveFieldArray save object f count flags
  | None => if rf_ptr f then SavePtr mem object pm flags else save object
  end.
(* 946-969 SaveClassField *)
Definition SaveClassField (save : Z -> outcome (list Z)) (object : Z) (f : rfield) (flags : Z) (written : bool) : outcome (list Z * bool) :=
  do wanted <- (if rf_ptr f then do ptr <- rd_ptr mem (object + rf_offset f); Ok (can_map ptr (rf_type f)) else Ok true);
  if wanted : bool then
    do text <- SaveFieldObject save (object + rf_offset f) f flags;
    Ok ((if written then 44 :: NewLine flags else []) ++ SaveString (rf_name f) ++ 58 :: text, true)
  else Ok ([], written).

(* SaveObject 1135-1165 with SaveClass 1058-1115; SaveClass 1034-1056. n bounds the depth of the calls *)
Fixpoint SaveObject (n : nat) (object : Z) (ty : nat) (flags : Z) : outcome (list Z) :=
  match n with
  | O => Fuel
  | S n =>
      do t <- get_type E ty;
      match rt_kind t with
      | K_type => SaveType F lut mem object (rt_hash t) flags
      | K_enum are_flags constants => SaveEnum mem object are_flags constants
      | K_class flag_attributes _ =>
          if is_transient flag_attributes transient_flags then Ok []
          else
            let (flags', opening) := OpenScope flags in
            do body <- SaveClass n object ty flags' false;
            Ok (opening ++ fst body ++ CloseScope flags')
      end
  end
with SaveClass (n : nat) (object : Z) (ty : nat) (flags : Z) (written : bool) : outcome (list Z * bool) :=
  match n with
  | O => Fuel
  | S n =>
      do t <- get_type E ty;
      do own <- match rt_kind t with
                | K_class flag_attributes fields =>
                    if is_transient flag_attributes transient_flags then Ok None
                    else do x <- save_seq (fun f w => SaveClassField (fun o => SaveObject n o (rf_type f) flags) object f flags w)
                                          (fields_to_save fields flags transient_flags) written;
                         Ok (Some x)
                | _ => Ok (Some ([], written))
                end;
      match own with
      | None => Ok ([], written)
      | Some x => do y <- save_seq (fun b w => SaveClass n object b flags w) (rt_bases t) (snd x); Ok (fst x ++ fst y, snd y)
      end
  end.
End Save.
(* 1167-1173 SaveJSON *)
Definition SaveJSON (fuel : nat) (E : list rtype) (F : floats) (mem : list Z) (object : Z) (ty : nat) (pm : option ptr_map) (flags transient_flags : Z) : outcome (list Z) :=
  do lut <- SetupTypeDispatchLUT;
  SaveObject E F lut mem pm transient_flags fuel object ty flags.

(* ---- loading ---- *)
(* what the parser functions change: the token looked ahead, the context, memory *)
Record pstate := mk_ps { ps_t : jtok; ps_c : jctx; ps_m : list Z }.

(* 393-416 FindFieldsRecursive; depth bounds the calls. hash is of a name; the result is the field *)
Fixpoint FindFieldsRecursive (depth : nat) (E : list rtype) (ty : nat) (hash : Z) : outcome (option rfield) :=
  match depth with
  | O => Fuel
  | S depth =>
      do t <- get_type E ty;
      do field <- match rt_kind t with K_class _ fields => FindPrimitive fields hash | _ => Ok None end;
      match field with
      | Some e => Ok (Some (snd e))
      | None => (fix bases (l : list nat) : outcome (option rfield) :=
                   match l with
                   | [] => Ok None
                   | b :: r => do field <- FindFieldsRecursive depth E b hash;
                               match field with Some f => Ok (Some f) | None => bases r end
                   end) (rt_bases t)
      end
  end.

Section Load.
Variable E : list rtype.
Variable F : floats.
Variable lut : list (option basic).
Variable data : list Z.
Variable transient_flags : Z.
Notation sd := (str2d F).

(* t = LexerNextToken(ctx) *)
Definition next (s : pstate) : outcome pstate :=
  do x <- LexerNextToken sd data (ps_c s); Ok (mk_ps (fst x) (snd x) (ps_m s)).
(* ctx.SetError *)
Definition fail (s : pstate) : pstate := mk_ps (ps_t s) (SetError (ps_c s) E_TOKEN) (ps_m s).
(* 87-100: the token that was expected and the state *)
Definition Expect (s : pstate) (type : jtype) : outcome (jtok * pstate) :=
  if jtype_eqb (jt_type (ps_t s)) type then do s' <- next s; Ok (ps_t s, s') else Ok (no_token, fail s).

(* 117-149: the characters of the token's string from pos on; the loop of 121-126 then the lookup. found is
   found_flags *)
Fixpoint symbol (text : list Z) : list Z := match text with [] => [] | c :: r => if c =? 124 then [] else c :: symbol r end.
Fixpoint load_flags (fuel : nat) (mem : list Z) (constants : list (entry (list Z * Z))) (text : list Z) (object : Z) (found : bool) : outcome (list Z) :=
  match fuel with
  | O => Fuel
  | S n =>
      match text with
      | [] => Ok mem
      | _ =>
          let s := symbol text in
          do hash <- HashData s (zlen s) 0;
          do constant <- FindPrimitive constants hash;
          let rest := skipn (S (length s)) text in
          match constant with
          | Some (_, (_, value)) =>
              do mem <- (if found then do old <- rd_bytes mem object 4; wr_bytes mem object (le_bytes 4 (Z.lor (s32 (le_val old)) value))
                         else wr_bytes mem object (le_bytes 4 value));
              load_flags n mem constants rest object true
          | None => load_flags n mem constants rest object found
          end
      end
  end.
(* 102-160 *)
Definition ParserString (t : jtok) (mem : list Z) (object : Z) (type : option nat) : outcome (list Z) :=
  if IsValid t then
    match type with
    | None => Ok mem
    | Some ty =>
        do ty <- get_type E ty;
        match rt_kind ty with
        | K_enum are_flags constants =>
            do text <- rd_bytes data (jt_val t) (jt_length t);
            if are_flags then load_flags (S (length text)) mem constants text object false
            else
              do hash <- HashData text (zlen text) 0;
              do constant <- FindPrimitive constants hash;
              match constant with Some (_, (_, value)) => wr_bytes mem object (le_bytes 4 value) | None => Ok mem end
        | _ => Ok mem
        end
    end
  else Ok mem.
(* the hash of a type's name *)
Definition hash_of (type : option nat) : outcome (option Z) :=
  match type with None => Ok None | Some ty => do t <- get_type E ty; Ok (Some (rt_hash t)) end.
(* 320-327, with the integer 1 or 0 *)
Definition ParserLiteralValue (t : jtok) (integer : Z) (mem : list Z) (object : Z) (hash : option Z) (pointer : bool) : outcome (list Z) :=
  if IsValid t then LoadInteger F lut integer mem object hash pointer else Ok mem.
(* is type a class, and is it transient, 329-357 *)
Definition transient_class (type : option nat) : outcome bool :=
  match type with
  | None => Ok false
  | Some ty => do t <- get_type E ty; Ok (match rt_kind t with K_class fa _ => is_transient fa transient_flags | _ => false end)
  end.
(* 427-441 the field a name stands for *)
Definition pair_field (name : jtok) (type : option nat) : outcome (option rfield) :=
  match type with
  | None => Ok None
  | Some ty =>
      do t <- get_type E ty;
      match rt_kind t with
      | K_class _ _ =>
          do text <- rd_bytes data (jt_val name) (jt_length name);
          do hash <- HashData text (zlen text) 0;
          do field <- FindFieldsRecursive (S (length E)) E ty hash;
          match field with
          | Some f => if is_transient (rf_flags f) transient_flags then Ok None else Ok (Some f)
          | None => Ok None
          end
      | _ => Ok None
      end
  end.

(* ParserValue 329-391, ParserElements 239-267 (it is None for the null writer), ParserArray 269-318, ParserPair 418-459,
   ParserMembers 461-472, ParserObject 507-549. n bounds the calls and rounds *)
Fixpoint ParserValue (n : nat) (s : pstate) (object : Z) (type : option nat) (pointer : bool) (field : option rfield) : outcome pstate :=
  match n with
  | O => Fuel
  | S n =>
      do transient <- transient_class type;
      let scalar tok (use : jtok -> outcome (list Z)) :=
        do x <- Expect s tok;
        do m <- use (fst x);
        Ok (mk_ps (ps_t (snd x)) (ps_c (snd x)) m) in
      match jt_type (ps_t s) with
      | T_STRING => scalar T_STRING (fun t => ParserString t (ps_m s) object type)
      | T_INTEGER => scalar T_INTEGER (fun t => do h <- hash_of type; ParserInteger F lut t (ps_m s) object h pointer)
      | T_DECIMAL => scalar T_DECIMAL (fun t => do h <- hash_of type; ParserDecimal F lut t (ps_m s) object h)
      | T_LBRACE =>
          do s <- (match type with
                   | Some ty => if transient : bool then ParserObject n s 0 None else ParserObject n s object (Some ty)
                   | None => ParserObject n s 0 None
                   end);
          do x <- Expect s T_RBRACE; Ok (snd x)
      | T_LBRACKET => ParserArray n s object type field
      | T_TRUE => scalar T_TRUE (fun t => do h <- hash_of type; ParserLiteralValue t 1 (ps_m s) object h pointer)
      | T_FALSE => scalar T_FALSE (fun t => do h <- hash_of type; ParserLiteralValue t 0 (ps_m s) object h pointer)
      | T_NULL => scalar T_NULL (fun t => do h <- hash_of type; ParserLiteralValue t 0 (ps_m s) object h pointer)
      | _ => Ok (fail s)
      end
  end
with ParserElements (n : nat) (s : pstate) (it : option array_iter) (type : option nat) (pointer : bool) : outcome pstate :=
  match n with
  | O => Fuel
  | S n =>
      do x <- match it with
              | Some it => do e <- array_add_empty it;
                           do s <- ParserValue n s (fst e) type pointer None; Ok (s, Some (snd e))
              | None => do s <- ParserValue n s 0 None pointer None; Ok (s, None)
              end;
      if jtype_eqb (jt_type (ps_t (fst x))) T_COMMA then
        do s <- next (fst x); ParserElements n s (snd x) type pointer
      else Ok (fst x)
  end
with ParserArray (n : nat) (s : pstate) (object : Z) (type : option nat) (field : option rfield) : outcome pstate :=
  match n with
  | O => Fuel
  | S n =>
      do x <- Expect s T_LBRACKET;
      if negb (IsValid (fst x)) then Ok (snd x) else
      let s := snd x in
      if jtype_eqb (jt_type (ps_t s)) T_RBRACKET then next s else
      do s <- match field with
              | Some (mk_rfield _ _ _ ty is_ptr (Some count) as f) =>
                  do af <- array_of E f count;
                  do it <- array_init af object;
                  ParserElements n s (Some it) (Some ty) is_ptr
              | _ => ParserElements n s None None false
              end;
      do x <- Expect s T_RBRACKET; Ok (snd x)
  end
with ParserPair (n : nat) (s : pstate) (object : Z) (type : option nat) : outcome pstate :=
  match n with
  | O => Fuel
  | S n =>
      do x <- Expect s T_STRING;
      if negb (IsValid (fst x)) then Ok (snd x) else
      do field <- pair_field (fst x) type;
      do y <- Expect (snd x) T_COLON;
      if negb (IsValid (fst y)) then Ok (snd y) else
      match field with
      | Some f => ParserValue n (snd y) (object + rf_offset f) (Some (rf_type f)) (rf_ptr f) (Some f)
      | None => ParserValue n (snd y) 0 None false None
      end
  end
with ParserMembers (n : nat) (s : pstate) (object : Z) (type : option nat) : outcome pstate :=
  match n with
  | O => Fuel
  | S n =>
      do s <- ParserPair n s object type;
      if jtype_eqb (jt_type (ps_t s)) T_COMMA then do s <- next s; ParserMembers n s object type else Ok s
  end
with ParserObject (n : nat) (s : pstate) (object : Z) (type : option nat) : outcome pstate :=
  match n with
  | O => Fuel
  | S n =>
      do x <- Expect s T_LBRACE;
      if negb (IsValid (fst x)) then Ok (snd x) else
      if jtype_eqb (jt_type (ps_t (snd x))) T_RBRACE then Ok (snd x) else ParserMembers n (snd x) object type
  end.
End Load.
(* 553-560 LoadJSON on the bytes of a ReadBuffer: the error and the memory afterwards *)
Definition LoadJSON (fuel : nat) (E : list rtype) (F : floats) (data mem : list Z) (object : Z) (ty : nat) (transient_flags : Z) : outcome (jerr * list Z) :=
  do lut <- SetupTypeDispatchLUT;
  do s <- next F data (mk_ps no_token (JSONContext 0) mem);
  do s <- ParserObject E F lut data transient_flags fuel s object (Some ty);
  Ok (jc_err (ps_c s), ps_m s).
