(* JSON documents, what loading one does to an object and which parts of an object saving one carries. *)
From Coq Require Import Sorted.
From Verif Require Import Base Text HashSpec SearchModel RuntimeModel JsonLexModel JsonLexSpec JsonNumModel JsonNumSpec JsonObjModel.

(* ---- documents ---- *)
(* a JSON value; integers and decimals carry 64 bits, strings what stands between the quotes *)
Inductive json :=
| J_string (s : list Z)
| J_int (v : Z)
| J_dec (bits : Z)
| J_true | J_false | J_null
| J_array (l : list json)
| J_object (l : list (list Z * json)).
(* the lists with a comma between each and the next *)
Fixpoint commas (l : list (list stoken)) : list stoken :=
  match l with
  | [] => []
  | x :: [] => x
  | x :: r => x ++ SChar T_COMMA :: commas r
  end.
Fixpoint tokens (j : json) : list stoken :=
  match j with
  | J_string s => [SString s]
  | J_int v => [SInteger v]
  | J_dec b => [SDecimal b]
  | J_true => [SWord T_TRUE] | J_false => [SWord T_FALSE] | J_null => [SWord T_NULL]
  | J_array l => SChar T_LBRACKET :: commas (map tokens l) ++ [SChar T_RBRACKET]
  | J_object l => SChar T_LBRACE :: commas (map (fun m => SString (fst m) :: SChar T_COLON :: tokens (snd m)) l) ++ [SChar T_RBRACE]
  end.
(* text is a document: the tokens of a value, with white space anywhere between them *)
Definition document (sd : list Z -> Z) (text : list Z) (j : json) : Prop := exists l, layout sd 0 text l /\ map snd l = tokens j.

(* a text that is just these tokens, each with white space before it *)
Inductive begins (sd : list Z -> Z) : list Z -> list stoken -> Prop :=
| bg_nil : begins sd [] []
| bg_cons : forall w k s r ks, Forall white w -> spelled sd k s -> begins sd r ks -> begins sd (w ++ s ++ r) (k :: ks).
(* the members of an object without its braces *)
Definition member_tokens (l : list (list Z * json)) : list stoken := commas (map (fun m => SString (fst m) :: SChar T_COLON :: tokens (snd m)) l).

(* ---- what types must be like ---- *)
(* sorted by hash without repetition *)
Definition strict {A} (l : list (entry A)) : Prop := StronglySorted (fun a b => fst a < fst b) l /\ zlen l <= 2 ^ 30.
(* bases come before their classes, arrays are sorted, type numbers are in the table *)
Definition wf_type (E : list rtype) (i : nat) (t : rtype) : Prop :=
  (forall b, In b (rt_bases t) -> (b < i)%nat) /\
  match rt_kind t with
  | K_type => True
  | K_enum _ cs => strict cs /\ (forall e, In e cs -> is_s32 (snd (snd e)))
  | K_class _ fs => strict fs /\ (forall e, In e fs -> (rf_type (snd e) < length E)%nat)
  end.
Definition wf_types (E : list rtype) : Prop := forall i t, nth_error E i = Some t -> wf_type E i t.

(* ---- what a value does ---- *)
Definition lookup {A} (l : list (entry A)) (h : Z) : option A := option_map snd (find (fun e => fst e =? h) l).
(* the field a name stands for in a type: its own, or else that of the first base type to have one; depth is the number
   of levels of bases looked at *)
Fixpoint find_field (depth : nat) (E : list rtype) (ty : nat) (h : Z) : option rfield :=
  match depth with
  | O => None
  | S depth =>
      match nth_error E ty with
      | None => None
      | Some t =>
          match (match rt_kind t with K_class _ fs => lookup fs h | _ => None end) with
          | Some f => Some f
          | None => fold_left (fun r b => match r with Some f => Some f | None => find_field depth E b h end) (rt_bases t) None
          end
      end
  end.
(* the field a member of that name is loaded to, if any: a class has it and it is not transient *)
Definition member_field (E : list rtype) (transient_flags : Z) (ty : nat) (name : list Z) : option rfield :=
  match nth_error E ty with
  | Some (mk_rtype _ _ (K_class _ _) _) =>
      match find_field (S ty) E ty (hash32 name 0) with
      | Some f => if has_flag (rf_flags f) transient_flags then None else Some f
      | None => None
      end
  | _ => None
  end.
(* the texts between the bars; nothing after a last bar *)
Fixpoint symbols (text cur : list Z) : list (list Z) :=
  match text with
  | [] => match cur with [] => [] | _ => [rev cur] end
  | c :: r => if c =? 124 then rev cur :: symbols r [] else symbols r (c :: cur)
  end.
(* the values a string names for an enum: those of the constants among its symbols *)
Definition enum_values (are_flags : bool) (cs : list (entry (list Z * Z))) (text : list Z) : list Z :=
  flat_map (fun s => match lookup cs (hash32 s 0) with Some (_, v) => [v] | None => [] end) (if are_flags then symbols text [] else [text]).
(* they are or-ed together, nothing is stored when there is none *)
Definition store_enum (vs : list Z) (mem : list Z) (object : Z) : outcome (list Z) :=
  match vs with [] => Ok mem | v :: r => wr_bytes mem object (le_bytes 4 (fold_left Z.lor r v)) end.

Section Store.
Variable E : list rtype.
Variable F : floats.
Variable lut : list (option basic).
Variable transient_flags : Z.

(* storing the elements of an array one after the other: each goes where the iterator says *)
Definition store_elements (put : json -> list Z -> Z -> outcome (list Z)) :=
  fix elements (l : list json) (mem : list Z) (it : array_iter) : outcome (list Z) :=
    match l with
    | [] => Ok mem
    | j :: r => do e <- array_add_empty it; do mem <- put j mem (fst e); elements r mem (snd e)
    end.
(* storing the members of an object one after the other: those that are not for a field of the type change nothing *)
Definition store_each (put : json -> list Z -> Z -> option nat -> bool -> option rfield -> outcome (list Z)) (object : Z) (ty : nat) :=
  fix members (l : list (list Z * json)) (mem : list Z) : outcome (list Z) :=
    match l with
    | [] => Ok mem
    | (name, j) :: r =>
        do mem <- match member_field E transient_flags ty name with
                  | Some f => put j mem (object + rf_offset f) (Some (rf_type f)) (rf_ptr f) (Some f)
                  | None => Ok mem
                  end;
        members r mem
    end.

(* storing a value in an object of a type: no type means that the value is skipped *)
Fixpoint store (j : json) (mem : list Z) (object : Z) (type : option nat) (pointer : bool) (field : option rfield) {struct j} : outcome (list Z) :=
  match type with
  | None => Ok mem
  | Some ty =>
      do t <- get_type E ty;
      match j with
      | J_string s => match rt_kind t with K_enum fl cs => store_enum (enum_values fl cs s) mem object | _ => Ok mem end
      | J_int v => LoadInteger F lut (s64 v) mem object (Some (rt_hash t)) pointer
      | J_dec b => ParserDecimal F lut (mk_jtok T_DECIMAL 0 b) mem object (Some (rt_hash t))
      | J_true => LoadInteger F lut 1 mem object (Some (rt_hash t)) pointer
      | J_false | J_null => LoadInteger F lut 0 mem object (Some (rt_hash t)) pointer
      | J_array l =>
          match l, field with
          | _ :: _, Some (mk_rfield _ _ _ fty is_ptr (Some count) as f) =>
              do af <- array_of E f count;
              do it <- array_init af object;
              store_elements (fun j mem at_ => store j mem at_ (Some fty) is_ptr None) l mem it
          | _, _ => Ok mem
          end
      | J_object l =>
          match rt_kind t with
          | K_class fa _ =>
              if has_flag fa transient_flags then Ok mem
              else store_each store object ty l mem
          | _ => Ok mem
          end
      end
  end.
(* the members of a whole document, whatever the attributes of its class *)
Definition store_members (l : list (list Z * json)) (mem : list Z) (object : Z) (ty : nat) : outcome (list Z) := store_each store object ty l mem.
End Store.

(* ---- what saving an object carries ---- *)
Definition transient_type (t : rtype) (transient_flags : Z) : bool := match rt_kind t with K_class fa _ => has_flag fa transient_flags | _ => false end.
(* the fields that are written for an object of a type: those of the class and of its bases that are neither pointers nor
   transient, except those of transient bases *)
Inductive saved_field (E : list rtype) (transient_flags : Z) : nat -> rfield -> Prop :=
| sv_own : forall ty t fa fs h f, nth_error E ty = Some t -> rt_kind t = K_class fa fs -> has_flag fa transient_flags = false ->
    In (h, f) fs -> has_flag (rf_flags f) transient_flags = false -> rf_ptr f = false -> saved_field E transient_flags ty f
| sv_base : forall ty t b f, nth_error E ty = Some t -> transient_type t transient_flags = false ->
    In b (rt_bases t) -> saved_field E transient_flags b f -> saved_field E transient_flags ty f.
(* the numbers of a field's elements; a field that is not an array is its own element 0 *)
Definition element (f : rfield) (i : Z) : Prop := match rf_count f with None => i = 0 | Some n => 0 <= i < n end.
(* an object of a type has a number or enum of type t at offset d *)
Inductive leaf_at (E : list rtype) (transient_flags : Z) : nat -> Z -> rtype -> Prop :=
| lf_here : forall ty t, nth_error E ty = Some t -> (match rt_kind t with K_class _ _ => False | _ => True end) -> leaf_at E transient_flags ty 0 t
| lf_member : forall ty f i et d t, saved_field E transient_flags ty f -> element f i -> nth_error E (rf_type f) = Some et ->
    leaf_at E transient_flags (rf_type f) d t -> leaf_at E transient_flags ty (rf_offset f + i * rt_size et + d) t.
(* offset x of an object is in one of these *)
Definition carried (E : list rtype) (transient_flags : Z) (ty : nat) (x : Z) : Prop :=
  exists d t, leaf_at E transient_flags ty d t /\ d <= x < d + rt_size t.

(* ---- when it can be read back ---- *)
(* a type and those of its bases and saved fields, and theirs *)
Inductive uses (E : list rtype) (transient_flags : Z) : nat -> nat -> Prop :=
| us_self : forall ty, uses E transient_flags ty ty
| us_base : forall ty t b u, nth_error E ty = Some t -> In b (rt_bases t) -> uses E transient_flags b u -> uses E transient_flags ty u
| us_field : forall ty f u, saved_field E transient_flags ty f -> uses E transient_flags (rf_type f) u -> uses E transient_flags ty u.
(* what a field or constant may be called: anything without quotes, backslashes and bars *)
Definition identifier (s : list Z) : Prop := s <> [] /\ Forall (fun c => is_byte c /\ c <> 34 /\ c <> 92 /\ c <> 124) s.
(* every field of a class and its bases, with the hash of its name *)
Inductive has_member (E : list rtype) : nat -> Z -> rfield -> Prop :=
| hm_own : forall ty t fa fs h f, nth_error E ty = Some t -> rt_kind t = K_class fa fs -> In (h, f) fs -> has_member E ty h f
| hm_base : forall ty t b h f, nth_error E ty = Some t -> In b (rt_bases t) -> has_member E b h f -> has_member E ty h f.
(* how many bytes a field that is not a pointer takes *)
Definition extent (E : list rtype) (f : rfield) : Z :=
  match nth_error E (rf_type f) with Some t => match rf_count f with None => 1 | Some n => n end * rt_size t | None => 0 end.
(* offsets tell the fields of a class apart *)
Definition distinct_offsets (fs : list (entry rfield)) : Prop :=
  (forall e e', In e fs -> In e' fs -> rf_offset (snd e) = rf_offset (snd e') -> snd e = snd e') /\
  (forall e, In e fs -> 0 <= rf_offset (snd e) < 2147483647).
Definition type_ok (E : list rtype) (transient_flags : Z) (sorted : bool) (pm : option ptr_map) (ty : nat) (t : rtype) : Prop :=
  match rt_kind t with
  | K_type => True
  | K_enum _ cs => forall e, In e cs -> identifier (fst (snd e)) /\ fst e = hash32 (fst (snd e)) 0
  | K_class fa fs =>
      (* names: hashed, told apart from those of the bases, and plain *)
      (forall h f g, has_member E ty h f -> has_member E ty h g -> f = g) /\
      (forall e, In e fs -> identifier (rf_name (snd e)) /\ fst e = hash32 (rf_name (snd e)) 0) /\
      (sorted = true -> distinct_offsets fs) /\
      (* the fields and the bases lie in the object *)
      (forall e, In e fs -> rf_ptr (snd e) = false -> 0 <= rf_offset (snd e) /\ rf_offset (snd e) + extent E (snd e) <= rt_size t) /\
      (forall e n, In e fs -> rf_count (snd e) = Some n -> is_u32 n) /\
      (* pointers are not saved; no saved field is of a transient class *)
      (forall e p, In e fs -> rf_ptr (snd e) = true -> match pm with None => True | Some pm => CanMapPtr pm p (rf_type (snd e)) = false end) /\
      (forall e u, In e fs -> has_flag (rf_flags (snd e)) transient_flags = false -> rf_ptr (snd e) = false ->
         nth_error E (rf_type (snd e)) = Some u -> transient_type u transient_flags = false)
  end /\
  0 <= rt_size t /\
  (forall b u, In b (rt_bases t) -> nth_error E b = Some u -> rt_size u <= rt_size t).

(* a value an enum has names for: a constant or, when it has flags, a union of constants none of which sticks out *)
Definition constant_values (cs : list (entry (list Z * Z))) : list Z := map (fun e => snd (snd e)) cs.
Definition union_of (l : list Z) (value : Z) : Prop := exists s, (forall v, In v s -> In v l) /\ fold_right Z.lor 0 s = value.
Definition nameable (are_flags : bool) (cs : list (entry (list Z * Z))) (value : Z) : Prop :=
  if are_flags && negb (value =? 0)
  then union_of (constant_values cs) value /\ forall v, In v (constant_values cs) -> Z.land value v = 0 \/ Z.land value v = v
  else In value (constant_values cs).
(* a number or enum with those bytes is read back as it was: all but floats and doubles, these when written with their bits *)
Definition restorable (F : floats) (hex_floats : bool) (t : rtype) (bytes : list Z) : Prop :=
  match rt_kind t with
  | K_type => rt_bases t = [] /\ exists b, type_hash b (rt_hash t) /\ rt_size t = basic_size b /\
      (b = B_double -> hex_floats = true) /\
      (b = B_float -> hex_floats = true /\ is_u64 (f2d F (le_val bytes)) /\ d2f F (f2d F (le_val bytes)) = le_val bytes)
  | K_enum fl cs => rt_bases t = [] /\ rt_size t = 4 /\ nameable fl cs (s32 (le_val bytes))
  | K_class _ _ => False
  end.

(* ---- which bytes a load may change ---- *)
(* storing a value in an object of a type at address a can change the byte at x: numbers take the bytes of the basic type
   the dispatch table has for the hash of the type's name, enums 4, pointers 4, and classes what their fields take *)
Inductive may_store (E : list rtype) (lut : list (option basic)) (transient_flags : Z) : nat -> bool -> Z -> Z -> Prop :=
| ms_pointer : forall ty a x, a <= x < a + 4 -> may_store E lut transient_flags ty true a x
| ms_number : forall ty t b p a x, nth_error E ty = Some t -> rd lut (GetTypeDispatchIndex (rt_hash t)) = Ok (Some b) -> a <= x < a + basic_size b ->
    may_store E lut transient_flags ty p a x
| ms_enum : forall ty t fl cs p a x, nth_error E ty = Some t -> rt_kind t = K_enum fl cs -> a <= x < a + 4 -> may_store E lut transient_flags ty p a x
| ms_field : forall ty p name f a x, member_field E transient_flags ty name = Some f ->
    may_store E lut transient_flags (rf_type f) (rf_ptr f) (a + rf_offset f) x -> may_store E lut transient_flags ty p a x
| ms_element : forall ty p name f n t i a x, member_field E transient_flags ty name = Some f -> rf_count f = Some n -> 0 <= i < n -> nth_error E (rf_type f) = Some t ->
    may_store E lut transient_flags (rf_type f) (rf_ptr f) (u64 (a + rf_offset f + i * (if rf_ptr f then 8 else rt_size t))) x -> may_store E lut transient_flags ty p a x.
(* storing in field f of an object at a can change the byte at x *)
Definition may_store_field (E : list rtype) (lut : list (option basic)) (transient_flags : Z) (f : rfield) (a x : Z) : Prop :=
  may_store E lut transient_flags (rf_type f) (rf_ptr f) (a + rf_offset f) x \/
  exists n t i, rf_count f = Some n /\ 0 <= i < n /\ nth_error E (rf_type f) = Some t /\
    may_store E lut transient_flags (rf_type f) (rf_ptr f) (u64 (a + rf_offset f + i * (if rf_ptr f then 8 else rt_size t))) x.
