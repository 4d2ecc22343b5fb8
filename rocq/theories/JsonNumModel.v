(* Numbers in JSON: src/clReflectUtil/SerialiseJSON.cpp:35-77, 164-237, 594-725, 1183-1217. Sizes and signs are those of the
   x86-64 Unix ABI: char and wchar_t are signed, int and wchar_t have 4 bytes, long and long long 8. What is
   written to a WriteBuffer is given as the bytes appended; WriteBuffer itself is modelled in BufferModel.v. *)
From Verif Require Import Base Text HashModel JsonLexModel.

(* what the C library and the processor do with floating point, on the bits of floats and doubles *)
Record floats := mk_floats {
  f2d : Z -> Z;              (* float to double *)
  d2f : Z -> Z;              (* double to float *)
  i2f : Z -> Z;              (* int64 to float *)
  i2d : Z -> Z;              (* int64 to double *)
  dtrunc : Z -> option Z;    (* a double's integral part; none for infinities and NaN *)
  dnonzero : Z -> bool;      (* a double is not equal to zero *)
  fmt_f : Z -> list Z;       (* snprintf of %f *)
  str2d : list Z -> Z        (* strtod *)
}.

(* 614-619, 642-647 the digits from the end of text[] backwards: *--tptr = .. at index p - 1 of an array; the
   result is the index of the first character written *)
Fixpoint digits_loop (fuel : nat) (radix : Z) (digit : Z -> Z) (text : list Z) (p v : Z) : outcome (list Z * Z) :=
  match fuel with
  | O => Fuel
  | S n =>
      let next := v / radix in
      do text <- wr text (p - 1) (digit (v - next * radix));
      if next =? 0 then Ok (text, p - 1) else digits_loop n radix digit text (p - 1) next
  end.
Definition dec_char (d : Z) : Z := 48 + d.
(* indexing the literal 0123456789abcdef *)
Definition hex_char (d : Z) : Z := if d <? 10 then 48 + d else 97 + (d - 10).
(* char text[n]; its contents are indeterminate, here 0 *)
Definition text_buffer (n : Z) : list Z := repeat 0 (Z.to_nat n).

(* 594-628; negating the least int64 overflows *)
Definition SaveInteger (integer : Z) : outcome (list Z) :=
  let stop := 20 - 1 in
  let negative := integer <? 0 in
  do v <- (if negative then (if integer =? - 2 ^ 63 then UB else Ok (- integer)) else Ok integer);
  do x <- digits_loop 20 10 dec_char (text_buffer 20) stop v;
  do y <- (if negative then do t <- wr (fst x) (snd x - 1) 45; Ok (t, snd x - 1) else Ok x);
  Ok (slice (fst y) (snd y) (stop - snd y)).
(* 630-650 *)
Definition SaveUnsignedInteger (integer : Z) : outcome (list Z) :=
  let stop := 21 - 1 in
  do x <- digits_loop 21 10 dec_char (text_buffer 21) stop integer;
  Ok (slice (fst x) (snd x) (stop - snd x)).
(* 652-672 *)
Definition SaveHexInteger (integer : Z) : outcome (list Z) :=
  let stop := 21 - 1 in
  do x <- digits_loop 21 16 hex_char (text_buffer 21) stop integer;
  Ok (slice (fst x) (snd x) (stop - snd x)).

(* the types the dispatch table knows *)
Inductive basic := B_bool | B_char | B_wchar_t | B_uchar | B_short | B_ushort | B_int | B_uint | B_long | B_ulong | B_llong | B_ullong | B_float | B_double.
Definition basic_name (b : basic) : list Z :=
  match b with
  | B_bool => str "bool" | B_char => str "char" | B_wchar_t => str "wchar_t" | B_uchar => str "unsigned char"
  | B_short => str "short" | B_ushort => str "unsigned short" | B_int => str "int" | B_uint => str "unsigned int"
  | B_long => str "long" | B_ulong => str "unsigned long" | B_llong => str "long long" | B_ullong => str "unsigned long long"
  | B_float => str "float" | B_double => str "double"
  end.
(* sizeof *)
Definition basic_size (b : basic) : Z :=
  match b with
  | B_bool | B_char | B_uchar => 1
  | B_short | B_ushort => 2
  | B_wchar_t | B_int | B_uint | B_float => 4
  | _ => 8
  end.
Definition basic_signed (b : basic) : bool :=
  match b with B_char | B_wchar_t | B_short | B_int | B_long | B_llong => true | _ => false end.
(* the order of registration, 1188-1213 *)
Definition all_basics : list basic :=
  [B_bool; B_char; B_wchar_t; B_uchar; B_short; B_ushort; B_int; B_uint; B_long; B_ulong; B_llong; B_ullong; B_float; B_double].

(* 58-65 *)
Definition GetTypeDispatchIndex (hash : Z) : Z := hash mod 47.
(* 67-77 AddTypeDispatch; an entry of the table is None when not valid. The functions it would hold are those of
   the type, below *)
Definition AddTypeDispatch (lut : list (option basic)) (b : basic) : outcome (list (option basic)) :=
  do h <- HashNameString (basic_name b ++ [0]) 0;
  let index := GetTypeDispatchIndex h in
  do e <- rd lut index;
  do _ <- assert (match e with None => true | Some _ => false end);
  wr lut index (Some b).
Fixpoint add_all (lut : list (option basic)) (bs : list basic) : outcome (list (option basic)) :=
  match bs with [] => Ok lut | b :: r => do lut <- AddTypeDispatch lut b; add_all lut r end.
(* 1183-1217 SetupTypeDispatchLUT, the first time *)
Definition SetupTypeDispatchLUT : outcome (list (option basic)) := add_all (repeat None 47) all_basics.

(* a signed value of n bytes *)
Definition sign_extend (n v : Z) : Z := if v <? 2 ^ (8 * n - 1) then v else v - 2 ^ (8 * n).
(* the value of an object of an integer type *)
Definition load_int (b : basic) (bytes : list Z) : Z :=
  if basic_signed b then sign_extend (basic_size b) (le_val bytes) else le_val bytes.
(* inc/clutl/Serialise.h:141-160 JSONFlags *)
Definition EMIT_HEX_FLOATS := 32.
Definition EMIT_HEX_POINTERS := 64.
Definition has_flag (flags f : Z) : bool := negb (Z.land flags f =? 0).
(* 693-707 *)
Definition SaveDecimal (F : floats) (decimal flags : Z) : outcome (list Z) :=
  if has_flag flags EMIT_HEX_FLOATS then do h <- SaveHexInteger decimal; Ok (str "0d" ++ h)
  else Ok (fmt_f F decimal).
(* 674-691, 709-716: the function of a type applied to an object at an address; a bool other than 0 and 1 is
   undefined *)
Definition save_number (F : floats) (b : basic) (mem : list Z) (object flags : Z) : outcome (list Z) :=
  do bytes <- rd_bytes mem object (basic_size b);
  let v := load_int b bytes in
  match b with
  | B_bool => if v <? 2 then SaveInteger v else UB
  | B_char | B_short | B_int | B_long | B_llong => SaveInteger v
  | B_wchar_t | B_uchar | B_ushort | B_uint | B_ulong => SaveUnsignedInteger (u64 v)
  | B_ullong => do h <- SaveHexInteger (u64 v); Ok (str "0x" ++ h)
  | B_float => SaveDecimal F (f2d F v) flags
  | B_double => SaveDecimal F v flags
  end.
(* 717-724 SaveType on a type name's hash *)
Definition SaveType (F : floats) (lut : list (option basic)) (mem : list Z) (object type_hash flags : Z) : outcome (list Z) :=
  do e <- rd lut (GetTypeDispatchIndex type_hash);
  match e with None => Trap | Some b => save_number F b mem object flags end.

(* 164-173 the integer loader of a type; integer is an int64 *)
Definition load_integer (F : floats) (b : basic) (mem : list Z) (dest integer : Z) : outcome (list Z) :=
  match b with
  | B_bool => wr_bytes mem dest [if integer =? 0 then 0 else 1]
  | B_float => wr_bytes mem dest (le_bytes 4 (i2f F integer))
  | B_double => wr_bytes mem dest (le_bytes 8 (i2d F integer))
  | _ => wr_bytes mem dest (le_bytes (Z.to_nat (basic_size b)) integer)
  end.
(* the least and greatest values of an integer type *)
Definition basic_min (b : basic) : Z := if basic_signed b then - 2 ^ (8 * basic_size b - 1) else 0.
Definition basic_max (b : basic) : Z := if basic_signed b then 2 ^ (8 * basic_size b - 1) - 1 else 2 ^ (8 * basic_size b) - 1.
(* 174-183 the decimal loader; converting to an integer type which cannot hold the integral part is undefined *)
Definition load_decimal (F : floats) (b : basic) (mem : list Z) (dest decimal : Z) : outcome (list Z) :=
  match b with
  | B_bool => wr_bytes mem dest [if dnonzero F decimal then 1 else 0]
  | B_float => wr_bytes mem dest (le_bytes 4 (d2f F decimal))
  | B_double => wr_bytes mem dest (le_bytes 8 decimal)
  | _ =>
      match dtrunc F decimal with
      | Some v => if (basic_min b <=? v) && (v <=? basic_max b) then wr_bytes mem dest (le_bytes (Z.to_nat (basic_size b)) v) else UB
      | None => UB
      end
  end.
(* 185-208 LoadInteger; the type is given by its name's hash, None for the null pointer; pointer: op is POINTER *)
Definition LoadInteger (F : floats) (lut : list (option basic)) (integer : Z) (mem : list Z) (object : Z) (type_hash : option Z) (pointer : bool) : outcome (list Z) :=
  match type_hash with
  | None => Ok mem
  | Some h =>
      if pointer then wr_bytes mem object (le_bytes 4 (u32 integer))
      else
        do e <- rd lut (GetTypeDispatchIndex h);
        match e with None => Ok mem | Some b => load_integer F b mem object integer end
  end.
(* 210-216 *)
Definition ParserInteger (F : floats) (lut : list (option basic)) (t : jtok) (mem : list Z) (object : Z) (type_hash : option Z) (pointer : bool) : outcome (list Z) :=
  if IsValid t then LoadInteger F lut (s64 (jt_val t)) mem object type_hash pointer else Ok mem.
(* 218-237 *)
Definition ParserDecimal (F : floats) (lut : list (option basic)) (t : jtok) (mem : list Z) (object : Z) (type_hash : option Z) : outcome (list Z) :=
  if IsValid t then
    match type_hash with
    | None => Ok mem
    | Some h =>
        do e <- rd lut (GetTypeDispatchIndex h);
        match e with None => Ok mem | Some b => load_decimal F b mem object (jt_val t) end
    end
  else Ok mem.
