(* Name hashing: src/clReflectCpp/clcpp.cpp 43-116, 323-336. *)
From Verif Require Import Base.

(* clcpp.cpp:44-47 rotl: (v << bits) | (v >> (32 - bits)) on unsigned int *)
Definition rotl (v bits : Z) : Z :=
  Z.lor (u32 (Z.shiftl v bits)) (Z.shiftr v (32 - bits)).

(* clcpp.cpp:49-58 fmix *)
Definition fmix (h : Z) : Z :=
  let h := Z.lxor h (Z.shiftr h 16) in
  let h := u32 (h * 2246822507) in           (* 0x85ebca6b *)
  let h := Z.lxor h (Z.shiftr h 13) in
  let h := u32 (h * 3266489909) in           (* 0xc2b2ae35 *)
  Z.lxor h (Z.shiftr h 16).

Definition c1 : Z := 3432918353.             (* 0xcc9e2d51, clcpp.cpp:69 *)
Definition c2 : Z := 461845907.              (* 0x1b873593, clcpp.cpp:70 *)

(* clcpp.cpp:73,76 blocks[i] with i = -nb_blocks..-1: the little-endian word at
   byte offset 4 * (nb_blocks + i). Simplification: alignment of data is ignored
   (x86 allows unaligned loads). *)
Definition rd_block (data : list Z) (nb_blocks i : Z) : outcome Z :=
  do bs <- rd_bytes data (4 * (nb_blocks + i)) 4;
  Ok (le_val bs).

(* clcpp.cpp:74-85 one iteration of the body *)
Definition body_step (h1 k1 : Z) : Z :=
  let k1 := u32 (k1 * c1) in
  let k1 := rotl k1 15 in
  let k1 := u32 (k1 * c2) in
  let h1 := Z.lxor h1 k1 in
  let h1 := rotl h1 13 in
  u32 (h1 * 5 + 3864292196).                 (* 0xe6546b64 *)

(* clcpp.cpp:74 for (int i = -nb_blocks; i; i++); n iterations remain, i = -n *)
Fixpoint body (data : list Z) (nb_blocks : Z) (n : nat) (h1 : Z) : outcome Z :=
  match n with
  | O => Ok h1
  | S n' =>
      do k1 <- rd_block data nb_blocks (- Z.of_nat n);
      body data nb_blocks n' (body_step h1 k1)
  end.

(* clcpp.cpp:87-102 the fall-through switch over len & 3 *)
Definition tail_step (h1 k1 : Z) : Z :=
  let k1 := u32 (k1 * c1) in
  let k1 := rotl k1 15 in
  let k1 := u32 (k1 * c2) in
  Z.lxor h1 k1.

Definition tail (data : list Z) (off rem h1 : Z) : outcome Z :=
  if rem =? 3 then
    do b2 <- rd data (off + 2); do b1 <- rd data (off + 1); do b0 <- rd data off;
    Ok (tail_step h1 (Z.lxor (Z.lxor (Z.lxor 0 (Z.shiftl b2 16)) (Z.shiftl b1 8)) b0))
  else if rem =? 2 then
    do b1 <- rd data (off + 1); do b0 <- rd data off;
    Ok (tail_step h1 (Z.lxor (Z.lxor 0 (Z.shiftl b1 8)) b0))
  else if rem =? 1 then
    do b0 <- rd data off; Ok (tail_step h1 (Z.lxor 0 b0))
  else Ok h1.

(* clcpp.cpp:63-108 MurmurHash3(key, len, seed). data is the memory readable from key. *)
Definition MurmurHash3 (data : list Z) (len seed : Z) : outcome Z :=
  let nb_blocks := len / 4 in
  do h1 <- body data nb_blocks (Z.to_nat nb_blocks) seed;
  do h1 <- tail data (nb_blocks * 4) (Z.land len 3) h1;
  Ok (fmix (Z.lxor h1 len)).

(* clcpp.cpp:110-116 strlen: count until the zero byte. Running past the readable
   memory is undefined behaviour. *)
Fixpoint strlen (str : list Z) : outcome Z :=
  match str with
  | [] => UB
  | c :: r => if c =? 0 then Ok 0 else do n <- strlen r; Ok (n + 1)
  end.

(* clcpp.cpp:323-326 *)
Definition HashData (data : list Z) (length seed : Z) : outcome Z :=
  MurmurHash3 data length seed.

(* clcpp.cpp:328-331 *)
Definition HashNameString (str : list Z) (seed : Z) : outcome Z :=
  do n <- strlen str; MurmurHash3 str n seed.

(* clcpp.cpp:333-336: hashes the four bytes of b with seed a *)
Definition MixHashes (a b : Z) : outcome Z :=
  MurmurHash3 (le_bytes 4 b) 4 a.
