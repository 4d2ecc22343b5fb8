(* Machine words, bytes, little-endian codecs and the outcome of a run.
   These are the conventions shared by every model file; see DESIGN.md. *)
From Coq Require Export ZArith List Bool Lia.
From Coq Require Export ZifyBool ZifyNat.
Export ListNotations.
#[global] Open Scope Z_scope.

(* Result of running a modelled function.
   Trap : clcpp::internal::Assert fired (src/clReflectCpp/clcpp.cpp:302-321, int 3).
   UB   : the C++ has undefined behaviour here (out-of-bounds access, null
          dereference, signed overflow, ...).
   Fuel : the model's own loop bound ran out: the C++ loop had not finished. *)
Inductive outcome (A : Type) : Type :=
| Ok (a : A)
| Trap
| UB
| Fuel.
Arguments Ok {A} a.
Arguments Trap {A}.
Arguments UB {A}.
Arguments Fuel {A}.

Definition obind {A B} (m : outcome A) (f : A -> outcome B) : outcome B :=
  match m with
  | Ok a => f a
  | Trap => Trap
  | UB => UB
  | Fuel => Fuel
  end.
Notation "'do' x <- m ; f" := (obind m (fun x => f))
  (at level 200, x pattern, right associativity).

Definition assert (b : bool) : outcome unit := if b then Ok tt else Trap.

(* unsigned int (32 bit) and size_type / pointer_type / uint64 (64 bit) wraps *)
Definition u8 (z : Z) : Z := z mod 256.
Definition u16 (z : Z) : Z := z mod 65536.
Definition u32 (z : Z) : Z := z mod 4294967296.
Definition u64 (z : Z) : Z := z mod 18446744073709551616.
(* two's complement reinterpretation as int / int64 *)
Definition s32 (z : Z) : Z := (z + 2147483648) mod 4294967296 - 2147483648.
Definition s64 (z : Z) : Z := (z + 9223372036854775808) mod 18446744073709551616 - 9223372036854775808.

Definition is_byte (b : Z) : Prop := 0 <= b < 256.
Definition is_u32 (z : Z) : Prop := 0 <= z < 4294967296.
Definition is_u64 (z : Z) : Prop := 0 <= z < 18446744073709551616.
Definition is_s32 (z : Z) : Prop := -2147483648 <= z < 2147483648.
Definition is_s64 (z : Z) : Prop := -9223372036854775808 <= z < 9223372036854775808.

(* little-endian encoding of the low n bytes of z, and its inverse *)
Fixpoint le_bytes (n : nat) (z : Z) : list Z :=
  match n with
  | O => []
  | S n' => z mod 256 :: le_bytes n' (z / 256)
  end.
Fixpoint le_val (bs : list Z) : Z :=
  match bs with
  | [] => 0
  | b :: r => b + 256 * le_val r
  end.

Definition zlen {A} (l : list A) : Z := Z.of_nat (length l).

(* l[i], absent when i is out of range *)
Definition znth {A} (l : list A) (i : Z) : option A :=
  if i <? 0 then None else nth_error l (Z.to_nat i).

(* element i of an array; reading outside it is undefined behaviour *)
Definition rd {A} (l : list A) (i : Z) : outcome A :=
  match znth l i with Some a => Ok a | None => UB end.

(* CArray::operator[] : asserts the index (inc/clcpp/clcpp.h CArray) *)
Definition rdA {A} (l : list A) (i : Z) : outcome A :=
  match znth l i with Some a => Ok a | None => Trap end.

(* replace element i of an array; outside it is undefined behaviour *)
Definition wr {A} (l : list A) (i : Z) (a : A) : outcome (list A) :=
  if (0 <=? i) && (i <? zlen l)
  then Ok (firstn (Z.to_nat i) l ++ a :: skipn (S (Z.to_nat i)) l) else UB.

(* ---- bytes of a memory block ---- *)
Definition slice {A} (l : list A) (off len : Z) : list A :=
  firstn (Z.to_nat len) (skipn (Z.to_nat off) l).

(* read len bytes at off; outside the block is undefined behaviour *)
Definition rd_bytes (l : list Z) (off len : Z) : outcome (list Z) :=
  if (0 <=? off) && (0 <=? len) && (off + len <=? zlen l)
  then Ok (slice l off len) else UB.

Definition splice (l : list Z) (off : Z) (bs : list Z) : list Z :=
  firstn (Z.to_nat off) l ++ bs ++ skipn (Z.to_nat off + length bs) l.

(* overwrite bytes at off; outside the block is undefined behaviour *)
Definition wr_bytes (l : list Z) (off : Z) (bs : list Z) : outcome (list Z) :=
  if (0 <=? off) && (off + zlen bs <=? zlen l)
  then Ok (splice l off bs) else UB.
