(* Independent specification of C01: MurmurHash3_x86_32 as published (Appleby,
   smhasher), written over a list of bytes with arithmetic modulo 2^32 and
   consuming four bytes at a time. Nothing here refers to the model. *)
From Verif Require Import Base.

Definition W : Z := 2 ^ 32.
Definition mul (a b : Z) : Z := (a * b) mod W.
Definition rol (x r : Z) : Z := (x * 2 ^ r) mod W + x / 2 ^ (32 - r).
Definition scramble (k : Z) : Z := mul (rol (mul k 0xcc9e2d51) 15) 0x1b873593.
Definition round (h k : Z) : Z := (rol (Z.lxor h (scramble k)) 13 * 5 + 0xe6546b64) mod W.
Definition xsh (s h : Z) : Z := Z.lxor h (h / 2 ^ s).
Definition final (h : Z) : Z := xsh 16 (mul (xsh 13 (mul (xsh 16 h) 0x85ebca6b)) 0xc2b2ae35).
Fixpoint blocks (key : list Z) (h : Z) : Z :=
  match key with
  | b0 :: b1 :: b2 :: b3 :: r => blocks r (round h (b0 + b1 * 2^8 + b2 * 2^16 + b3 * 2^24))
  | [b0; b1; b2] => Z.lxor h (scramble (b0 + b1 * 2^8 + b2 * 2^16))
  | [b0; b1] => Z.lxor h (scramble (b0 + b1 * 2^8))
  | [b0] => Z.lxor h (scramble b0)
  | [] => h
  end.
Definition hash32 (key : list Z) (seed : Z) : Z :=
  final (Z.lxor (blocks key seed) (Z.of_nat (length key))).

(* a name: bytes before its terminating zero *)
Definition no_zero (s : list Z) : Prop := ~ In 0 s.
