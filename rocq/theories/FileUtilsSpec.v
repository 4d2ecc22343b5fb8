(* What the text helpers are for, independently of the loops. *)
From Verif Require Import Base Text.

(* value of a digit character *)
Definition dec_digit (c : Z) : option Z := if (48 <=? c) && (c <=? 57) then Some (c - 48) else None.
Definition hex_digit (c : Z) : option Z :=
  if (48 <=? c) && (c <=? 57) then Some (c - 48)
  else if (97 <=? c) && (c <=? 102) then Some (c - 87)
  else if (65 <=? c) && (c <=? 70) then Some (c - 55)
  else None.
(* value of a number written with digits in a radix; None if some character is not a digit *)
Fixpoint number (digit : Z -> option Z) (radix : Z) (s : list Z) (acc : Z) : option Z :=
  match s with
  | [] => Some acc
  | c :: r => match digit c with Some d => number digit radix r (acc * radix + d) | None => None end
  end.
Definition dec_number (s : list Z) := number dec_digit 10 s 0.
Definition hex_number (s : list Z) := number hex_digit 16 s 0.

(* the complete lines of a file: what precedes each newline *)
Inductive lines : list Z -> list (list Z) -> Prop :=
| lines_end : forall f, ~ In 10 f -> lines f []
| lines_cons : forall l r ls, ~ In 10 l -> lines r ls -> lines (l ++ 10 :: r) (l :: ls).

(* leftmost, non-overlapping replacement *)
Inductive replaced (pat rep : list Z) : list Z -> list Z -> Prop :=
| rep_nil : replaced pat rep [] []
| rep_hit : forall s r, replaced pat rep s r -> replaced pat rep (pat ++ s) (rep ++ r)
| rep_miss : forall c s r, (forall t, c :: s <> pat ++ t) -> replaced pat rep s r -> replaced pat rep (c :: s) (c :: r).
