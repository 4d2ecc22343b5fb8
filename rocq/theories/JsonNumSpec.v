(* Numbers as text, independently of the loops that write and read them. *)
From Verif Require Import Base Text FileUtilsSpec JsonLexModel JsonNumModel.

(* a number's digits without a leading zero *)
Definition plain (ds : list Z) : Prop := ds <> [] /\ (forall r, ds = 48 :: r -> r = []).
Definition decimal_text (v : Z) (text : list Z) : Prop :=
  exists ds, plain ds /\ dec_number ds = Some (Z.abs v) /\ text = if v <? 0 then 45 :: ds else ds.
Definition hex_text (v : Z) (text : list Z) : Prop := plain text /\ hex_number text = Some v.

(* the integer types *)
Definition integer_type (b : basic) : Prop := b <> B_bool /\ b <> B_float /\ b <> B_double.
Definition type_hash (b : basic) (h : Z) : Prop := HashModel.HashNameString (basic_name b ++ [0]) 0 = Ok h.
(* mem' is mem with bytes written at an address *)
Definition written_at (mem : list Z) (at_ : Z) (bytes mem' : list Z) : Prop :=
  zlen mem' = zlen mem /\
  forall i, znth mem' i = if (at_ <=? i) && (i <? at_ + zlen bytes) then znth bytes (i - at_) else znth mem i.
