(* What loading an arbitrary text as JSON can run into. *)
From Verif Require Import Base JsonLexModel JsonLexSpec JsonNumModel JsonNumSpec JsonObjModel JsonObjSpec.

(* somewhere in the text a number is cut off behind the letter of its exponent, at the end of the text *)
Definition cut_number (data : list Z) : Prop := exists p, 0 <= p <= zlen data /\ cut_exponent (skipn (Z.to_nat p) data).
(* somewhere in the text is a decimal number whose integral part does not fit in some integer type *)
Definition wild_decimal (F : floats) (data : list Z) : Prop :=
  exists c t c', inside data c /\ LexerNextToken (str2d F) data c = Ok (t, c') /\ jt_type t = T_DECIMAL /\
    exists b, integer_type b /\ match dtrunc F (jt_val t) with Some v => ~ (basic_min b <= v <= basic_max b) | None => True end.
(* some class has a C-array *)
Definition has_arrays (E : list rtype) : Prop := exists t fa fs e, In t E /\ rt_kind t = K_class fa fs /\ In e fs /\ rf_count (snd e) <> None.
(* the byte at x belongs to a field, own or inherited, of an object of class ty at address a *)
Definition of_field (E : list rtype) (lut : list (option basic)) (transient_flags : Z) (ty : nat) (a x : Z) : Prop :=
  exists name f, member_field E transient_flags ty name = Some f /\ may_store_field E lut transient_flags f a x.
(* sizes and counts are unsigned 32-bit numbers *)
Definition wf_sizes (E : list rtype) : Prop :=
  (forall t, In t E -> is_u32 (rt_size t)) /\
  (forall t fa fs e n, In t E -> rt_kind t = K_class fa fs -> In e fs -> rf_count (snd e) = Some n -> is_u32 n).
