(* C18, C19, C20, C59: numbers in JSON *)
From Coq Require Import String.
From Verif Require Import Base BaseProofs Text HashModel FileUtilsSpec JsonLexModel JsonLexSpec JsonLexProofs JsonNumModel JsonNumSpec JsonNumProofs.
Local Open Scope list_scope.

(* every int64 above -10^18 is written as its decimal text *)
Theorem C18_text : forall i, - 10 ^ 18 < i < 2 ^ 63 -> exists text, SaveInteger i = Ok text /\ decimal_text i text.
Proof.
  intros i Hi. destruct (save_integer_ok i Hi) as [ds [_ HE]]. eexists. split; [exact HE|]. apply (signed_spells zlen i); [lia|exact HE].
Qed.
Print Assumptions C18_text.
(* finding: every other int64 writes a character before the start of the buffer, or overflows the negation *)
Theorem C18_wide_negative_refuted : forall i, - 2 ^ 63 <= i <= - 10 ^ 18 -> SaveInteger i = UB.
Proof. exact save_integer_overflow. Qed.
Print Assumptions C18_wide_negative_refuted.
(* what is written reads back as the same value *)
Theorem C18_reads_back : forall i text sd data pre rest c, is_s64 i -> SaveInteger i = Ok text ->
  zlen data < 2 ^ 31 -> data = pre ++ text ++ rest -> stands_alone rest -> jc_pos c = zlen pre ->
  exists t c', LexerNextToken sd data c = Ok (t, c') /\ jt_type t = T_INTEGER /\ s64 (jt_val t) = i /\
    jc_pos c' = zlen pre + zlen text /\ jc_err c' = jc_err c.
Proof.
  intros i text sd data pre rest c Hi HE Hs HD Hal Hc. destruct (signed_spells sd i text Hi HE) as [_ Hsp].
  destruct (lex_spelled data sd _ text pre rest c Hs HD Hc Hsp Hal) as [t [c' [HL [[Ht Hv] HR]]]]. exists t, c'. split; [exact HL|]. split; [exact Ht|]. split; [|exact HR].
  rewrite Hv. unfold s64, is_s64 in *. change (2 ^ 64) with 18446744073709551616. rewrite Zplus_mod_idemp_l. rewrite Z.mod_small by lia. lia.
Qed.
Print Assumptions C18_reads_back.

(* every unsigned value is written as its decimal text, or its hexadecimal one *)
Theorem C19_text : forall v, is_u64 v ->
  (exists text, SaveUnsignedInteger v = Ok text /\ decimal_text v text) /\ (exists text, SaveHexInteger v = Ok text /\ hex_text v text).
Proof.
  intros v Hv. split.
  - destruct (save_unsigned_ok v Hv) as [ds [_ HE]]. exists ds. split; [exact HE|]. apply (unsigned_spells zlen v ds Hv HE).
  - destruct (save_hex_ok v Hv) as [ds [_ HE]]. exists ds. split; [exact HE|]. apply (hex_spells zlen v ds Hv HE).
Qed.
Print Assumptions C19_text.
(* what is written reads back as the same value *)
Theorem C19_reads_back : forall v text sd data pre rest c, is_u64 v ->
  SaveUnsignedInteger v = Ok text \/ (exists h, SaveHexInteger v = Ok h /\ text = str "0x" ++ h) ->
  zlen data < 2 ^ 31 -> data = pre ++ text ++ rest -> stands_alone rest -> jc_pos c = zlen pre ->
  exists t c', LexerNextToken sd data c = Ok (t, c') /\ jt_type t = T_INTEGER /\ jt_val t = v /\
    jc_pos c' = zlen pre + zlen text /\ jc_err c' = jc_err c.
Proof.
  intros v text sd data pre rest c Hv HE Hs HD Hal Hc.
  assert (Hsp : spelled sd (SInteger v) text).
  { rewrite <- (mod64_sign v) at 1 by exact Hv. destruct HE as [HE|[h [HE ->]]]; [apply (unsigned_spells sd v text Hv HE)|apply (hex_spells sd v h Hv HE)]. }
  destruct (lex_spelled data sd _ text pre rest c Hs HD Hc Hsp Hal) as [t [c' [HL [[Ht Hval] HR]]]]. exists t, c'. auto.
Qed.
Print Assumptions C19_reads_back.

(* the table that finds the functions of a type has no collision among the types it knows *)
Theorem C20_table : exists lut, SetupTypeDispatchLUT = Ok lut /\
  (forall b h, type_hash b h -> rd lut (GetTypeDispatchIndex h) = Ok (Some b)).
Proof. exists the_lut. split; [exact lut_ok|exact lut_basic]. Qed.
Print Assumptions C20_table.
(* an integer loaded in a field of an integer type writes the field's bytes, the value modulo the field's size,
   and nothing else *)
Theorem C20_load : forall F lut b h t mem off, SetupTypeDispatchLUT = Ok lut -> integer_type b -> type_hash b h -> IsValid t = true ->
  0 <= off -> off + basic_size b <= zlen mem ->
  exists mem' bytes, ParserInteger F lut t mem off (Some h) false = Ok mem' /\ written_at mem off bytes mem' /\
    zlen bytes = basic_size b /\ Forall is_byte bytes /\ le_val bytes = jt_val t mod 2 ^ (8 * basic_size b).
Proof.
  intros F lut b h t mem off HL [Hb1 [Hb2 Hb3]] Hh Ht Ho1 Ho2. rewrite lut_ok in HL. injection HL as <-.
  unfold ParserInteger. rewrite Ht. cbn [LoadInteger]. rewrite (lut_basic b h Hh), bind_Ok. rewrite load_integer_bytes by (split || idtac; assumption).
  destruct (basic_size_ok b) as [Hsz [Hpow _]]. assert (HZ : zlen (le_bytes (Z.to_nat (basic_size b)) (s64 (jt_val t))) = basic_size b) by (rewrite le_bytes_zlen; lia).
  destruct (wr_bytes_in mem off _ Ho1 ltac:(rewrite HZ; exact Ho2)) as [mem' [HW Hat]]. do 2 eexists. split; [exact HW|]. split; [exact Hat|]. split; [exact HZ|].
  split; [apply le_bytes_bytes|]. rewrite le_val_bytes, Z2Nat.id by lia. rewrite s64_mod, Hpow. reflexivity.
Qed.
Print Assumptions C20_load.
(* a bool gets 1 for any other number than 0 *)
Theorem C20_load_bool : forall F lut h t mem off, SetupTypeDispatchLUT = Ok lut -> type_hash B_bool h -> IsValid t = true -> 0 <= off < zlen mem ->
  exists mem', ParserInteger F lut t mem off (Some h) false = Ok mem' /\ written_at mem off [if s64 (jt_val t) =? 0 then 0 else 1] mem'.
Proof.
  intros F lut h t mem off HL Hh Ht Ho. rewrite lut_ok in HL. injection HL as <-. unfold ParserInteger. rewrite Ht. cbn [LoadInteger]. rewrite (lut_basic _ h Hh), bind_Ok.
  apply wr_bytes_in; [lia|]. change (zlen [if s64 (jt_val t) =? 0 then 0 else 1]) with 1. lia.
Qed.
Print Assumptions C20_load_bool.
(* an object of a bool or integer type, saved and loaded, is the same *)
Theorem C20_round_trip : forall F lut b h mem off flags bytes text sd data pre rest c mem2 off2, SetupTypeDispatchLUT = Ok lut ->
  b <> B_float /\ b <> B_double -> type_hash b h ->
  rd_bytes mem off (basic_size b) = Ok bytes -> Forall is_byte bytes -> SaveType F lut mem off h flags = Ok text ->
  zlen data < 2 ^ 31 -> data = pre ++ text ++ rest -> stands_alone rest -> jc_pos c = zlen pre ->
  0 <= off2 -> off2 + basic_size b <= zlen mem2 ->
  exists t c' mem', LexerNextToken sd data c = Ok (t, c') /\ jt_type t = T_INTEGER /\ jc_pos c' = zlen pre + zlen text /\ jc_err c' = jc_err c /\
    ParserInteger F lut t mem2 off2 (Some h) false = Ok mem' /\ written_at mem2 off2 bytes mem'.
Proof.
  intros F lut b h mem off flags bytes text sd data pre rest c mem2 off2 HL Hb Hh HR HB HS. rewrite lut_ok in HL. injection HL as <-.
  unfold SaveType in HS. rewrite (lut_basic b h Hh), bind_Ok in HS. apply (integer_round_trip F b h mem off flags); assumption.
Qed.
Print Assumptions C20_round_trip.
(* finding: the table is indexed by the name's hash modulo 47 without comparing names; an integer loaded in a field
   whose type is an enum called Level writes the 8 bytes of a long long *)
Definition name_Level : list Z := Eval vm_compute in str "Level" ++ [0].
Theorem C20_other_type_refuted : forall F, exists lut h, SetupTypeDispatchLUT = Ok lut /\ HashNameString name_Level 0 = Ok h /\
  ParserInteger F lut (mk_jtok T_INTEGER 0 1) (repeat 255 12) 4 (Some h) false = Ok ([255; 255; 255; 255] ++ le_bytes 8 1).
Proof. intros F. exists the_lut. eexists. split; [exact lut_ok|]. split; [vm_compute; reflexivity|]. vm_compute. reflexivity. Qed.
Print Assumptions C20_other_type_refuted.

(* a double written with EMIT_HEX_FLOATS reads back as the same bits; so does a float if the float is what its
   conversion to double converts back to *)
Theorem C59_hex_floats : forall F lut b h mem off flags bytes text sd data pre rest c mem2 off2, SetupTypeDispatchLUT = Ok lut ->
  b = B_double \/ (b = B_float /\ is_u64 (f2d F (le_val bytes)) /\ d2f F (f2d F (le_val bytes)) = le_val bytes) -> type_hash b h ->
  rd_bytes mem off (basic_size b) = Ok bytes -> Forall is_byte bytes ->
  SaveType F lut mem off h flags = Ok text -> has_flag flags EMIT_HEX_FLOATS = true ->
  zlen data < 2 ^ 31 -> data = pre ++ text ++ rest -> stands_alone rest -> jc_pos c = zlen pre ->
  0 <= off2 -> off2 + basic_size b <= zlen mem2 ->
  exists t c' mem', LexerNextToken sd data c = Ok (t, c') /\ jt_type t = T_DECIMAL /\ jc_pos c' = zlen pre + zlen text /\ jc_err c' = jc_err c /\
    ParserDecimal F lut t mem2 off2 (Some h) = Ok mem' /\ written_at mem2 off2 bytes mem'.
Proof.
  intros F lut b h mem off flags bytes text sd data pre rest c mem2 off2 HL Hb Hh HR HB HS. rewrite lut_ok in HL. injection HL as <-.
  unfold SaveType in HS. rewrite (lut_basic b h Hh), bind_Ok in HS. apply (hex_float_round_trip F b h mem off flags); assumption.
Qed.
Print Assumptions C59_hex_floats.
(* and saving it never fails *)
Theorem C59_saves : forall F lut b h mem off flags bytes, SetupTypeDispatchLUT = Ok lut ->
  b = B_double \/ (b = B_float /\ is_u64 (f2d F (le_val bytes))) -> type_hash b h ->
  rd_bytes mem off (basic_size b) = Ok bytes -> Forall is_byte bytes -> exists text, SaveType F lut mem off h flags = Ok text.
Proof.
  intros F lut b h mem off flags bytes HL Hb Hh HR HB. rewrite lut_ok in HL. injection HL as <-. unfold SaveType. rewrite (lut_basic b h Hh), bind_Ok. unfold save_number. rewrite HR, bind_Ok.
  pose proof (le_val_range bytes HB) as HV. apply rd_bytes_ok in HR. destruct HR as [R1 [R2 [R3 HR]]]. assert (HZ : zlen bytes = basic_size b) by (rewrite HR; apply slice_length; assumption). rewrite HZ in HV. clear HR.
  assert (HD : forall bits, is_u64 bits -> exists text, SaveDecimal F bits flags = Ok text).
  { intros bits Hbits. unfold SaveDecimal. destruct (has_flag flags EMIT_HEX_FLOATS); [|eexists; reflexivity]. destruct (save_hex_ok bits Hbits) as [ds [_ HE]]. rewrite HE, bind_Ok. eexists. reflexivity. }
  destruct Hb as [->|[-> Hb]]; apply HD; [exact HV|exact Hb].
Qed.
Print Assumptions C59_saves.

(* non-vacuity *)
Definition ex_F : floats := mk_floats (fun x => x * 2 ^ 29) (fun x => x / 2 ^ 29) (fun x => x) (fun x => x) (fun x => Some 0) (fun x => true) (fun x => []) zlen.
Example C18_example : SaveInteger (-120) = Ok (str "-120") /\ SaveInteger 0 = Ok (str "0") /\ SaveInteger (2 ^ 63 - 1) = Ok (str "9223372036854775807").
Proof. vm_compute. repeat split; reflexivity. Qed.
Example C19_example : SaveUnsignedInteger (2 ^ 64 - 1) = Ok (str "18446744073709551615") /\ SaveHexInteger 48879 = Ok (str "beef").
Proof. vm_compute. split; reflexivity. Qed.
Definition hash_short : Z := Eval vm_compute in match HashNameString (str "short" ++ [0]) 0 with Ok h => h | _ => 0 end.
Definition hash_double : Z := Eval vm_compute in match HashNameString (str "double" ++ [0]) 0 with Ok h => h | _ => 0 end.
Example C20_example : type_hash B_short hash_short /\ SaveType ex_F the_lut [7; 254; 255; 9] 1 hash_short 0 = Ok (str "-2") /\
  (do r <- LexerNextToken zlen (str "-2,") (JSONContext 0); ParserInteger ex_F the_lut (fst r) [1; 2; 3; 4] 2 (Some hash_short) false) = Ok [1; 2; 254; 255].
Proof. split; [vm_compute; reflexivity|]. split; vm_compute; reflexivity. Qed.
Example C59_example : type_hash B_double hash_double /\ SaveType ex_F the_lut [1; 2; 3; 4; 5; 6; 7; 8] 0 hash_double 32 = Ok (str "0d807060504030201") /\ has_flag 32 EMIT_HEX_FLOATS = true.
Proof. split; [vm_compute; reflexivity|]. split; vm_compute; reflexivity. Qed.
