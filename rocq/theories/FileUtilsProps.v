(* C41, C55-C58: text helpers *)
From Verif Require Import Base BaseProofs Text FileUtilsModel FileUtilsSpec FileUtilsProofs.

(* C41: eight lower-case digits that denote the value, whatever the static buffer held *)
Theorem C41_itohex_digits : forall old v, length old = 9%nat -> is_u32 v ->
  exists s, itohex old v = Ok s /\ length s = 8%nat /\ Forall lower_hex s /\ hex_number s = Some v.
Proof. exact itohex_ok. Qed.
Print Assumptions C41_itohex_digits.
Theorem C41_round_trip : forall old v, length old = 9%nat -> is_u32 v ->
  exists s, itohex old v = Ok s /\ hextoi s = v.
Proof. exact hex_round. Qed.
Print Assumptions C41_round_trip.
(* any hexadecimal text, upper or lower case, of any length *)
Theorem C41_hextoi_any : forall s v, hex_number s = Some v -> hextoi s = v mod 2 ^ 32 /\ hextoi64 s = v mod 2 ^ 64.
Proof. intros s v H. split; [exact (hextoi_ok s v H)|exact (hextoi64_ok s v H)]. Qed.
Print Assumptions C41_hextoi_any.
Example C41_witness : itohex (repeat 7 9) 48879 = Ok (str "0000beef") /\ hextoi (str "DEADbeef") = 3735928559 /\
  hex_number (str "1DEADbeef") = Some 8030895855 /\ hextoi (str "1DEADbeef") = 3735928559.
Proof. vm_compute. auto. Qed.

(* C55: decimal text denotes the value up to nine digits *)
Theorem C55_decimal_text : forall v, 0 <= v < 10 ^ 9 ->
  dec_number (itoa v) = Some v /\ Forall (fun c => 48 <= c <= 57) (itoa v).
Proof. exact itoa_ok. Qed.
Print Assumptions C55_decimal_text.
(* finding: every larger 32-bit value loses its last digit *)
Theorem C55_ten_digits_refuted : forall v, 10 ^ 9 <= v < 2 ^ 32 -> dec_number (itoa v) = Some (v / 10).
Proof. exact itoa_wrong. Qed.
Print Assumptions C55_ten_digits_refuted.
Example C55_witness : itoa 999999999 = str "999999999" /\ itoa 4294967295 = str "429496729" /\ itoa 0 = str "0".
Proof. vm_compute. auto. Qed.

(* C56: replacement is leftmost and non-overlapping, and terminates for a non-empty pattern *)
Theorem C56_replace : forall fuel pat rep s, pat <> [] -> (length s < fuel)%nat ->
  exists r, StringReplace fuel s pat rep = Ok r /\ replaced pat rep s r.
Proof. exact replace_ok. Qed.
Print Assumptions C56_replace.
Theorem C56_replaced_unique : forall pat rep s r, replaced pat rep s r -> pat <> [] ->
  forall r', replaced pat rep s r' -> r = r'.
Proof. exact replaced_fun. Qed.
Print Assumptions C56_replaced_unique.
(* finding: an empty pattern never terminates *)
Theorem C56_empty_pattern_refuted : forall fuel s rep, StringReplace fuel s [] rep = Fuel.
Proof. exact replace_empty_loops. Qed.
Print Assumptions C56_empty_pattern_refuted.
Example C56_witness : StringReplace 30 (str "struct A<struct B>") (str "struct ") [] = Ok (str "A<B>") /\
  StringReplace 30 (str "aaa") (str "aa") (str "aaa") = Ok (str "aaaa").
Proof. vm_compute. auto. Qed.

(* C57: ConsumeToken stores the token and stops at the delimiter *)
Theorem C57_token : forall tok rest delim dest, Forall (fun c => c <> delim /\ c <> 0) tok ->
  (forall c r, rest = c :: r -> c = delim) -> zlen tok < zlen dest ->
  exists dest', ConsumeToken (tok ++ rest) delim dest (zlen dest) = Ok (rest, dest') /\ c_str dest' = Ok tok /\ zlen dest' = zlen dest.
Proof. exact consume_ok. Qed.
Print Assumptions C57_token.
(* finding: a token as long as the buffer, or longer, writes one past its end *)
Theorem C57_long_token_refuted : forall tok rest delim dest, Forall (fun c => c <> delim) tok -> zlen dest <= zlen tok ->
  ConsumeToken (tok ++ rest) delim dest (zlen dest) = UB.
Proof. exact consume_long. Qed.
Print Assumptions C57_long_token_refuted.
Example C57_witness : ConsumeToken (str "0001:0000 f") 32 (repeat 9 16) 16 = Ok (str " f", str "0001:0000" ++ [0; 9; 9; 9; 9; 9; 9]).
Proof. vm_compute. reflexivity. Qed.

(* C58: reading a file by lines; prefix test; skipping blanks *)
Theorem C58_lines : forall f ls, lines f ls -> forall fuel, (length ls < fuel)%nat ->
  ReadLines fuel f = Ok (map (firstn 4095) ls).
Proof. exact ReadLines_ok. Qed.
Print Assumptions C58_lines.
Theorem C58_every_file_has_lines : forall f, exists ls, lines f ls.
Proof. exact lines_total. Qed.
Print Assumptions C58_every_file_has_lines.
Theorem C58_startswith : forall text cmp, startswith text cmp = true <-> exists r, text = cmp ++ r.
Proof. exact startswith_ok. Qed.
Print Assumptions C58_startswith.
Theorem C58_skip_whitespace : forall text, exists blanks, text = blanks ++ SkipWhitespace text /\
  Forall (fun c => c = 32 \/ c = 9) blanks /\ (forall c r, SkipWhitespace text = c :: r -> c <> 32 /\ c <> 9).
Proof. exact skip_ok. Qed.
Print Assumptions C58_skip_whitespace.
(* finding: a last line without its newline is never returned *)
Theorem C58_last_line_refuted : ReadLines 5 (str "abc") = Ok [] /\ ReadLines 5 [97; 10; 98] = Ok [[97]].
Proof. vm_compute. auto. Qed.
Print Assumptions C58_last_line_refuted.
Example C58_witness : lines [97; 10; 10; 98; 99; 10; 100] [[97]; []; [98; 99]].
Proof.
  apply (lines_cons [97]); [cbn; lia|]. apply (lines_cons []); [cbn; lia|]. apply (lines_cons [98; 99]); [cbn; lia|].
  apply lines_end. cbn. lia.
Qed.
