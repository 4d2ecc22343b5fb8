(* JSON tokens as characters, independently of the lexer's loops. *)
From Verif Require Import Base Text FileUtilsSpec JsonLexModel.

Definition digit (c : Z) : Prop := 48 <= c <= 57.
Definition letter (c : Z) : Prop := 65 <= c <= 90 \/ 97 <= c <= 122.
Definition hexdigit (c : Z) : Prop := digit c \/ 65 <= c <= 70 \/ 97 <= c <= 102.
(* space, tab, newline, vertical tab, form feed, return *)
Definition white (c : Z) : Prop := c = 32 \/ 9 <= c <= 13.

(* what may stand between the quotes of a string *)
Inductive string_chars : list Z -> Prop :=
| sc_end : string_chars []
| sc_plain : forall c r, c <> 34 -> c <> 92 -> string_chars r -> string_chars (c :: r)
| sc_escape : forall c r, In c (str "\/bnfrt" ++ [34]) -> string_chars r -> string_chars (92 :: c :: r)
| sc_unicode : forall a b c d r, hexdigit a -> hexdigit b -> hexdigit c -> hexdigit d -> string_chars r ->
    string_chars (str "\u" ++ a :: b :: c :: d :: r).

(* the structural characters and the keywords *)
Inductive punct : jtype -> Z -> Prop :=
| p_lbrace : punct T_LBRACE 123 | p_rbrace : punct T_RBRACE 125
| p_lbracket : punct T_LBRACKET 91 | p_rbracket : punct T_RBRACKET 93
| p_comma : punct T_COMMA 44 | p_colon : punct T_COLON 58.
Inductive word : jtype -> list Z -> Prop :=
| w_true : word T_TRUE (str "true") | w_false : word T_FALSE (str "false") | w_null : word T_NULL (str "null").

(* the exponent of a decimal number *)
Inductive exponent : list Z -> Prop :=
| ex_none : exponent []
| ex_some : forall e sign ds, e = 101 \/ e = 69 -> sign = [] \/ sign = [45] \/ sign = [43] -> Forall digit ds -> ds <> [] ->
    exponent (e :: sign ++ ds).

(* a token: its kind and what it carries; integers and decimals carry 64 bits *)
Inductive stoken := SChar (t : jtype) | SWord (t : jtype) | SString (s : list Z) | SInteger (v : Z) | SDecimal (bits : Z).
(* how it is spelled; sd gives the bits of a decimal number's text *)
Inductive spelled (sd : list Z -> Z) : stoken -> list Z -> Prop :=
| sp_char : forall t c, punct t c -> spelled sd (SChar t) [c]
| sp_word : forall t s, word t s -> spelled sd (SWord t) s
| sp_string : forall s, string_chars s -> spelled sd (SString s) (34 :: s ++ [34])
| sp_int : forall ds v, ds <> [] -> dec_number ds = Some v -> spelled sd (SInteger (v mod 2 ^ 64)) ds
| sp_neg : forall ds v, ds <> [] -> dec_number ds = Some v -> spelled sd (SInteger ((- v) mod 2 ^ 64)) (45 :: ds)
| sp_hex : forall ds v, ds <> [] -> hex_number ds = Some v -> spelled sd (SInteger (v mod 2 ^ 64)) (str "0x" ++ ds)
| sp_bits : forall ds v, ds <> [] -> hex_number ds = Some v -> spelled sd (SDecimal (v mod 2 ^ 64)) (str "0d" ++ ds)
| sp_fraction : forall sign ds fs e, sign = [] \/ sign = [45] -> ds <> [] -> Forall digit ds -> Forall digit fs -> exponent e ->
    spelled sd (SDecimal (sd (sign ++ ds ++ 46 :: fs ++ e))) (sign ++ ds ++ 46 :: fs ++ e)
| sp_exponent : forall sign ds e, sign = [] \/ sign = [45] -> ds <> [] -> Forall digit ds -> exponent e -> e <> [] ->
    spelled sd (SDecimal (sd (sign ++ ds ++ e))) (sign ++ ds ++ e).

(* a number has to be followed by something that cannot be part of a number or a word *)
Definition stands_alone (rest : list Z) : Prop := exists c r, rest = c :: r /\ ~ (digit c \/ letter c \/ c = 46).
Definition may_follow (k : stoken) (rest : list Z) : Prop :=
  match k with SInteger _ | SDecimal _ => stands_alone rest | _ => True end.

(* what the lexer should say about a token whose first character is at p *)
Definition token_at (p : Z) (k : stoken) (t : jtok) : Prop :=
  match k with
  | SChar k => t = mk_jtok k 1 0
  | SWord k => jt_type t = k
  | SString s => t = mk_jtok T_STRING (zlen s) (p + 1)
  | SInteger v => jt_type t = T_INTEGER /\ jt_val t = v
  | SDecimal b => jt_type t = T_DECIMAL /\ jt_val t = b
  end.

(* a document starting at p: tokens, each with the place of its first character, and white space around them *)
Inductive layout (sd : list Z -> Z) : Z -> list Z -> list (Z * stoken) -> Prop :=
| lay_end : forall p w, Forall white w -> layout sd p w []
| lay_token : forall p w k s r ks, Forall white w -> spelled sd k s -> may_follow k r ->
    layout sd (p + zlen w + zlen s) r ks -> layout sd p (w ++ s ++ r) ((p + zlen w, k) :: ks).

Definition no_error (c : jctx) : Prop := je_code (jc_err c) = E_NONE.
(* the context has read part of the data *)
Definition inside (data : list Z) (c : jctx) : Prop := 0 <= jc_pos c <= zlen data.
Definition unread (data : list Z) (c : jctx) : list Z := skipn (Z.to_nat (jc_pos c)) data.
(* the one text that makes the lexer look past the end: a number cut after its exponent letter *)
Definition cut_exponent (text : list Z) : Prop :=
  exists w sign ds fs e, text = w ++ sign ++ ds ++ 46 :: fs ++ [e] /\ Forall white w /\ (sign = [] \/ sign = [45]) /\
    ds <> [] /\ Forall digit ds /\ Forall digit fs /\ (e = 101 \/ e = 69).
(* a number followed by an exponent letter but no exponent: it is taken as a decimal and the letter left *)
Definition bare_exponent (sd : list Z -> Z) (s r : list Z) (t : jtok) : Prop :=
  exists sign ds e r', s = sign ++ ds /\ (sign = [] \/ sign = [45]) /\ ds <> [] /\ Forall digit ds /\ r = (e :: r')%list /\ (e = 101 \/ e = 69) /\
    jt_type t = T_DECIMAL /\ jt_val t = sd s.
