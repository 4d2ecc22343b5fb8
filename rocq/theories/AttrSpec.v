(* The attribute language, independently of the scanner's loops. *)
From Verif Require Import Base Text HashSpec Maps DatabaseModel FileUtilsSpec AttrModel.

Definition letter (c : Z) : Prop := 65 <= c <= 90 \/ 97 <= c <= 122.
Definition digit (c : Z) : Prop := 48 <= c <= 57.
Definition hexdigit (c : Z) : Prop := digit c \/ 65 <= c <= 70 \/ 97 <= c <= 102.
Definition space (c : Z) : Prop := c = 32 \/ c = 9.
Definition spaces (s : list Z) : Prop := Forall space s.
(* a symbol starts with a letter or underscore and goes on with letters, digits, '_' and ':' *)
Definition sym_char (c : Z) : Prop := letter c \/ digit c \/ c = 95 \/ c = 58.
Definition symbol (s : list Z) : Prop := exists c r, s = c :: r /\ (letter c \/ c = 95) /\ Forall sym_char r.
(* a number starts with a digit; at most one of '.', 'x', 'X' among its hexadecimal digits *)
Definition ex (c : Z) : Prop := c = 120 \/ c = 88.
Definition num_char (c : Z) : Prop := hexdigit c \/ c = 46 \/ ex c.
Inductive number_kind : list Z -> ttype -> Prop :=
| nk_int : forall s, Forall hexdigit s -> number_kind s TOKEN_INT
| nk_float : forall a b, Forall hexdigit a -> Forall hexdigit b -> number_kind (a ++ 46 :: b) TOKEN_FLOAT
| nk_hex : forall a x b, Forall hexdigit a -> ex x -> Forall hexdigit b -> number_kind (a ++ x :: b) TOKEN_HEX_INT.
Definition number_text (s : list Z) (k : ttype) : Prop := (exists c r, s = c :: r /\ digit c) /\ number_kind s k.
(* what follows does not start with such a character: tokens are as long as they can be *)
Definition ends (P : Z -> Prop) (r : list Z) : Prop := match r with [] => True | c :: _ => ~ P c end.

(* how a text splits in tokens *)
Inductive lexes : list Z -> list token -> Prop :=
| lex_end : lexes [] []
| lex_space : forall c r ts, space c -> lexes r ts -> lexes (c :: r) ts
| lex_equals : forall r ts, lexes r ts -> lexes (61 :: r) (mk_token TOKEN_EQUALS [61] :: ts)
| lex_comma : forall r ts, lexes r ts -> lexes (44 :: r) (mk_token TOKEN_COMMA [44] :: ts)
| lex_string : forall s r ts, ~ In 34 s -> lexes r ts -> lexes (34 :: s ++ 34 :: r) (mk_token TOKEN_STRING s :: ts)
| lex_symbol : forall s r ts, symbol s -> ends sym_char r -> lexes r ts -> lexes (s ++ r) (mk_token TOKEN_SYMBOL s :: ts)
| lex_number : forall s k r ts, number_text s k -> ends num_char r -> lexes r ts -> lexes (s ++ r) (mk_token k s :: ts).

(* a definition: the attribute's name and what it is set to *)
Inductive value := NoValue | IntValue (s : list Z) | HexValue (s : list Z) | FloatValue (s : list Z)
| SymbolValue (s : list Z) | StringValue (s : list Z).
Notation def := (list Z * value)%type.
Definition value_tokens (v : value) : list token :=
  match v with
  | NoValue => []
  | IntValue s => [mk_token TOKEN_EQUALS [61]; mk_token TOKEN_INT s]
  | HexValue s => [mk_token TOKEN_EQUALS [61]; mk_token TOKEN_HEX_INT s]
  | FloatValue s => [mk_token TOKEN_EQUALS [61]; mk_token TOKEN_FLOAT s]
  | SymbolValue s => [mk_token TOKEN_EQUALS [61]; mk_token TOKEN_SYMBOL s]
  | StringValue s => [mk_token TOKEN_EQUALS [61]; mk_token TOKEN_STRING s]
  end.
Definition def_tokens (d : def) : list token := mk_token TOKEN_SYMBOL (fst d) :: value_tokens (snd d).
Definition next_is (k : ttype) (ts : list token) : Prop := match ts with [] => False | t :: _ => tk_type t = k end.
(* the tokens start with this definition *)
Definition starts_def (ts : list token) (d : def) (r : list token) : Prop :=
  ts = def_tokens d ++ r /\ (snd d = NoValue -> ~ next_is TOKEN_EQUALS r).
(* the definitions read from a token list: separated by commas, up to the first thing that is neither a
   definition nor a comma. Past: a comma is the last token, and a definition is looked for after it *)
Inductive ending := Fine | Past.
Inductive reads : list token -> list def -> ending -> Prop :=
| reads_past : reads [] [] Past
| reads_bad : forall ts, ts <> [] -> (forall d r, ~ starts_def ts d r) -> reads ts [] Fine
| reads_last : forall ts d r, starts_def ts d r -> ~ next_is TOKEN_COMMA r -> reads ts [d] Fine
| reads_more : forall ts d t r ds e, starts_def ts d (t :: r) -> tk_type t = TOKEN_COMMA -> reads r ds e -> reads ts (d :: ds) e.

(* a text longer than the buffer is cut *)
Definition seen (s : list Z) : list Z := firstn (Z.to_nat 1023) s.
(* the database knows this name *)
Definition named (m : zmap name) (s : list Z) (n : name) : Prop :=
  n = mk_name (hash32 (seen s) 0) (seen s) /\ m_find (n_hash n) m = Some n.
(* the attribute a definition stands for *)
Inductive means (sf : list Z -> Z) (m : zmap name) : def -> attr -> Prop :=
| mean_flag : forall s n, named m s n -> means sf m (s, NoValue) (FlagAttr n)
| mean_int : forall s t n ds r v, named m s n -> seen t = ds ++ r -> ends digit r -> dec_number ds = Some v ->
    means sf m (s, IntValue t) (IntAttr n v)
| mean_hex : forall s t n h v, named m s n -> seen t = str "0x" ++ h -> hex_number h = Some v ->
    means sf m (s, HexValue t) (IntAttr n (s32 v))
| mean_other_hex : forall s t n, named m s n -> (forall h, seen t <> str "0x" ++ h) ->
    means sf m (s, HexValue t) (IntAttr n 0)
| mean_float : forall s t n, named m s n -> means sf m (s, FloatValue t) (FloatAttr n (sf (seen t)))
| mean_symbol : forall s t n v, named m s n -> named m t v -> means sf m (s, SymbolValue t) (PrimAttr n v)
| mean_string : forall s t n, named m s n -> means sf m (s, StringValue t) (TextAttr n (seen t)).

(* the names a list of definitions uses *)
Definition def_names (d : def) : list (list Z) :=
  seen (fst d) :: match snd d with SymbolValue t => [seen t] | _ => [] end.
(* a name table: names are stored under the hash of their text *)
Definition name_table (m : zmap name) : Prop :=
  ssorted (keys m) /\ forall h nm, m_find h m = Some nm -> n_hash nm = h /\ hash32 (n_text nm) 0 = h /\ h <> 0.
Definition extends (m m' : zmap name) : Prop := forall h nm, m_find h m = Some nm -> m_find h m' = Some nm.
(* no hash is zero and no two texts share one *)
Definition no_clash (m : zmap name) (l : list (list Z)) : Prop :=
  (forall s, In s l -> hash32 s 0 <> 0 /\ forall nm, m_find (hash32 s 0) m = Some nm -> n_text nm = s) /\
  (forall s t, In s l -> In t l -> hash32 s 0 = hash32 t 0 -> s = t).
(* integers fit in an int, and 'X' is not the third character after a zero (it is then mistaken for the prefix) *)
Definition value_ok (v : value) : Prop :=
  match v with
  | IntValue t => exists ds r n, seen t = ds ++ r /\ ends digit r /\ dec_number ds = Some n /\ n < 2 ^ 31
  | HexValue t => forall a h, a <> 120 -> seen t <> 48 :: a :: 88 :: h
  | _ => True
  end.
Definition usable (m : zmap name) (ds : list def) : Prop :=
  no_clash m (flat_map def_names ds) /\ Forall (fun d => value_ok (snd d)) ds.

(* source text of a list of definitions, with any spaces and tabs between the tokens *)
Inductive value_text : value -> list Z -> Prop :=
| vt_int : forall t, number_text t TOKEN_INT -> value_text (IntValue t) t
| vt_hex : forall t, number_text t TOKEN_HEX_INT -> value_text (HexValue t) t
| vt_float : forall t, number_text t TOKEN_FLOAT -> value_text (FloatValue t) t
| vt_symbol : forall t, symbol t -> value_text (SymbolValue t) t
| vt_string : forall t, ~ In 34 t -> c_string t -> value_text (StringValue t) (34 :: t ++ [34]).
Inductive def_text : def -> list Z -> Prop :=
| dt_flag : forall s a, symbol s -> spaces a -> def_text (s, NoValue) (s ++ a)
| dt_value : forall s v t a b c, symbol s -> spaces a -> spaces b -> spaces c -> value_text v t ->
    def_text (s, v) (s ++ a ++ 61 :: b ++ t ++ c).
Inductive written : list def -> list Z -> Prop :=
| w_one : forall a d t, spaces a -> def_text d t -> written [d] (a ++ t)
| w_more : forall a d t ds r, spaces a -> def_text d t -> written ds r -> written (d :: ds) (a ++ t ++ 44 :: r).
