(* Attributes written in the client's code: src/clReflectScan/AttributeParser.cpp. Text is memory from
   a char pointer on. isalpha, isdigit, isalnum and isxdigit are those of the C locale, which also
   answer no for the characters above 127. Log messages are not modelled. sscanf("%f") is the parameter
   sf, from text to the bits of a float. *)
From Verif Require Import Base Text HashModel Maps DatabaseModel FileUtilsModel TextDbModel.

Definition is_digit (c : Z) : bool := (48 <=? c) && (c <=? 57).
Definition is_alpha (c : Z) : bool := ((65 <=? c) && (c <=? 90)) || ((97 <=? c) && (c <=? 122)).
Definition is_alnum (c : Z) : bool := is_alpha c || is_digit c.
Definition is_xdigit (c : Z) : bool := is_digit c || ((65 <=? c) && (c <=? 70)) || ((97 <=? c) && (c <=? 102)).

(* AttributeParser.cpp:26-36 TokenType (TOKEN_NONE is never given to a token) *)
Inductive ttype := TOKEN_EQUALS | TOKEN_COMMA | TOKEN_INT | TOKEN_HEX_INT | TOKEN_FLOAT | TOKEN_SYMBOL | TOKEN_STRING.
Definition ttype_eqb (a b : ttype) : bool :=
  match a, b with
  | TOKEN_EQUALS, TOKEN_EQUALS | TOKEN_COMMA, TOKEN_COMMA | TOKEN_INT, TOKEN_INT | TOKEN_HEX_INT, TOKEN_HEX_INT
  | TOKEN_FLOAT, TOKEN_FLOAT | TOKEN_SYMBOL, TOKEN_SYMBOL | TOKEN_STRING, TOKEN_STRING => true
  | _, _ => false
  end.
(* 38-67 Token: pointer and length are replaced by the characters they denote *)
Record token := mk_token { tk_type : ttype; tk_text : list Z }.
(* 54-62 GetText: the static buffer has room for 1023 characters *)
Definition GetText (t : token) : list Z := firstn (Z.to_nat 1023) (tk_text t).

(* 72-87 the loop of ParseString, after the opening quote; acc is what precedes, reversed. The result
   is the string and what follows the closing quote, None at an error *)
Fixpoint ParseString (text acc : list Z) : outcome (option (token * list Z)) :=
  match text with
  | [] => UB
  | c :: r =>
      if c =? 0 then Ok None
      else if c =? 34 then Ok (Some (mk_token TOKEN_STRING (rev acc), r))
      else ParseString r (c :: acc)
  end.
(* 89-101 ParseSymbol *)
Fixpoint ParseSymbol (text acc : list Z) : outcome (option (token * list Z)) :=
  match text with
  | [] => UB
  | c :: r =>
      if negb (c =? 0) && (is_alnum c || (c =? 95) || (c =? 58)) then ParseSymbol r (c :: acc)
      else Ok (Some (mk_token TOKEN_SYMBOL (rev acc), text))
  end.
(* 103-135 ParseNumber *)
Fixpoint ParseNumber (type : ttype) (text acc : list Z) : outcome (option (token * list Z)) :=
  match text with
  | [] => UB
  | c :: r =>
      if negb (c =? 0) && (is_xdigit c || (c =? 46) || (c =? 120) || (c =? 88)) then
        if (c =? 46) || (c =? 120) || (c =? 88) then
          if negb (ttype_eqb type TOKEN_INT) then Ok None
          else ParseNumber (if c =? 46 then TOKEN_FLOAT else TOKEN_HEX_INT) r (c :: acc)
        else ParseNumber type r (c :: acc)
      else Ok (Some (mk_token type (rev acc), text))
  end.
(* 137-202 Lexer; tokens are collected in reverse. An error clears them *)
Fixpoint lexer_loop (fuel : nat) (text : list Z) (tokens : list token) : outcome (list token) :=
  match fuel with
  | O => Fuel
  | S n =>
      match text with
      | [] => UB
      | c :: r =>
          if c =? 0 then Ok (rev tokens)
          else if c =? 61 then lexer_loop n r (mk_token TOKEN_EQUALS [c] :: tokens)
          else if c =? 44 then lexer_loop n r (mk_token TOKEN_COMMA [c] :: tokens)
          else if (c =? 32) || (c =? 9) then lexer_loop n r tokens
          else
            do x <- (if c =? 34 then ParseString r []
                     else if c =? 95 then ParseSymbol text []
                     else if is_alpha c then ParseSymbol text []
                     else if is_digit c then ParseNumber TOKEN_INT text []
                     else Ok None);
            match x with
            | None => Ok []
            | Some (t, r') => lexer_loop n r' (t :: tokens)
            end
      end
  end.
Definition Lexer (text : list Z) : outcome (list token) := lexer_loop (S (length text)) text [].

(* 204-211 ExpectNext: no check that there is a token *)
Definition ExpectNext (tokens : list token) (pos : Z) (type : ttype) : outcome (option token * Z) :=
  do t <- rd tokens pos;
  if ttype_eqb (tk_type t) type then Ok (Some t, pos + 1) else Ok (None, pos).
(* 213-228 CheckNext *)
Definition CheckNext (tokens : list token) (pos : Z) (type : ttype) : outcome (option token * Z) :=
  if zlen tokens <=? pos then Ok (None, pos) else
  do t <- rd tokens pos;
  if ttype_eqb (tk_type t) type then Ok (Some t, pos + 1) else Ok (None, pos).

(* the attributes made; their parent is the empty name *)
Inductive attr :=
| FlagAttr (n : name) | IntAttr (n : name) (v : Z) | FloatAttr (n : name) (v : Z)
| PrimAttr (n v : name) | TextAttr (n : name) (v : list Z).

(* 250-251: text is the zero-terminated buffer of GetText. Finding: text[2] instead of text[1] *)
Definition hex_value (text : list Z) : outcome Z :=
  let buf := text ++ [0] in
  do c0 <- rd buf 0;
  if c0 =? 48 then
    do c1 <- rd buf 1;
    do ok <- (if c1 =? 120 then Ok true else do c2 <- rd buf 2; Ok (c2 =? 88));
    if ok then Ok (s32 (hextoi (skipn 2 text))) else Ok 0
  else Ok 0.
(* 233-274 the six functions that add an attribute *)
Definition AddAttribute (sf : list Z -> Z) (names : zmap name) (attribute_name : token) (val : option token)
  : outcome (option (attr * zmap name)) :=
  match val with
  | None => do n <- GetName names (Some (GetText attribute_name)); Ok (Some (FlagAttr (fst n), snd n))
  | Some t =>
      match tk_type t with
      | TOKEN_INT =>
          do v <- atoi (GetText t);
          do n <- GetName names (Some (GetText attribute_name)); Ok (Some (IntAttr (fst n) v, snd n))
      | TOKEN_HEX_INT =>
          do v <- hex_value (GetText t);
          do n <- GetName names (Some (GetText attribute_name)); Ok (Some (IntAttr (fst n) v, snd n))
      | TOKEN_FLOAT =>
          do n <- GetName names (Some (GetText attribute_name)); Ok (Some (FloatAttr (fst n) (sf (GetText t)), snd n))
      | TOKEN_SYMBOL =>
          do n <- GetName names (Some (GetText attribute_name));
          do v <- GetName (snd n) (Some (GetText t)); Ok (Some (PrimAttr (fst n) (fst v), snd v))
      | TOKEN_STRING =>
          do n <- GetName names (Some (GetText attribute_name)); Ok (Some (TextAttr (fst n) (GetText t), snd n))
      | TOKEN_EQUALS | TOKEN_COMMA => Ok None
      end
  end.
(* 276-327 AttributeDef: None when it returns false; else the attribute, the position and the names *)
Definition AttributeDef (sf : list Z -> Z) (names : zmap name) (tokens : list token) (pos : Z)
  : outcome (option (attr * zmap name * Z)) :=
  do x <- ExpectNext tokens pos TOKEN_SYMBOL;
  match fst x with
  | None => Ok None
  | Some attribute_name =>
      do y <- CheckNext tokens (snd x) TOKEN_EQUALS;
      match fst y with
      | Some _ =>
          if zlen tokens <=? snd y then Ok None else
          do val <- rd tokens (snd y);
          do a <- AddAttribute sf names attribute_name (Some val);
          match a with None => Ok None | Some p => Ok (Some (p, snd y + 1)) end
      | None =>
          do a <- AddAttribute sf names attribute_name None;
          match a with None => Ok None | Some p => Ok (Some (p, snd y)) end
      end
  end.
(* 346-353 the loop of Parser, at the start of a definition *)
Fixpoint parser_loop (fuel : nat) (sf : list Z -> Z) (names : zmap name) (tokens : list token) (pos : Z)
  : outcome (list attr * zmap name) :=
  match fuel with
  | O => Fuel
  | S n =>
      do d <- AttributeDef sf names tokens pos;
      match d with
      | None => Ok ([], names)
      | Some (a, names', pos') =>
          if pos' <? zlen tokens then
            do t <- rd tokens pos';
            if ttype_eqb (tk_type t) TOKEN_COMMA then
              do r <- parser_loop n sf names' tokens (pos' + 1);
              Ok (a :: fst r, snd r)
            else Ok ([a], names')
          else Ok ([a], names')
      end
  end.
(* 329-356 Parser *)
Definition Parser (sf : list Z -> Z) (names : zmap name) (tokens : list token) : outcome (list attr * zmap name) :=
  match tokens with
  | [] => Ok ([], names)
  | _ => parser_loop (S (length tokens)) sf names tokens 0
  end.
(* 359-367 ParseAttributes: the attributes and the database's names afterwards *)
Definition ParseAttributes (sf : list Z -> Z) (names : zmap name) (text : list Z) : outcome (list attr * zmap name) :=
  do tokens <- Lexer text; Parser sf names tokens.
