(* The JSON lexer: src/clReflectUtil/JSONLexer.cpp, inc/clutl/JSONLexer.h. data holds the bytes of the
   ReadBuffer the context refers to (its own position is the context's jc_pos). Characters are kept as
   bytes 0..255: none of the comparisons made distinguishes them from plain char, signed or not. *)
From Verif Require Import Base.

(* inc/clutl/Serialise.h:116-128 JSONError::Code *)
Inductive jcode := E_NONE | E_END | E_HEX_DIGIT | E_DIGIT | E_CHARACTER | E_KEYWORD | E_ESCAPE | E_TOKEN.
Definition jcode_eqb (a b : jcode) : bool :=
  match a, b with
  | E_NONE, E_NONE | E_END, E_END | E_HEX_DIGIT, E_HEX_DIGIT | E_DIGIT, E_DIGIT | E_CHARACTER, E_CHARACTER
  | E_KEYWORD, E_KEYWORD | E_ESCAPE, E_ESCAPE | E_TOKEN, E_TOKEN => true
  | _, _ => false
  end.
(* Serialise.h:114-139 JSONError *)
Record jerr := mk_jerr { je_code : jcode; je_position : Z; je_line : Z; je_column : Z }.
Definition jerr_none : jerr := mk_jerr E_NONE 0 0 0.

(* JSONLexer.h:20-40 JSONTokenType *)
Inductive jtype := T_NONE | T_LBRACE | T_RBRACE | T_COMMA | T_COLON | T_LBRACKET | T_RBRACKET
| T_STRING | T_TRUE | T_FALSE | T_NULL | T_INTEGER | T_DECIMAL.
Definition jtype_eqb (a b : jtype) : bool :=
  match a, b with
  | T_NONE, T_NONE | T_LBRACE, T_LBRACE | T_RBRACE, T_RBRACE | T_COMMA, T_COMMA | T_COLON, T_COLON
  | T_LBRACKET, T_LBRACKET | T_RBRACKET, T_RBRACKET | T_STRING, T_STRING | T_TRUE, T_TRUE | T_FALSE, T_FALSE
  | T_NULL, T_NULL | T_INTEGER, T_INTEGER | T_DECIMAL, T_DECIMAL => true
  | _, _ => false
  end.
(* JSONLexer.h:43-75 JSONToken. jt_val is the union's 64 bits: for a string the offset of its first
   character in data, for an integer and a decimal the bits of the int64 or double. It is indeterminate,
   here 0, for the other tokens *)
Record jtok := mk_jtok { jt_type : jtype; jt_length : Z; jt_val : Z }.
Definition no_token : jtok := mk_jtok T_NONE 0 0.
(* JSONLexer.h:58-61 *)
Definition IsValid (t : jtok) : bool := negb (jtype_eqb (jt_type t) T_NONE).

(* JSONLexer.h:114-124 JSONContext; jc_stack is None when m_StackPosition is 0xFFFFFFFF *)
Record jctx := mk_jctx { jc_pos : Z; jc_err : jerr; jc_line : Z; jc_linepos : Z; jc_stack : option (Z * jtok) }.
(* JSONLexer.cpp:329-335, on a buffer read up to pos *)
Definition JSONContext (pos : Z) : jctx := mk_jctx pos jerr_none 1 0 None.

(* 378-387 SetError *)
Definition SetError (c : jctx) (code : jcode) : jctx :=
  if jcode_eqb (je_code (jc_err c)) E_NONE then
    mk_jctx (jc_pos c) (mk_jerr code (u32 (jc_pos c)) (jc_line c) (u32 (u32 (jc_pos c) - jc_linepos c)))
            (jc_line c) (jc_linepos c) (jc_stack c)
  else c.
(* 361-369 ReadOverflows: the test; the callers set the error *)
Definition overflows (data : list Z) (c : jctx) (size : Z) : bool := u32 (u32 (jc_pos c) + size) >=? u32 (zlen data).
(* 337-342 ConsumeChars: the context afterwards, through ReadBuffer::SeekRel (Serialise.cpp:137-141) *)
Definition ConsumeChars (data : list Z) (c : jctx) (size : Z) : outcome jctx :=
  do _ <- assert (jc_pos c + size <=? zlen data);
  Ok (mk_jctx (jc_pos c + size) (jc_err c) (jc_line c) (jc_linepos c) (jc_stack c)).
(* 345-348 *)
Definition ConsumeChar (data : list Z) (c : jctx) : outcome jctx := ConsumeChars data c 1.
(* 351-354 PeekChars: an offset in data, through ReadBuffer::ReadAt (Serialise.cpp:131-135) *)
Definition PeekChars (data : list Z) (c : jctx) : outcome Z :=
  do _ <- assert (u32 (jc_pos c) <=? zlen data); Ok (u32 (jc_pos c)).
(* 356-359 *)
Definition PeekChar (data : list Z) (c : jctx) : outcome Z := do p <- PeekChars data c; rd data p.
(* 372-375 *)
Definition Remaining (data : list Z) (c : jctx) : Z := u32 (zlen data - jc_pos c).
(* 389-394 *)
Definition IncLine (c : jctx) : jctx := mk_jctx (jc_pos c) (jc_err c) (u32 (jc_line c + 1)) (u32 (jc_pos c)) (jc_stack c).
(* 396-403 *)
Definition PushState (c : jctx) (t : jtok) : outcome jctx :=
  do _ <- assert (match jc_stack c with None => true | Some _ => false end);
  Ok (mk_jctx (jc_pos c) (jc_err c) (jc_line c) (jc_linepos c) (Some (u32 (jc_pos c), t))).
(* 405-418 PopState: the token and the context *)
Definition PopState (data : list Z) (c : jctx) : outcome (jtok * jctx) :=
  match jc_stack c with
  | None => Trap
  | Some (p, t) =>
      do c' <- ConsumeChars data c (- s32 (u32 (u32 (jc_pos c) - p)));
      Ok (t, mk_jctx (jc_pos c') (jc_err c') (jc_line c') (jc_linepos c') None)
  end.

(* 20-27 *)
Definition isdigit (c : Z) : bool := (48 <=? c) && (c <=? 57).
Definition ishexdigit (c : Z) : bool :=
  ((48 <=? c) && (c <=? 57)) || ((65 <=? c) && (c <=? 70)) || ((97 <=? c) && (c <=? 102)).

(* 30-52 Lexer32bitHexDigits *)
Definition Lexer32bitHexDigits (data : list Z) (c : jctx) : outcome (Z * jctx) :=
  do c <- ConsumeChar data c;
  if overflows data c 4 then Ok (0, SetError c E_END) else
  do p <- PeekChars data c;
  do d0 <- rd data p;
  do ok <- (if ishexdigit d0 then
              do d1 <- rd data (p + 1);
              if ishexdigit d1 then
                do d2 <- rd data (p + 2);
                if ishexdigit d2 then do d3 <- rd data (p + 3); Ok (ishexdigit d3) else Ok false
              else Ok false
            else Ok false);
  if ok : bool then do c <- ConsumeChars data c 4; Ok (4, c)
  else Ok (0, SetError c E_HEX_DIGIT).

(* 55-85 LexerEscapeSequence; quote, backslash, slash, b, n, f, r, t and u *)
Definition LexerEscapeSequence (data : list Z) (c : jctx) : outcome (Z * jctx) :=
  do c <- ConsumeChar data c;
  if overflows data c 0 then Ok (0, SetError c E_END) else
  do ch <- PeekChar data c;
  if (ch =? 34) || (ch =? 92) || (ch =? 47) || (ch =? 98) || (ch =? 110) || (ch =? 102) || (ch =? 114) || (ch =? 116) then
    do c <- ConsumeChar data c; Ok (1, c)
  else if ch =? 117 then
    do x <- Lexer32bitHexDigits data c; Ok (1 + fst x, snd x)
  else Ok (0, SetError c E_ESCAPE).

(* 98-126 the loop of LexerString; start and len are token.val.string and token.length *)
Fixpoint string_loop (fuel : nat) (data : list Z) (c : jctx) (start len : Z) : outcome (jtok * jctx) :=
  match fuel with
  | O => Fuel
  | S n =>
      if overflows data c 0 then Ok (no_token, SetError c E_END) else
      do ch <- PeekChar data c;
      if ch =? 34 then do c <- ConsumeChar data c; Ok (mk_jtok T_STRING len start, c)
      else if ch =? 92 then
        do x <- LexerEscapeSequence data c;
        if fst x =? 0 then Ok (no_token, snd x) else string_loop n data (snd x) start (len + 1 + fst x)
      else do c <- ConsumeChar data c; string_loop n data c start (len + 1)
  end.
(* 88-129 LexerString *)
Definition LexerString (data : list Z) (c : jctx) : outcome (jtok * jctx) :=
  do c <- ConsumeChar data c;
  do start <- PeekChars data c;
  string_loop (S (length data)) data c start 0.

(* 149-161 the loop of LexerInteger at a digit ch; the result is the value, None at an error *)
Fixpoint integer_loop (fuel : nat) (data : list Z) (c : jctx) (ch v : Z) : outcome (option Z * jctx) :=
  match fuel with
  | O => Fuel
  | S n =>
      do c <- ConsumeChar data c;
      let v := u64 (v * 10 + (ch - 48)) in
      if overflows data c 0 then Ok (None, SetError c E_END) else
      do ch <- PeekChar data c;
      if isdigit ch then integer_loop n data c ch v else Ok (Some v, c)
  end.
(* 135-164 LexerInteger *)
Definition LexerInteger (data : list Z) (c : jctx) : outcome (option Z * jctx) :=
  if overflows data c 0 then Ok (None, SetError c E_END) else
  do ch <- PeekChar data c;
  if negb (isdigit ch) then Ok (None, SetError c E_DIGIT)
  else integer_loop (S (length data)) data c ch 0.

(* 187-190 the value of a digit; c | 0x20 makes a letter lower case *)
Definition hex_digit_value (ch : Z) : Z := if ch <? 65 then ch - 48 else Z.lor ch 32 - 97 + 10.
(* 181-198 the loop of LexerHexInteger; type is token.type *)
Fixpoint hex_loop (fuel : nat) (data : list Z) (c : jctx) (type : jtype) (ch v : Z) : outcome (jtok * jctx) :=
  match fuel with
  | O => Fuel
  | S n =>
      do c <- ConsumeChar data c;
      let v := u64 (v * 16 + hex_digit_value ch) in
      if overflows data c 0 then Ok (no_token, SetError c E_END) else
      do ch <- PeekChar data c;
      if ishexdigit ch then hex_loop n data c type ch v else Ok (mk_jtok type 0 v, c)
  end.
(* 167-201 LexerHexInteger *)
Definition LexerHexInteger (data : list Z) (c : jctx) (type : jtype) : outcome (jtok * jctx) :=
  if overflows data c 0 then Ok (no_token, SetError c E_END) else
  do ch <- PeekChar data c;
  if negb (ishexdigit ch) then Ok (no_token, SetError c E_HEX_DIGIT)
  else hex_loop (S (length data)) data c type ch 0.

(* 204-222 VerifyDigits on the offsets decimal and stop; None is the null pointer *)
Fixpoint VerifyDigits (fuel : nat) (data : list Z) (decimal stop : Z) : outcome (option Z) :=
  match fuel with
  | O => Fuel
  | S n =>
      if decimal >=? stop then Ok None else
      do ch <- rd data decimal;
      if isdigit ch then VerifyDigits n data (decimal + 1) stop else Ok (Some decimal)
  end.
(* 246-252 the end of VerifyDecimal, at what follows e or E *)
Definition VerifyExponent (data : list Z) (c : jctx) (decimal stop : Z) : outcome (bool * jctx) :=
  do ch <- rd data decimal;
  let decimal := if (ch =? 45) || (ch =? 43) then decimal + 1 else decimal in
  do d <- VerifyDigits (S (length data)) data decimal stop;
  match d with None => Ok (false, SetError c E_END) | Some _ => Ok (true, c) end.
(* 225-253 VerifyDecimal *)
Definition VerifyDecimal (data : list Z) (c : jctx) (decimal len : Z) : outcome (bool * jctx) :=
  if len <? 2 then Ok (false, SetError c E_END) else
  let stop := decimal + len in
  do ch <- rd data decimal;
  if ch =? 46 then
    do d <- VerifyDigits (S (length data)) data (decimal + 1) stop;
    match d with
    | None => Ok (false, SetError c E_END)
    | Some d =>
        do e <- rd data d;
        if negb (e =? 101) && negb (e =? 69) then Ok (true, c) else VerifyExponent data c (d + 1) stop
    end
  else VerifyExponent data c (decimal + 1) stop.

(* strtod in the C locale on a text starting with an optional '-' and a digit: how many characters it
   takes. Only the decimal form occurs: a number whose second character is x does not get here. Looking
   at a byte past the end of the text is undefined *)
Fixpoint digits_span (text : list Z) : outcome Z :=
  match text with
  | [] => UB
  | ch :: r => if isdigit ch then do n <- digits_span r; Ok (1 + n) else Ok 0
  end.
Definition drop (n : Z) (l : list Z) : list Z := skipn (Z.to_nat n) l.
Definition exponent_span (text : list Z) : outcome Z :=
  do ch <- rd text 0;
  if (ch =? 101) || (ch =? 69) then
    do s <- rd text 1;
    let k := if (s =? 45) || (s =? 43) then 2 else 1 in
    do n <- digits_span (drop k text);
    if n =? 0 then Ok 0 else Ok (k + n)
  else Ok 0.
Definition strtod_span (text : list Z) : outcome Z :=
  do s <- rd text 0;
  let sign := if s =? 45 then 1 else 0 in
  do n <- digits_span (drop sign text);
  do p <- rd text (sign + n);
  if p =? 46 then
    do f <- digits_span (drop (sign + n + 1) text);
    do e <- exponent_span (drop (sign + n + 1 + f) text);
    Ok (sign + n + 1 + f + e)
  else
    do e <- exponent_span (drop (sign + n) text);
    Ok (sign + n + e).

(* 256-317 LexerNumber. sd gives the bits of the double strtod makes of the characters it takes *)
Definition LexerNumber (sd : list Z -> Z) (data : list Z) (c : jctx) : outcome (jtok * jctx) :=
  do number_start <- PeekChars data c;
  do ch <- PeekChar data c;
  if (ch =? 48) && overflows data c 1 then Ok (no_token, SetError c E_END) else
  do prefix <- (if ch =? 48 then do p <- PeekChars data c; do x <- rd data (p + 1); Ok x else Ok 0);
  if prefix =? 100 then do c <- ConsumeChars data c 2; LexerHexInteger data c T_DECIMAL
  else if prefix =? 120 then do c <- ConsumeChars data c 2; LexerHexInteger data c T_INTEGER
  else
  do c <- (if ch =? 45 then ConsumeChar data c else Ok c);
  do v <- LexerInteger data c;
  match fst v with
  | None => Ok (no_token, snd v)
  | Some uintval =>
      let c := snd v in
      let integer := if ch =? 45 then u64 (0 - uintval) else uintval in
      do decimal_start <- PeekChars data c;
      do e <- rd data decimal_start;
      if (e =? 46) || (e =? 101) || (e =? 69) then
        do ok <- VerifyDecimal data c decimal_start (Remaining data c);
        if fst ok : bool then
          do n <- strtod_span (drop number_start data);
          do c <- ConsumeChars data (snd ok) (number_start + n - decimal_start);
          Ok (mk_jtok T_DECIMAL 0 (sd (slice data number_start n)), c)
        else Ok (no_token, snd ok)
      else Ok (mk_jtok T_INTEGER 0 integer, c)
  end.

(* 325-340 the loop of LexerKeyword; keyword is what remains of it *)
Fixpoint keyword_loop (data : list Z) (c : jctx) (type : jtype) (len : Z) (keyword : list Z) : outcome (jtok * jctx) :=
  match keyword with
  | [] => Ok (mk_jtok type (len + 1) 0, c)
  | k :: r =>
      if overflows data c 0 then Ok (no_token, SetError c E_END) else
      do ch <- PeekChar data c;
      if k =? ch then do c <- ConsumeChar data c; keyword_loop data c type len r
      else Ok (no_token, SetError c E_KEYWORD)
  end.
(* 320-349 LexerKeyword *)
Definition LexerKeyword (data : list Z) (c : jctx) (type : jtype) (keyword : list Z) : outcome (jtok * jctx) :=
  do c <- ConsumeChar data c; keyword_loop data c type (zlen keyword) keyword.

(* 436-459 the structural characters *)
Definition structural (ch : Z) : option jtype :=
  if ch =? 123 then Some T_LBRACE else if ch =? 125 then Some T_RBRACE else if ch =? 44 then Some T_COMMA
  else if ch =? 91 then Some T_LBRACKET else if ch =? 93 then Some T_RBRACKET else if ch =? 58 then Some T_COLON else None.
(* 421-498 LexerNextToken; fuel bounds the jumps to start *)
Fixpoint next_token (fuel : nat) (sd : list Z -> Z) (data : list Z) (c : jctx) : outcome (jtok * jctx) :=
  match fuel with
  | O => Fuel
  | S n =>
      if overflows data c 0 then Ok (no_token, SetError c E_NONE) else
      do ch <- PeekChar data c;
      if ch =? 10 then do c <- ConsumeChar data (IncLine c); next_token n sd data c
      else if (ch =? 32) || (ch =? 9) || (ch =? 11) || (ch =? 12) || (ch =? 13) then
        do c <- ConsumeChar data c; next_token n sd data c
      else
      match structural ch with
      | Some type => do c <- ConsumeChar data c; Ok (mk_jtok type 1 0, c)
      | None =>
          if ch =? 34 then LexerString data c
          else if (ch =? 45) || isdigit ch then LexerNumber sd data c
          else if ch =? 116 then LexerKeyword data c T_TRUE [114; 117; 101]
          else if ch =? 102 then LexerKeyword data c T_FALSE [97; 108; 115; 101]
          else if ch =? 110 then LexerKeyword data c T_NULL [117; 108; 108]
          else Ok (no_token, SetError c E_CHARACTER)
      end
  end.
Definition LexerNextToken (sd : list Z -> Z) (data : list Z) (c : jctx) : outcome (jtok * jctx) :=
  next_token (S (length data)) sd data c.

(* a client asking for tokens until an invalid one: the tokens before it *)
Fixpoint lex_all (fuel : nat) (sd : list Z -> Z) (data : list Z) (c : jctx) : outcome (list jtok * jctx) :=
  match fuel with
  | O => Fuel
  | S n =>
      do x <- LexerNextToken sd data c;
      if IsValid (fst x) then do r <- lex_all n sd data (snd x); Ok (fst x :: fst r, snd r)
      else Ok ([], snd x)
  end.
