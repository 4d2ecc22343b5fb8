(* Reading function addresses out of the map of the MSVC linker: src/clReflectExport/MapFileParser.cpp:384-542, the 64-bit build.
   What is shared with the other compilers is in MapFileModel.v. The undecoration of names is the system's (DbgHelp) and a parameter.
   Texts are C strings without their terminator, files have no zero bytes; the file opens and the symbol handler starts (446-455).
   Log calls are left out. *)
From Verif Require Import Base Text HashModel Maps FileUtilsModel DatabaseModel MapFileModel.

(* ConsumeToken into a local array of size bytes; the rest of the text and the token *)
Definition take_token (text : list Z) (delimiter size : Z) : outcome (list Z * list Z) :=
  do x <- ConsumeToken text delimiter (repeat 0 (Z.to_nat size)) size;
  do t <- c_str (snd x);
  Ok (fst x, t).

(* MapFileParser.cpp:425-442 ParseAddressField: hextoi is the 32-bit reading, the flag behind the address must be f (102) *)
Definition ParseAddressField (line : list Z) : outcome Z :=
  do x <- take_token (SkipWhitespace line) 32 1024;
  match SkipWhitespace (fst x) with
  | c :: _ => if c =? 102 then Ok (hextoi (snd x)) else Ok 0
  | [] => Ok 0
  end.

(* MapFileParser.cpp:525-537: the load address, read once. sizeof counts the terminator, so that 27 characters are skipped from the front
   of the line, wherever the words are; if it has less, what follows its terminator in the buffer is read, which is undefined here *)
Definition load_words : list Z := str "Preferred load address is ".
Definition load_address (line : list Z) (base_address : Z) : outcome Z :=
  if (base_address =? 0) && has line load_words then
    if (length line <? 27)%nat then UB
    else do x <- take_token (skipn 27 line) 13 32; Ok (hextoi64 (snd x))
  else Ok base_address.

Section Msvc.
(* UnDecorateSymbolName with the flags of 406 and of 413-415 *)
Variables (undecorate_name undecorate_signature : list Z -> list Z).

(* MapFileParser.cpp:410-423 *)
Definition UndecorateFunctionSignature (token : list Z) : outcome (list Z) :=
  let s := undecorate_signature token in
  do s <- StringReplace (S (length s)) s (str "struct ") [];
  StringReplace (S (length s)) s (str "class ") [].

(* MapFileParser.cpp:470-515: what a symbol does, line being what follows it; None if the whole parse ends there (505-509) *)
Definition msvc_symbol (d : mapdb) (token line : list Z) : outcome (option mapdb) :=
  let function_name := undecorate_name token in
  if IsConstructFunction function_name then
    do s <- UndecorateFunctionSignature token; do a <- ParseAddressField line; do d <- AddClassImplFunction d s a true; Ok (Some d)
  else if IsDestructFunction function_name then
    do s <- UndecorateFunctionSignature token; do a <- ParseAddressField line; do d <- AddClassImplFunction d s a false; Ok (Some d)
  else if IsGetTypeFunction function_name then
    do a <- ParseAddressField line; do d <- AddGetTypeAddress d function_name a true; Ok (Some d)
  else if IsGetTypeNameHashFunction function_name then
    do a <- ParseAddressField line; do d <- AddGetTypeAddress d function_name a false; Ok (Some d)
  else
    do hash <- HashNameString (function_name ++ [0]) 0;
    match m_find hash (d_functions d) with
    | None => Ok (Some d)
    | Some _ =>
        do s <- UndecorateFunctionSignature token;
        do a <- ParseAddressField line;
        match string_find s function_name 0 with
        | None => Ok None
        | Some func_pos =>
            (* the text in front of the name is read as a parameter: its const is the one of what is returned *)
            do x <- MatchParameter d s (length s - func_pos);
            let '(returned, is_this_call, _, d) := x in
            do y <- AddFunctionAddress d function_name s a is_this_call (q_const (f_qual returned));
            Ok (Some (snd y))
        end
    end.
(* MapFileParser.cpp:464-468: the second word of the line is the symbol *)
Definition msvc_line (d : mapdb) (line : list Z) : outcome (option mapdb * list Z) :=
  do x <- take_token (SkipWhitespace line) 32 1024;
  do x <- take_token (SkipWhitespace (fst x)) 32 1024;
  do r <- msvc_symbol d (snd x) (fst x);
  Ok (r, fst x).

(* MapFileParser.cpp:457-538: the loop over the lines. The heading is found by its words; the line behind it is read into the same
   buffer, so that the load address is looked for there. Not modelled: with no complete line behind the heading, the load address is
   looked for once more in a buffer that an incomplete last line has partly overwritten *)
Fixpoint msvc_lines (ls : list (list Z)) (public_symbols : bool) (d : mapdb) (base_address : Z) : outcome (mapdb * Z) :=
  match ls with
  | [] => Ok (d, base_address)
  | line :: r =>
      if public_symbols then
        do x <- msvc_line d line;
        match x with
        | (None, _) => Ok (d, base_address)
        | (Some d, rest) => do b <- load_address rest base_address; msvc_lines r true d b
        end
      else if has line (str "  Address") then
        match r with
        | [] => Ok (d, base_address)
        | next :: r => do b <- load_address next base_address; msvc_lines r true d b
        end
      else do b <- load_address line base_address; msvc_lines r false d b
  end.
(* MapFileParser.cpp:444-541 and 885-893 *)
Definition ParseMSVCMapFile (file : list Z) (d : mapdb) : outcome (mapdb * Z) :=
  do ls <- ReadLines (S (length file)) file;
  msvc_lines ls false d 0.
End Msvc.
