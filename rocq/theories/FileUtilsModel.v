(* src/clReflectCore/FileUtils.cpp *)
From Verif Require Import Base Text.

(* FileUtils.cpp:16-44 ReadLine. The file is the list of bytes left; the result is
   the bytes put in the static buffer (null at end of file) and what is left. *)
Fixpoint read_line (f acc : list Z) : option (list Z) * list Z :=
  match f with
  | [] => (None, [])
  | c :: r =>
      if c =? 10 then (Some (rev acc), r)
      else read_line r (if zlen acc <? 4096 - 1 then c :: acc else acc)
  end.
Definition ReadLine (f : list Z) : option (list Z) * list Z := read_line f [].
(* the callers' loop: while (line = ReadLine(fp)) *)
Fixpoint ReadLines (fuel : nat) (f : list Z) : outcome (list (list Z)) :=
  match fuel with
  | O => Fuel
  | S n => match ReadLine f with
           | (None, _) => Ok []
           | (Some l, r) => do ls <- ReadLines n r; Ok (l :: ls)
           end
  end.

(* printf "%u": decimal digits, most significant first (C library, trusted) *)
Fixpoint dec_loop (fuel : nat) (v : Z) (acc : list Z) : list Z :=
  match fuel with
  | O => acc
  | S n => let acc' := (48 + v mod 10) :: acc in
           if v / 10 =? 0 then acc' else dec_loop n (v / 10) acc'
  end.
Definition fmt_u (v : Z) : list Z := dec_loop 20 v [].
(* FileUtils.cpp:47-57 itoa, the non-MSVC branch: snprintf(text, 10, ...) keeps nine characters *)
Definition itoa (v : Z) : list Z := firstn 9 (fmt_u v).

Definition hex_digits : list Z := str "0123456789abcdef".
(* FileUtils.cpp:69-75: the do-while; text is the static buffer, tptr an index into it *)
Fixpoint hex_loop (fuel : nat) (text : list Z) (tptr value : Z) : outcome (list Z * Z) :=
  match fuel with
  | O => Fuel
  | S n =>
      do d <- rd hex_digits (Z.land value 15);
      do text' <- wr text (tptr - 1) d;
      if value / 16 =? 0 then Ok (text', tptr - 1)
      else hex_loop n text' (tptr - 1) (value / 16)
  end.
(* FileUtils.cpp:77-81 *)
Fixpoint pad_loop (fuel : nat) (text : list Z) (tptr : Z) : outcome (list Z * Z) :=
  match fuel with
  | O => Fuel
  | S n => if tptr =? 0 then Ok (text, tptr)
           else do text' <- wr text (tptr - 1) 48; pad_loop n text' (tptr - 1)
  end.
(* FileUtils.cpp:60-84; old is what the static buffer held before; the result is the C
   string at the returned pointer *)
Definition itohex (old : list Z) (value : Z) : outcome (list Z) :=
  do t0 <- wr old (9 - 1) 0;
  do a <- hex_loop 9 t0 (9 - 1) value;
  do b <- pad_loop 10 (fst a) (snd a);
  c_str (skipn (Z.to_nat (snd b)) (fst b)).

(* tolower in the C locale on a plain char *)
Definition s8 (c : Z) : Z := (c + 128) mod 256 - 128.
Definition to_lower (c : Z) : Z := if (65 <=? c) && (c <=? 90) then c + 32 else c.
(* FileUtils.cpp:92-97 *)
Definition hex_char (c : Z) : Z :=
  let ch := to_lower (s8 c) in
  if 97 <=? ch then ch - 97 + 10 else ch - 48.
(* FileUtils.cpp:87-100 *)
Definition hextoi (s : list Z) : Z := fold_left (fun val c => u32 (u32 (val * 16) + hex_char c)) s 0.
(* FileUtils.cpp:103-116 *)
Definition hextoi64 (s : list Z) : Z := fold_left (fun val c => u64 (u64 (val * 16) + hex_char c)) s 0.

(* strstr / std::string::find: first position at or after i where pat occurs *)
Fixpoint find_from (s pat : list Z) (pos : nat) : option nat :=
  if is_prefix pat s then Some pos
  else match s with [] => None | _ :: r => find_from r pat (S pos) end.
Definition string_find (s pat : list Z) (i : nat) : option nat :=
  if (length s <? i)%nat then None else find_from (skipn i s) pat i.
(* FileUtils.cpp:119-122 *)
Definition startswith (text cmp : list Z) : bool :=
  match string_find text cmp 0 with Some 0%nat => true | _ => false end.

(* FileUtils.cpp:131-136 *)
Fixpoint SkipWhitespace (text : list Z) : list Z :=
  match text with
  | c :: r => if (c =? 32) || (c =? 9) then SkipWhitespace r else text
  | [] => []
  end.

(* FileUtils.cpp:139-148; dest is the caller's array, d the index being written *)
Fixpoint consume_loop (text : list Z) (delimiter : Z) (dest : list Z) (d dest_size : Z)
  : outcome (list Z * list Z * Z) :=
  match text with
  | [] => Ok ([], dest, d)
  | c :: r =>
      if negb (c =? delimiter) && negb (d =? dest_size)
      then do dest' <- wr dest d c; consume_loop r delimiter dest' (d + 1) dest_size
      else Ok (text, dest, d)
  end.
Definition ConsumeToken (text : list Z) (delimiter : Z) (dest : list Z) (dest_size : Z)
  : outcome (list Z * list Z) :=
  do x <- consume_loop text delimiter dest 0 dest_size;
  do dest' <- wr (snd (fst x)) (snd x) 0;
  Ok (fst (fst x), dest').

(* FileUtils.cpp:151-160 *)
Fixpoint replace_loop (fuel : nat) (res pat rep : list Z) (i : nat) : outcome (list Z) :=
  match fuel with
  | O => Fuel
  | S n =>
      match string_find res pat i with
      | None => Ok res
      | Some j =>
          replace_loop n (firstn j res ++ rep ++ skipn (j + length pat) res) pat rep (j + length rep)
      end
  end.
Definition StringReplace (fuel : nat) (s pat rep : list Z) : outcome (list Z) := replace_loop fuel s pat rep 0.
