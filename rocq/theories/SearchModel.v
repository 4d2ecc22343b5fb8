(* Run-time lookup by name hash: src/clReflectCpp/clcpp.cpp 118-178, 344-361,
   610-676. *)
From Verif Require Import Base HashModel.

(* clcpp.cpp:131-162 BinarySearch. The array is given by its size (CArray::size,
   unsigned) and the function reading the hash of entry i (GET_HASH_FUNC(entries[i]);
   CArray::operator[] takes an unsigned index and asserts it). first, last and mid
   are int: computing first + last outside int range is undefined behaviour. *)
Fixpoint bsearch_loop (fuel : nat) (get : Z -> outcome Z) (h first last : Z) : outcome Z :=
  match fuel with
  | O => Fuel
  | S n =>
      if first <=? last then
        if (first + last <? 2147483648) && (-2147483648 <=? first + last) then
          let mid := (first + last) ÷ 2 in
          do e <- get (u32 mid);
          if h >? e then bsearch_loop n get h (mid + 1) last
          else if h <? e then bsearch_loop n get h first (mid - 1)
          else Ok mid
        else UB
      else Ok (-1)
  end.

(* int last = entries.size - 1 : unsigned subtraction converted to int. *)
Definition BinarySearch (size : Z) (get : Z -> outcome Z) (h : Z) : outcome Z :=
  bsearch_loop 33 get h 0 (s32 (u32 (size - 1))).

(* clcpp.cpp:172-173 while (range.first > 0 && hash(entries[range.first-1]) == h) range.first-- *)
Fixpoint nb_down (fuel : nat) (get : Z -> outcome Z) (h first : Z) : outcome Z :=
  match fuel with
  | O => Fuel
  | S n =>
      if first >? 0 then
        do e <- get (first - 1);
        if e =? h then nb_down n get h (first - 1) else Ok first
      else Ok first
  end.

(* clcpp.cpp:174-175 while (range.last < entries.size && hash(entries[range.last]) == h) range.last++ *)
Fixpoint nb_up (fuel : nat) (size : Z) (get : Z -> outcome Z) (h last : Z) : outcome Z :=
  match fuel with
  | O => Fuel
  | S n =>
      if last <? size then
        do e <- get last;
        if e =? h then nb_up n size get h (u32 (last + 1)) else Ok last
      else Ok last
  end.

(* clcpp.cpp:164-178 SearchNeighbours; the result is Range{first,last} *)
Definition SearchNeighbours (size : Z) (get : Z -> outcome Z) (h index : Z) : outcome (Z * Z) :=
  do first <- nb_down (S (Z.to_nat size)) get h index;
  do last <- nb_up (S (Z.to_nat size)) size get h (u32 (index + 1));
  Ok (first, last).

(* Arrays of primitives (or names): an entry is its name hash and the rest of it. *)
Definition entry (A : Type) : Type := (Z * A)%type.

Definition get_hash {A} (l : list (entry A)) (i : Z) : outcome Z :=
  do e <- rdA l i; Ok (fst e).

(* clcpp.cpp:344-350 FindPrimitive; also GetType 633-636, GetNamespace 638-644,
   GetTemplate 651-657, GetFunction 659-665. None is the null pointer. *)
Definition FindPrimitive {A} (l : list (entry A)) (h : Z) : outcome (option (entry A)) :=
  do index <- BinarySearch (zlen l) (get_hash l) h;
  if index =? -1 then Ok None
  else do e <- rdA l (u32 index); Ok (Some e).

(* clcpp.cpp:352-361 FindOverloadedPrimitive; also GetOverloadedFunction 667-676.
   Range() is {0,0}. *)
Definition FindOverloadedPrimitive {A} (l : list (entry A)) (h : Z) : outcome (Z * Z) :=
  do index <- BinarySearch (zlen l) (get_hash l) h;
  if index =? -1 then Ok (0, 0)
  else SearchNeighbours (zlen l) (get_hash l) h index.

(* clcpp.cpp:619-631 Database::GetName(text). A null text pointer is None; the empty
   name Name() is None in the result. The text is zero-terminated memory. *)
Definition GetNameText {A} (names : list (entry A)) (text : option (list Z)) : outcome (option (entry A)) :=
  match text with
  | None => Ok None
  | Some t =>
      do hash <- HashNameString t 0;
      if hash =? 0 then Ok None else FindPrimitive names hash
  end.
