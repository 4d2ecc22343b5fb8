(* Symbols as the MSVC linker and DbgHelp write them, and what is stored for them. *)
From Verif Require Import Base Text Maps FileUtilsSpec DatabaseModel MapFileModel MapFileSpec.

(* a type: unsigned or not, a name, const or not, and * or & if any *)
Record ctype := mk_ctype { c_unsigned : bool; c_word : list Z; c_const : bool; c_op : option Z }.
Definition type_name (t : ctype) : list Z := (if c_unsigned t then str "unsigned " else []) ++ c_word t.
(* written by DbgHelp: unsigned int, N::A const *, N::A & *)
Definition written (t : ctype) : list Z := type_name t ++ (if c_const t then str " const" else []) ++ match c_op t with Some c => [32; c] | None => [] end.
(* spelled in the database: unsigned int, const N::A*, N::A& *)
Definition in_database (t : ctype) : list Z := (if c_const t then str "const " else []) ++ type_name t ++ match c_op t with Some c => [c] | None => [] end.
(* types that can be returned: the name is one word of moderate length among texts *)
Definition usual (texts : list (list Z)) (t : ctype) : Prop :=
  is_word (c_word t) /\ c_word t <> [] /\ zlen (c_word t) < 1000 /\ In (type_name t) texts /\ (c_op t = None \/ c_op t = Some 42 \/ c_op t = Some 38).
(* types of parameters: all but void *)
Definition usual_parameter (texts : list (list Z)) (t : ctype) : Prop := usual texts t /\ (c_op t = None -> type_name t <> str "void").
(* parameters as DbgHelp lists them *)
Fixpoint comma_listed (ps : list ctype) : list Z :=
  match ps with
  | [] => []
  | [p] => written p
  | p :: r => written p ++ 44 :: comma_listed r
  end.
Definition parameters_of (ps : list ctype) : list Z := match ps with [] => str "void" | _ => comma_listed ps end.
(* int __cdecl N::f(int,N::A const &) and what may follow *)
Definition full_signature (ret : ctype) (convention n : list Z) (ps : list ctype) (tail : list Z) : list Z :=
  (written ret ++ 32 :: convention ++ [32]) ++ n ++ 40 :: parameters_of ps ++ 41 :: tail.
(* how free and static functions are called *)
Definition free_conventions : list (list Z) := [str "__cdecl"; str "__stdcall"; str "__fastcall"].
(* what DbgHelp gave without the words struct and class *)
Definition without_class_words (s s' : list Z) : Prop := exists m, replaced (str "struct ") [] s m /\ replaced (str "class ") [] m s'.

(* a line of the public symbols: blanks segment blanks symbol blanks address blanks f ... *)
Definition blanks (s : list Z) : Prop := s <> [] /\ Forall (fun c => c = 32) s.
Definition word_of_line (w : list Z) : Prop := w <> [] /\ Forall (fun c => 0 < c < 256 /\ c <> 32 /\ c <> 9) w /\ zlen w < 1024.
Inductive symbol_row : list Z -> list Z -> Z -> Prop :=
| a_symbol_row : forall b0 segment b1 symbol b2 hex b3 more v, Forall (fun c => c = 32) b0 -> blanks b1 -> blanks b2 -> blanks b3 ->
    word_of_line segment -> word_of_line symbol -> word_of_line hex -> hex_number hex = Some v ->
    symbol_row (b0 ++ segment ++ b1 ++ symbol ++ b2 ++ hex ++ b3 ++ 102 :: more) symbol v.

(* names of functions that are no templates and not among those generated for classes *)
Definition plain_name (n : list Z) : Prop :=
  Forall letter n /\ n <> [] /\ zlen n < 2 ^ 31 /\ (forall r, n <> str "clcppConstructObject" ++ r) /\ (forall r, n <> str "clcppDestructObject" ++ r).
(* symbol stands for the function of name n that is filed under this id. name_of and signature_of are DbgHelp's, the name is not found
   earlier in the signature than where it stands. The object of a member function is taken to be const if the return type is *)
Inductive msvc_function (name_of signature_of : list Z -> list Z) (texts : list (list Z)) (symbol : list Z) : list Z -> Z -> Prop :=
| msvc_free : forall ret convention n ps tail, name_of symbol = n -> plain_name n -> usual texts ret -> Forall (usual_parameter texts) ps ->
    without_class_words (signature_of symbol) (full_signature ret convention n ps tail) ->
    (forall a b, full_signature ret convention n ps tail = a ++ n ++ b -> (length (written ret ++ 32%Z :: convention ++ [32%Z]) <= length a)%nat) ->
    In convention free_conventions ->
    msvc_function name_of signature_of texts symbol n (id_of (map in_database ps))
| msvc_member : forall ret c m n ps tail, n = c ++ str "::" ++ m -> name_of symbol = n -> plain_name n -> usual texts ret -> Forall (usual_parameter texts) ps ->
    without_class_words (signature_of symbol) (full_signature ret (str "__thiscall") n ps tail) ->
    (forall a b, full_signature ret (str "__thiscall") n ps tail = a ++ n ++ b -> (length (written ret ++ 32%Z :: str "__thiscall" ++ [32%Z]) <= length a)%nat) ->
    ~ In 58 m -> zlen c < 1024 -> In c texts ->
    msvc_function name_of signature_of texts symbol n (id_of (this_text c (c_const ret) :: map in_database ps)).

(* ---- whole maps ---- *)
(* lines in front of the public symbols that say nothing *)
Definition no_heading (l : list Z) : Prop := forall x y, l <> x ++ str "  Address" ++ y.
Definition no_base (l : list Z) : Prop := forall x y, l <> x ++ str "Preferred load address is " ++ y.
Definition silent (l : list Z) : Prop := no_base l /\ no_heading l.
(* the line that gives the load address: one character, the words, the number and the end of the line *)
Inductive base_line : list Z -> Z -> Prop :=
| a_base_line : forall c hex rest v, hex_number hex = Some v -> zlen hex < 32 -> (forall x r, rest = x :: r -> x = 13) ->
    no_heading (c :: str "Preferred load address is " ++ hex ++ rest) -> base_line (c :: str "Preferred load address is " ++ hex ++ rest) v.
(* functions have only been given addresses of 32 bits, or added with one *)
Definition functions_kept (d d' : mapdb) : Prop :=
  (forall h f, In (h, f) (d_functions d') -> In (h, f) (d_functions d) \/ 0 < fn_address f < 2 ^ 32) /\
  (forall h f, In (h, f) (d_functions d) -> exists a, In (h, mk_func (fn_prim f) (fn_uid f) a) (d_functions d')) /\
  incl (d_fields d) (d_fields d').
(* the tables that hold addresses are as before *)
Definition addresses_same (d d' : mapdb) : Prop := d_functions d' = d_functions d /\ d_fields d' = d_fields d /\ d_gettype d' = d_gettype d.
