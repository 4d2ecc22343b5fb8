(* Function signatures as the demangler of GCC and clang writes them, and what to find in them. *)
From Verif Require Import Base Text HashSpec Maps DatabaseModel.

(* no closing bracket is directly followed by a digit; so it is in any C++ signature *)
Definition closers_ok (s : list Z) : Prop :=
  forall a c d b, s = a ++ c :: d :: b -> c = 41 \/ c = 62 -> ~ 48 <= d <= 57.

(* text without brackets *)
Definition flat (t : list Z) : Prop := ~ In 60 t /\ ~ In 62 t /\ ~ In 40 t.
(* text in which template argument lists nest but do not follow one another: A<B<int> > *)
Inductive nested : list Z -> Prop :=
| nested_flat : forall t, flat t -> nested t
| nested_list : forall a c b, flat a -> nested c -> flat b -> nested (a ++ str "<" ++ c ++ str ">" ++ b).
(* how often c occurs *)
Definition count (c : Z) (t : list Z) : nat := count_occ Z.eq_dec t c.

(* ---- parameters ---- *)
(* words the readers give a meaning of their own *)
Definition keywords : list (list Z) :=
  [str "const"; str "unsigned"; str "signed"; str "__thiscall"; str "__int64"; str "__cdecl"; str "__stdcall"; str "__fastcall"; str "struct"; str "class"; str "enum"].
(* a character inside a word: not a blank, a comma, a bracket, nor the terminator *)
Definition letter (c : Z) : Prop := 0 < c < 256 /\ ~ In c [32; 9; 44; 40; 41; 60; 62].
Definition is_word (w : list Z) : Prop := Forall letter w /\ ~ In w keywords /\ hd 0 w <> 38 /\ hd 0 w <> 42.
(* words, each followed by < or > *)
Definition brackets (ws : list (list Z * Z)) : list Z := concat (map (fun x => fst x ++ [snd x]) ws).
(* a parameter's type as the demangler writes it, without const and without blanks but for unsigned and signed:
   char, unsigned int, N::A*, Vec<Vec<int>>&. A * or & that follows a > comes alone *)
Inductive parameter : list Z -> Prop :=
| parameter_type : forall pre ws w,
    In pre [[]; str "unsigned "; str "signed "] -> Forall (fun x => is_word (fst x) /\ (snd x = 60 \/ snd x = 62)) ws -> is_word w ->
    hd 0 (brackets ws ++ w) <> 60 -> hd 0 (brackets ws ++ w) <> 62 -> brackets ws ++ w <> [] ->
    zlen (pre ++ brackets ws ++ w) < 1024 -> pre ++ brackets ws ++ w <> str "void" -> parameter (pre ++ brackets ws ++ w)
| parameter_indirect : forall pre ws c,
    In pre [[]; str "unsigned "; str "signed "] -> Forall (fun x => is_word (fst x) /\ (snd x = 60 \/ snd x = 62)) ws -> ws <> [] ->
    hd 0 (brackets ws) <> 60 -> hd 0 (brackets ws) <> 62 -> c = 42 \/ c = 38 ->
    zlen (pre ++ brackets ws ++ [c]) < 1024 -> parameter (pre ++ brackets ws ++ [c]).
(* the text that names the type itself, without the * or & that stands alone *)
Definition type_text (p t : list Z) : Prop := t = p \/ exists c, (c = 42 \/ c = 38) /\ p = t ++ [c].
(* the parameters as they are listed *)
Fixpoint listed (ps : list (list Z)) : list Z :=
  match ps with
  | [] => []
  | [p] => p
  | p :: r => p ++ str ", " ++ listed r
  end.
(* name(parameters), name(parameters) const *)
Definition signature (n : list Z) (ps : list (list Z)) (is_const : bool) : list Z :=
  n ++ str "(" ++ listed ps ++ str ")" ++ (if is_const then str " const" else []).
(* the parameter that stands for the object a member function is called on *)
Definition this_text (c : list Z) (is_const : bool) : list Z := (if is_const then str "const " else []) ++ c ++ str "*".
(* what tells overloads apart: the hashes of the parameters as written, chained *)
Definition id_of (ts : list (list Z)) : Z := fold_left (fun id t => hash32 (le_bytes 4 (hash32 t 0)) id) ts 0.

(* ---- databases ---- *)
(* texts that may be told apart by their hashes *)
Definition told_apart (texts : list (list Z)) : Prop :=
  (forall t, In t texts -> Forall (fun c => 0 < c < 256) t /\ zlen t < 2 ^ 31 /\ hash32 t 0 <> 0) /\
  (forall t u, In t texts -> In u texts -> hash32 t 0 = hash32 u 0 -> t = u).
(* a table of names filed under their hashes, all of them in texts *)
Definition names_of (texts : list (list Z)) (m : zmap name) : Prop :=
  ssorted (keys m) /\ forall h x, m_find h m = Some x -> x = mk_name (hash32 (n_text x) 0) (n_text x) /\ h = hash32 (n_text x) 0 /\ In (n_text x) texts.
Definition names_kept (m m' : zmap name) : Prop := forall h x, m_find h m = Some x -> m_find h m' = Some x.
(* a function filed under name hash h with id uid *)
Definition matches (h uid : Z) (e : Z * function) : Prop := fst e = h /\ fn_uid (snd e) = uid.
(* the first such function has been given the address, nothing else has changed *)
Definition addressed (h uid address : Z) (l l' : list (Z * function)) : Prop :=
  exists pre f post, l = pre ++ (h, f) :: post /\ fn_uid f = uid /\ l' = pre ++ (h, mk_func (fn_prim f) uid address) :: post /\ Forall (fun e => ~ matches h uid e) pre.
Definition unmatched (h uid : Z) (l : list (Z * function)) : Prop := Forall (fun e => ~ matches h uid e) l.

(* a new entry among the others *)
Definition added {T} (e : T) (l l' : list T) : Prop := exists pre post, l = pre ++ post /\ l' = pre ++ e :: post.
(* the type behind a pointer parameter: T* *)
Definition pointee (t : list Z) : Prop :=
  t <> [] /\ ~ In 42 t /\ ~ In 41 t /\ ~ In 40 t /\ hd 0 t <> 32 /\ last t 0 <> 32 /\
  (forall r, t <> str "struct " ++ r) /\ (forall r, t <> str "class " ++ r) /\ (forall r, t <> str "enum " ++ r).

(* carried out, or stopped by an assertion of the program: no undefined behaviour, and an end *)
Definition defined {A} (o : outcome A) : Prop := o <> UB /\ o <> Fuel.

(* a function whose signature is name(parameters) or name(parameters) const: the name is no template's and not one of
   the generated class functions; the types of the parameters are among texts *)
Definition plain_function (texts : list (list Z)) (n : list Z) (ps : list (list Z)) (is_const : bool) : Prop :=
  closers_ok (signature n ps is_const) /\ zlen (signature n ps is_const) < 3 * 10 ^ 8 /\
  (forall a b, signature n ps is_const <> a ++ str "anonymous namespace" ++ b) /\
  Forall (fun c => 0 < c < 256) n /\ n <> [] /\ ~ In 40 n /\ ~ In 60 n /\ ~ In 32 n /\ last n 0 <> 38 /\
  (forall r, n <> str "clcppConstructObject" ++ r) /\ (forall r, n <> str "clcppDestructObject" ++ r) /\
  Forall parameter ps /\ (forall p t, In p ps -> type_text p t -> In t texts).

(* ---- whole maps ---- *)
(* the function filed under name hash h with the first of these ids that any has gets the address *)
Inductive given (h address : Z) : list Z -> list (Z * function) -> list (Z * function) -> Prop :=
| given_none : forall l, given h address [] l l
| given_hit : forall u us l l', addressed h u address l l' -> given h address (u :: us) l l'
| given_next : forall u us l l', unmatched h u l -> given h address us l l' -> given h address (u :: us) l l'.
(* name hash, ids and address of one symbol after the other *)
Inductive all_given : list (Z * list Z * Z) -> list (Z * function) -> list (Z * function) -> Prop :=
| all_none : forall l, all_given [] l l
| all_more : forall h us a r l l1 l', given h a us l l1 -> all_given r l1 l' -> all_given ((h, us, a) :: r) l l'.
(* the ids a function may have in the database: a member function's, then a free or static function's *)
Inductive possible_ids (texts : list (list Z)) (ps : list (list Z)) (is_const : bool) : list Z -> list Z -> Prop :=
| ids_free : forall n, (forall a b, n <> a ++ str "::" ++ b) -> possible_ids texts ps is_const n [id_of ps]
| ids_scoped : forall c m, c <> [] -> ~ In 58 m -> zlen c < 1024 -> In c texts ->
    possible_ids texts ps is_const (c ++ str "::" ++ m) [id_of (this_text c is_const :: ps); id_of ps].
