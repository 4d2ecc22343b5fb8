(* What generated C++ source says, independently of how it is written. *)
From Coq Require Import Permutation.
From Verif Require Import Base Text Maps HashModel FileUtilsSpec JsonNumSpec DatabaseModel.

(* ---- reading source text ---- *)
(* its lines, each ended by a carriage return and a line feed *)
Inductive crlf_lines : list Z -> list (list Z) -> Prop :=
| crlf_nil : crlf_lines [] []
| crlf_cons : forall l r ls, ~ In 10 l -> crlf_lines r ls -> crlf_lines (l ++ [13; 10] ++ r) (l :: ls).
(* a line without its indentation *)
Fixpoint unindented (l : list Z) : list Z := match l with 9 :: r => unindented r | _ => l end.
(* a line of code: what encloses it, outermost first, each enclosing block named by the line before its opening brace; whether it
   is for the Microsoft compiler only; its text *)
Record item := mk_item { it_in : list (list Z); it_msvc : bool; it_text : list Z }.
Fixpoint read (ls : list (list Z)) (enclosing : list (list Z)) (previous : list Z) (msvc : bool) : option (list item) :=
  match ls with
  | [] => match enclosing, msvc with [], false => Some [] | _, _ => None end
  | l :: r =>
      let t := unindented l in
      if list_eqb t (str "{") then read r (enclosing ++ [previous]) [] msvc
      else if list_eqb t (str "}") then match enclosing with [] => None | _ => read r (removelast enclosing) [] msvc end
      else if list_eqb t (str "#if defined(CLCPP_USING_MSVC)") then if msvc then None else read r enclosing [] true
      else if list_eqb t (str "#endif") then if msvc then read r enclosing [] false else None
      else match read r enclosing t msvc with
           | Some its => Some (mk_item enclosing msvc t :: its)
           | None => None
           end
  end.
(* a file that is a list of lines of code, its blocks closed *)
Definition source (file : list Z) (its : list item) : Prop :=
  exists ls, crlf_lines file ls /\ read ls [] [] false = Some its.

(* ---- the types given a slot, in order: classes, enums, native types, leaving out those nested in classes ---- *)
Record entry := mk_entry { en_name : list Z; en_hash : Z; en_plain_enum : bool }.
Definition namespaces (db : database) : list prim := map snd (m_namespaces db).
Definition is_namespace (db : database) (h : Z) : bool := (h =? 0) || existsb (fun ns => n_hash (p_name ns) =? h) (namespaces db).
(* a name as seen from anywhere: clcpp types do not hide it *)
Definition global_name (p : prim) : list Z := if n_hash (p_parent p) =? 0 then str "::" ++ n_text (p_name p) else n_text (p_name p).
Definition in_namespace (db : database) (p : prim) : bool := is_namespace db (n_hash (p_parent p)).
Definition entries (db : database) : list entry :=
  map (fun c => mk_entry (global_name (c_prim c)) (n_hash (p_name (c_prim c))) false) (filter (fun c => in_namespace db (c_prim c)) (map snd (m_classes db))) ++
  map (fun e => mk_entry (global_name (e_prim e)) (n_hash (p_name (e_prim e))) (e_scoped e =? 0)) (filter (fun e => in_namespace db (e_prim e)) (map snd (m_enums db))) ++
  map (fun t => mk_entry (n_text (p_name (t_prim t))) (n_hash (p_name (t_prim t))) false) (map snd (m_types db)).
Fixpoint numbered {A} (i : Z) (l : list A) : list (Z * A) := match l with [] => [] | a :: r => (i, a) :: numbered (i + 1) r end.

(* code in terms of a number and a hash *)
Definition is_code (enclosing : list (list Z)) (msvc : bool) (a : list Z) (v : Z) (number : Z -> list Z -> Prop) (b : list Z) (it : item) : Prop :=
  exists t, number v t /\ it = mk_item enclosing msvc (a ++ t ++ b).
Definition init_block : list (list Z) := [str "void clcppInitGetType(const clcpp::Database* db)"; str "if (db != 0)"].
(* the slot is filled with the type of that name *)
Definition fills_slot (ie : Z * entry) (it : item) : Prop :=
  exists d, decimal_text (fst ie) d /\
  is_code init_block false (str "clcppTypePtrs[" ++ d ++ str "] = db->GetType(0x") (en_hash (snd ie)) hex_text (str ");") it.
(* GetType is the slot and GetTypeNameHash the hash of the name *)
Inductive specialises (msvc : bool) : list (Z * entry) -> list item -> Prop :=
| sp_nil : specialises msvc [] []
| sp_cons : forall i e l a b its,
    is_code [str "namespace clcpp"] msvc (str "template <> const Type* GetType< " ++ en_name e ++ str " >() { return clcppTypePtrs[") i decimal_text (str "]; }") a ->
    is_code [str "namespace clcpp"] msvc (str "template <> unsigned int GetTypeNameHash< " ++ en_name e ++ str " >() { return 0x") (en_hash e) hex_text (str "; }") b ->
    specialises msvc l its -> specialises msvc ((i, e) :: l) (a :: b :: its).
Definition constexpr_hash (msvc : bool) (e : entry) (it : item) : Prop :=
  is_code [] msvc (str "template <> constexpr unsigned int clcppTypeHash< " ++ en_name e ++ str " >() { return 0x") (en_hash e) hex_text (str "; }") it.
Definition plain_enum (ie : Z * entry) : bool := en_plain_enum (snd ie).
Definition other_than_plain_enum (ie : Z * entry) : bool := negb (en_plain_enum (snd ie)).

(* ---- forward declarations ---- *)
(* the last part of a name *)
Definition has_scope_operator (s : list Z) : Prop := exists a b, s = a ++ str "::" ++ b.
Definition short_name (name s : list Z) : Prop :=
  (exists a, name = a ++ str "::" ++ s /\ ~ has_scope_operator (str ":" ++ s)) \/ (s = name /\ ~ has_scope_operator name).
(* the namespaces from the global one to the one of that hash *)
Inductive scope (db : database) : Z -> list (list Z) -> Prop :=
| scope_global : scope db 0 []
| scope_in : forall ns sc s,
    In ns (namespaces db) -> scope db (n_hash (p_parent ns)) sc -> short_name (n_text (p_name ns)) s ->
    scope db (n_hash (p_name ns)) (sc ++ [s]).
(* a namespace is another or in it *)
Inductive within (db : database) (h : Z) : Z -> Prop :=
| within_self : within db h h
| within_up : forall ns, In ns (namespaces db) -> within db h (n_hash (p_parent ns)) -> within db h (n_hash (p_name ns)).
(* what can be declared *)
Record decl := mk_decl { d_parent : Z; d_msvc : bool; d_keyword : list Z; d_name : list Z }.
Definition class_decl (c : class) : decl :=
  mk_decl (n_hash (p_parent (c_prim c))) false (if c_is_class c then str "class " else str "struct ") (n_text (p_name (c_prim c))).
Definition enum_decl (e : enum) : decl :=
  mk_decl (n_hash (p_parent (e_prim e))) (e_scoped e =? 0)
          (if e_scoped e =? 0 then str "enum " else if e_scoped e =? 1 then str "enum class " else str "enum struct ") (n_text (p_name (e_prim e))).
Definition decls (db : database) : list decl := map class_decl (map snd (m_classes db)) ++ map enum_decl (map snd (m_enums db)).
Definition header (s : list Z) : list Z := str "namespace " ++ s.
Definition declares (db : database) (d : decl) (it : item) : Prop :=
  exists sc s, scope db (d_parent d) sc /\ short_name (d_name d) s /\ it = mk_item (map header sc) (d_msvc d) (d_keyword d ++ s ++ str ";").
Definition opens (db : database) (ns : prim) (it : item) : Prop :=
  exists sc s, scope db (n_hash (p_parent ns)) sc /\ short_name (n_text (p_name ns)) s /\ it = mk_item (map header sc) false (header s).
(* each class and enum of a namespace that is in the global one is declared once, there, and each namespace with any of them in it
   is opened once and no other *)
Definition forward_declarations (db : database) (its : list item) : Prop :=
  exists (reached used : Z -> bool) ds os,
    (forall h, reached h = true <-> exists sc, scope db h sc) /\
    (forall ns, In ns (namespaces db) -> (used (n_hash (p_name ns)) = true <-> (exists sc, scope db (n_hash (p_name ns)) sc) /\ exists d, In d (decls db) /\ within db (n_hash (p_name ns)) (d_parent d))) /\
    Forall2 (declares db) (filter (fun d => reached (d_parent d)) (decls db)) ds /\
    Forall2 (opens db) (filter (fun ns => used (n_hash (p_name ns))) (namespaces db)) os /\
    Permutation its (os ++ ds).
Definition declaration_line (it : item) : Prop :=
  exists k s, In k [str "namespace "; str "class "; str "struct "; str "enum "] /\ it_text it = k ++ s.

(* ---- whole files ---- *)
Definition top (s : list Z) : item := mk_item [] false s.
Definition preamble : list item := [top (str "// Generated by clmerge.exe - do not edit!"); top (str "#include <clcpp/clcpp.h>"); top []].
Definition cpp_source (db : database) (fwd its : list item) : Prop :=
  exists hash count slots always msvc,
    its = [hash] ++ preamble ++
          [top (str "// Array of type name pointers"); count; top (str "static const clcpp::Type* clcppTypePtrs[clcppNbTypes] = { 0 };"); top []] ++
          [top (str "void clcppInitGetType(const clcpp::Database* db)");
           mk_item [str "void clcppInitGetType(const clcpp::Database* db)"] false (str "// Populate the type pointer array if a database is specified");
           mk_item [str "void clcppInitGetType(const clcpp::Database* db)"] false (str "if (db != 0)")] ++
          slots ++ [top []] ++
          [top (str "// Forward declarations for all known types")] ++ fwd ++ [top []] ++
          [top (str "// Specialisations for GetType and GetTypeNameHash"); top (str "namespace clcpp")] ++
          always ++ msvc /\
    is_code [] false (str "static const int clcppNbTypes = ") (zlen (entries db)) decimal_text (str ";") count /\
    Forall2 fills_slot (numbered 0 (entries db)) slots /\
    specialises false (filter other_than_plain_enum (numbered 0 (entries db))) always /\
    specialises true (filter plain_enum (numbered 0 (entries db))) msvc.
Definition h_source (db : database) (fwd its : list item) : Prop :=
  exists hash always msvc,
    its = [hash] ++ preamble ++
          [top (str "// Forward declarations for all known types")] ++ fwd ++ [top []] ++
          [top (str "// Specialisations for constexpr clcppTypeHash")] ++ always ++ msvc /\
    Forall2 (constexpr_hash false) (filter (fun e => negb (en_plain_enum e)) (entries db)) always /\
    Forall2 (constexpr_hash true) (filter en_plain_enum (entries db)) msvc.

(* the first line of a file has the hash of the rest *)
Definition hashed_file (file : list Z) (h : Z) : Prop :=
  exists hx body, hex_text h hx /\ is_u32 h /\ file = str "// " ++ hx ++ [13; 10] ++ body /\ HashNameString (body ++ [0]) 0 = Ok h.
(* a file that begins with a hash *)
Definition begins_with_hash (file : list Z) (h : Z) : Prop :=
  exists hx r, hex_text h hx /\ is_u32 h /\ file = str "// " ++ hx ++ r /\ (forall c r', r = c :: r' -> hex_digit c = None /\ c <> 120 /\ c <> 88).

(* a file after generation, against what it held before, if it was there and if it was asked for: left alone when it has the hash of
   the new text, replaced when it has another or none *)
Definition left_by (file : list Z) (h : Z) (before after : option (option (list Z))) : Prop :=
  match before, after with
  | None, None => True
  | Some None, Some (Some new) => new = file
  | Some (Some old), Some (Some new) =>
      (begins_with_hash old h -> new = old) /\
      (forall h', begins_with_hash old h' -> h' <> h -> new = file) /\
      ((forall r, old <> str "//" ++ r) -> new = file) /\
      (new = old \/ new = file)
  | _, _ => False
  end.

(* ---- databases that code can be generated for ---- *)
Definition name_ok (s : list Z) : Prop := (length s <= 400)%nat /\ Forall (fun c => 1 <= c <= 255 /\ c <> 10) s.
Definition db_ok (db : database) : Prop :=
  NoDup (map (fun ns => n_hash (p_name ns)) (namespaces db)) /\
  (forall ns, In ns (namespaces db) -> n_hash (p_name ns) <> 0 /\ name_ok (n_text (p_name ns))) /\
  (forall c, In c (map snd (m_classes db)) -> name_ok (n_text (p_name (c_prim c))) /\ is_u32 (n_hash (p_name (c_prim c)))) /\
  (forall e, In e (map snd (m_enums db)) -> name_ok (n_text (p_name (e_prim e))) /\ is_u32 (n_hash (p_name (e_prim e))) /\ 0 <= e_scoped e <= 2) /\
  (forall t, In t (map snd (m_types db)) -> name_ok (n_text (p_name (t_prim t))) /\ is_u32 (n_hash (p_name (t_prim t)))) /\
  zlen (m_classes db) + zlen (m_enums db) + zlen (m_types db) < 2 ^ 31.
