(* Generated C++ code: src/clReflectMerge/CodeGen.h, CodeGen.cpp. Namespace objects live in a std::map keyed by hash; pointers
   to them are their keys. Files are their contents; opening them for writing is taken to succeed. *)
From Verif Require Import Base Text Maps HashModel FileUtilsModel DatabaseModel.

(* printf "%x" (C library, trusted) *)
Definition hex_char (d : Z) : Z := if d <? 10 then 48 + d else 97 + (d - 10).
Fixpoint hex_print (fuel : nat) (v : Z) (acc : list Z) : list Z :=
  match fuel with
  | O => acc
  | S n => let acc' := hex_char (v mod 16) :: acc in
           if v / 16 =? 0 then acc' else hex_print n (v / 16) acc'
  end.
Definition fmt_x (v : Z) : list Z := hex_print 8 v [].
(* printf "%d" given a size_t: the low 32 bits as an int. Simplification: nonnegative ones *)
Definition fmt_d (v : Z) : list Z := fmt_u v.

(* ---- CodeGen.h:18-45, CodeGen.cpp:13-103 ---- *)
Record codegen := mk_cg { cg_text : list Z; cg_indent : nat }.
Definition cg_new : codegen := mk_cg [] 0.
(* 19-38 Line, of the formatted text: 511 characters fit in the buffer *)
Definition Line (cg : codegen) (s : list Z) : codegen :=
  mk_cg (cg_text cg ++ repeat 9 (cg_indent cg) ++ firstn 511 s ++ [13; 10]) (cg_indent cg).
(* 48-62 *)
Definition PrefixLine (cg : codegen) (s : list Z) : codegen := mk_cg (firstn 511 s ++ [13; 10] ++ cg_text cg) (cg_indent cg).
(* 65-75 *)
Definition Indent (cg : codegen) : codegen := mk_cg (cg_text cg) (S (cg_indent cg)).
Definition UnIndent (cg : codegen) : outcome codegen :=
  match cg_indent cg with O => Trap | S n => Ok (mk_cg (cg_text cg) n) end.
(* 78-89 *)
Definition EnterScope (cg : codegen) : codegen := Indent (Line cg (str "{")).
Definition ExitScope (cg : codegen) : outcome codegen := do cg <- UnIndent cg; Ok (Line cg (str "}")).
(* 92-95. Simplification: fewer than 2^31 bytes of text, whose length is an int *)
Definition GenerateHash (cg : codegen) : outcome Z := HashNameString (cg_text cg ++ [0]) 0.

(* ---- 110-130 ExtractNamePart: rfind of the scope operator, as what is before and after it ---- *)
Fixpoint rfind_scope (s : list Z) : option (list Z * list Z) :=
  match s with
  | [] => None
  | c :: r =>
      match rfind_scope r with
      | Some (a, b) => Some (c :: a, b)
      | None => match s with 58 :: 58 :: r => Some ([], r) | _ => None end
      end
  end.
Definition UnscopeName (s : list Z) : list Z := match rfind_scope s with Some (_, b) => b | None => s end.

(* ---- 155-197 ---- *)
Definition PT_Type := 1.
Definition PT_Class := 2.
Definition PT_Struct := 4.
Definition PT_Enum := 8.
Definition PT_EnumClass := 16.
Definition PT_EnumStruct := 32.
Record cprim := mk_cprim { cp_name : list Z; cp_hash : Z; cp_parent : Z; cp_type : Z }.
Record node := mk_node { nd_name : list Z; nd_parent : Z; nd_children : list Z; nd_types : list cprim; nd_classes : list cprim; nd_enums : list cprim; nd_nb : Z }.
Notation nsmap := (zmap node).
Definition set_children (x : node) (l : list Z) : node := mk_node (nd_name x) (nd_parent x) l (nd_types x) (nd_classes x) (nd_enums x) (nd_nb x).
Definition push_class (x : node) (p : cprim) : node := mk_node (nd_name x) (nd_parent x) (nd_children x) (nd_types x) (nd_classes x ++ [p]) (nd_enums x) (nd_nb x + 1).
Definition push_enum (x : node) (p : cprim) : node := mk_node (nd_name x) (nd_parent x) (nd_children x) (nd_types x) (nd_classes x) (nd_enums x ++ [p]) (nd_nb x + 1).
Definition push_type (x : node) (p : cprim) : node := mk_node (nd_name x) (nd_parent x) (nd_children x) (nd_types x ++ [p]) (nd_classes x) (nd_enums x) (nd_nb x + 1).

(* 200-230 BuildNamespaces; the global namespace's null name is [] and never read *)
Definition copy_namespaces (db : database) : nsmap :=
  fold_left (fun m x => m_set (n_hash (p_name (snd x))) (mk_node (n_text (p_name (snd x))) (n_hash (p_parent (snd x))) [] [] [] [] 0) m) (m_namespaces db) [].
Definition add_to_parent (m : nsmap) (k : Z) : nsmap :=
  match m_find k m with
  | None => m
  | Some ns => match m_find (nd_parent ns) m with
               | Some p => m_update (nd_parent ns) (set_children p (nd_children p ++ [k])) m
               | None => m
               end
  end.
Definition BuildNamespaces (db : database) : nsmap :=
  let m := copy_namespaces db in
  let m := fold_left add_to_parent (keys m) m in
  m_set 0 (mk_node [] 0 (map fst (filter (fun x => nd_parent (snd x) =? 0) m)) [] [] [] 0) m.

(* 233-301 BuildNamespaceContents *)
Definition add_class (s : nsmap * list cprim) (c : class) : nsmap * list cprim :=
  match m_find (n_hash (p_parent (c_prim c))) (fst s) with
  | None => s
  | Some ns =>
      let prim := mk_cprim (n_text (p_name (c_prim c))) (n_hash (p_name (c_prim c))) (n_hash (p_parent (c_prim c))) (if c_is_class c then PT_Class else PT_Struct) in
      (m_update (n_hash (p_parent (c_prim c))) (push_class ns prim) (fst s), snd s ++ [prim])
  end.
(* the enum's kind of scope: Database.h Enum::Scoped *)
Definition add_enum (s : nsmap * list cprim) (e : enum) : outcome (nsmap * list cprim) :=
  match m_find (n_hash (p_parent (e_prim e))) (fst s) with
  | None => Ok s
  | Some ns =>
      let prim ty := mk_cprim (n_text (p_name (e_prim e))) (n_hash (p_name (e_prim e))) (n_hash (p_parent (e_prim e))) ty in
      let put ns' p := Ok (m_update (n_hash (p_parent (e_prim e))) ns' (fst s), snd s ++ [p]) in
      if e_scoped e =? 0 then put (push_enum ns (prim PT_Enum)) (prim PT_Enum)
      else if e_scoped e =? 1 then put (push_class ns (prim PT_EnumClass)) (prim PT_EnumClass)
      else if e_scoped e =? 2 then put (push_class ns (prim PT_EnumStruct)) (prim PT_EnumStruct)
      else UB   (* prim.type is not initialised *)
  end.
Fixpoint add_enums (l : list enum) (s : nsmap * list cprim) : outcome (nsmap * list cprim) :=
  match l with [] => Ok s | e :: r => do s <- add_enum s e; add_enums r s end.
Definition add_type (s : nsmap * list cprim) (t : type_) : nsmap * list cprim :=
  let prim := mk_cprim (n_text (p_name (t_prim t))) (n_hash (p_name (t_prim t))) 0 PT_Type in
  match m_find 0 (fst s) with
  | None => s
  | Some ns => (m_update 0 (push_type ns prim) (fst s), snd s ++ [prim])
  end.
Definition BuildNamespaceContents (db : database) (m : nsmap) : outcome (nsmap * list cprim) :=
  let s := fold_left add_class (map snd (m_classes db)) (m, []) in
  do s <- add_enums (map snd (m_enums db)) s;
  Ok (fold_left add_type (map snd (m_types db)) s).

(* 304-324 RemoveEmptyNamespaces: n bounds the depth. The loop at index i with k children not looked at yet *)
Definition swap_remove (l : list Z) (i : nat) : list Z :=
  removelast (firstn i l ++ last l 0 :: skipn (S i) l).
Fixpoint RemoveEmptyNamespaces (n : nat) (m : nsmap) (ns : Z) : outcome nsmap :=
  match n with
  | O => Fuel
  | S n =>
      match m_find ns m with
      | None => UB
      | Some x =>
          (fix loop (k i : nat) (m : nsmap) : outcome nsmap :=
             match k with
             | O => Ok m
             | S k =>
                 match m_find ns m with
                 | None => UB
                 | Some x =>
                     match nth_error (nd_children x) i with
                     | None => UB
                     | Some child =>
                         do m <- RemoveEmptyNamespaces n m child;
                         match m_find child m, m_find ns m with
                         | Some c, Some x =>
                             match nd_children c, nd_nb c =? 0 with
                             | [], true => loop k i (m_update ns (set_children x (swap_remove (nd_children x) i)) m)
                             | _, _ => loop k (S i) m
                             end
                         | _, _ => UB
                         end
                     end
                 end
             end) (length (nd_children x)) O m
      end
  end.

(* 327-384 GenNamespaceForwardDeclare; start_point and end_point are not used. fold is the loop over the children *)
Fixpoint each {A S} (f : A -> S -> outcome S) (l : list A) (s : S) : outcome S :=
  match l with [] => Ok s | a :: r => do s <- f a s; each f r s end.
Definition declare_enum (p : cprim) (cg : codegen) : outcome codegen := Ok (Line cg (str "enum " ++ UnscopeName (cp_name p) ++ str ";")).
Definition declare_class (p : cprim) (cg : codegen) : outcome codegen :=
  let name := UnscopeName (cp_name p) in
  Ok (if cp_type p =? PT_Class then Line cg (str "class " ++ name ++ str ";")
      else if cp_type p =? PT_Struct then Line cg (str "struct " ++ name ++ str ";")
      else if cp_type p =? PT_EnumClass then Line cg (str "enum class " ++ name ++ str ";")
      else if cp_type p =? PT_EnumStruct then Line cg (str "enum struct " ++ name ++ str ";")
      else cg).
Fixpoint GenNamespaceForwardDeclare (n : nat) (m : nsmap) (ns : Z) (root : bool) (cg : codegen) : outcome codegen :=
  match n with
  | O => Fuel
  | S n =>
      match m_find ns m with
      | None => UB
      | Some x =>
          let cg := if root then cg else EnterScope (Line cg (str "namespace " ++ UnscopeName (nd_name x))) in
          do cg <- each (fun c => GenNamespaceForwardDeclare n m c false) (nd_children x) cg;
          do cg <- (match nd_enums x with
                    | [] => Ok cg
                    | _ => do cg <- each declare_enum (nd_enums x) (Line cg (str "#if defined(CLCPP_USING_MSVC)"));
                           Ok (Line cg (str "#endif"))
                    end);
          do cg <- each declare_class (nd_classes x) cg;
          if root then Ok cg else ExitScope cg
      end
  end.

(* 387-396 NameWithGlobalScope *)
Definition NameWithGlobalScope (p : cprim) : list Z :=
  if negb (cp_type p =? PT_Type) && (cp_parent p =? 0) then str "::" ++ cp_name p else cp_name p.
(* 399-412 GenGetTypes from index i *)
Fixpoint GenGetTypes (cg : codegen) (ps : list cprim) (i : Z) (prim_types : Z) : codegen :=
  match ps with
  | [] => cg
  | p :: r =>
      let cg := if negb (Z.land (cp_type p) prim_types =? 0) then
                  let cg := Line cg (str "template <> const Type* GetType< " ++ NameWithGlobalScope p ++ str " >() { return clcppTypePtrs[" ++ fmt_d i ++ str "]; }") in
                  Line cg (str "template <> unsigned int GetTypeNameHash< " ++ NameWithGlobalScope p ++ str " >() { return 0x" ++ fmt_x (cp_hash p) ++ str "; }")
                else cg in
      GenGetTypes cg r (i + 1) prim_types
  end.
(* 414-425 GenGetTypesConstexpr *)
Fixpoint GenGetTypesConstexpr (cg : codegen) (ps : list cprim) (prim_types : Z) : codegen :=
  match ps with
  | [] => cg
  | p :: r =>
      let cg := if negb (Z.land (cp_type p) prim_types =? 0)
                then Line cg (str "template <> constexpr unsigned int clcppTypeHash< " ++ NameWithGlobalScope p ++ str " >() { return 0x" ++ fmt_x (cp_hash p) ++ str "; }")
                else cg in
      GenGetTypesConstexpr cg r prim_types
  end.
(* 427-440 *)
Definition IncludeDependencies (cg : codegen) : codegen :=
  Line (Line (Line cg (str "// Generated by clmerge.exe - do not edit!")) (str "#include <clcpp/clcpp.h>")) [].
Definition ForwardDeclareTypes (n : nat) (cg : codegen) (m : nsmap) : outcome codegen :=
  do cg <- GenNamespaceForwardDeclare n m 0 true (Line cg (str "// Forward declarations for all known types"));
  Ok (Line cg []).

(* fscanf of "// %x" on the contents of a file (C library, trusted): two slashes, any white space, an optional sign, an optional
   0x, hexadecimal digits; what strtoul gives, truncated. Simplification: 0x without a digit after it reads as 0 *)
Definition is_white (c : Z) : bool := (c =? 32) || ((9 <=? c) && (c <=? 13)).
Fixpoint skip_white (s : list Z) : list Z := match s with c :: r => if is_white c then skip_white r else s | [] => [] end.
Definition hex_val (c : Z) : option Z :=
  if (48 <=? c) && (c <=? 57) then Some (c - 48) else if (97 <=? c) && (c <=? 102) then Some (c - 87) else if (65 <=? c) && (c <=? 70) then Some (c - 55) else None.
Fixpoint scan_digits (s : list Z) (acc : Z) (any : bool) : option Z :=
  match s with
  | c :: r => match hex_val c with Some d => scan_digits r (acc * 16 + d) true | None => if any then Some acc else None end
  | [] => if any then Some acc else None
  end.
Definition strtoul16 (s : list Z) : option Z :=
  let neg := match s with c :: _ => c =? 45 | [] => false end in
  let s := match s with c :: r => if (c =? 45) || (c =? 43) then r else s | [] => s end in
  let s := match s with
           | a :: b :: c :: r => if (a =? 48) && ((b =? 120) || (b =? 88)) then match hex_val c with Some _ => c :: r | None => s end else s
           | _ => s end in
  match scan_digits s 0 false with
  | None => None
  | Some v => let v := if 2 ^ 64 <=? v then 2 ^ 64 - 1 else v in Some (u32 (if neg then - v else v))
  end.
Definition scan_hash (file : list Z) : option Z :=
  match file with a :: b :: r => if (a =? 47) && (b =? 47) then strtoul16 (skip_white r) else None | _ => None end.

(* 442-463 WriteFile: the file's contents before, if there is one, and after *)
Definition WriteFile (cg : codegen) (file : option (list Z)) : outcome (option (list Z)) :=
  do hash <- GenerateHash cg;
  let cg := PrefixLine cg (str "// " ++ fmt_x hash) in
  let existing := match file with
                  | None => u32 (hash + 1)
                  | Some s => match scan_hash s with Some h => h | None => u32 (hash + 1) end
                  end in
  Ok (if negb (existing =? hash) then Some (cg_text cg) else file).

(* 465-503 GenerateCppFile up to WriteFile *)
Fixpoint init_lines (cg : codegen) (ps : list cprim) (i : Z) : codegen :=
  match ps with
  | [] => cg
  | p :: r => init_lines (Line cg (str "clcppTypePtrs[" ++ fmt_d i ++ str "] = db->GetType(0x" ++ fmt_x (cp_hash p) ++ str ");")) r (i + 1)
  end.
Definition always_types : Z := PT_Type + PT_Class + PT_Struct + PT_EnumClass + PT_EnumStruct.
Definition cpp_code (n : nat) (m : nsmap) (ps : list cprim) : outcome codegen :=
  let cg := IncludeDependencies cg_new in
  let cg := Line cg (str "// Array of type name pointers") in
  let cg := Line cg (str "static const int clcppNbTypes = " ++ fmt_d (zlen ps) ++ str ";") in
  let cg := Line cg (str "static const clcpp::Type* clcppTypePtrs[clcppNbTypes] = { 0 };") in
  let cg := Line cg [] in
  let cg := Line cg (str "void clcppInitGetType(const clcpp::Database* db)") in
  let cg := EnterScope cg in
  let cg := Line cg (str "// Populate the type pointer array if a database is specified") in
  let cg := Line cg (str "if (db != 0)") in
  let cg := EnterScope cg in
  let cg := init_lines cg ps 0 in
  do cg <- ExitScope cg;
  do cg <- ExitScope cg;
  let cg := Line cg [] in
  do cg <- ForwardDeclareTypes n cg m;
  let cg := Line cg (str "// Specialisations for GetType and GetTypeNameHash") in
  let cg := Line cg (str "namespace clcpp") in
  let cg := EnterScope cg in
  let cg := GenGetTypes cg ps 0 always_types in
  let cg := Line cg (str "#if defined(CLCPP_USING_MSVC)") in
  let cg := GenGetTypes cg ps 0 PT_Enum in
  let cg := Line cg (str "#endif") in
  ExitScope cg.
(* 505-521 GenerateHFile up to WriteFile *)
Definition h_code (n : nat) (m : nsmap) (ps : list cprim) : outcome codegen :=
  let cg := IncludeDependencies cg_new in
  do cg <- ForwardDeclareTypes n cg m;
  let cg := Line cg (str "// Specialisations for constexpr clcppTypeHash") in
  let cg := GenGetTypesConstexpr cg ps always_types in
  let cg := Line cg (str "#if defined(CLCPP_USING_MSVC)") in
  let cg := GenGetTypesConstexpr cg ps PT_Enum in
  Ok (Line cg (str "#endif")).
(* 524-544 GenMergedCppImpl: for each file asked for, its contents before and after *)
Definition GenMergedCppImpl (n : nat) (cpp_file h_file : option (option (list Z))) (db : database) : outcome (option (option (list Z)) * option (option (list Z))) :=
  do s <- BuildNamespaceContents db (BuildNamespaces db);
  do m <- RemoveEmptyNamespaces n (fst s) 0;
  do a <- (match cpp_file with None => Ok None | Some f => do cg <- cpp_code n m (snd s); do f <- WriteFile cg f; Ok (Some f) end);
  do b <- (match h_file with None => Ok None | Some f => do cg <- h_code n m (snd s); do f <- WriteFile cg f; Ok (Some f) end);
  Ok (a, b).
