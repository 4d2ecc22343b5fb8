(* Building the run-time database: src/clReflectExport/CppExport.cpp, BuildCppExport.

   Memory is split by struct member: each member that the build changes is a function from
   the place of a primitive (its table and its index there) to a value. A pointer to a
   primitive is that place, or a plain integer: names are first stored as hashes in the
   pointers (CppExport.cpp:36-47). Not modelled: the 5 MB limit of the stack allocator and
   the overflow of byte counts beyond it, the log messages, SaveCppExport. *)
From Verif Require Import Base Text HashModel SearchModel Maps DatabaseModel.
From Coq Require Import Sorted Permutation.

(* the tables of clcpp::internal::DatabaseMem, inc/clcpp/clcpp_internal.h *)
Inductive kind := KType | KEnumConst | KEnum | KField | KFunction | KClass | KTemplate | KTemplateType
  | KNamespace | KFlagAttr | KIntAttr | KFloatAttr | KPrimAttr | KTextAttr.
Definition kind_eqb (a b : kind) : bool :=
  match a, b with
  | KType, KType | KEnumConst, KEnumConst | KEnum, KEnum | KField, KField | KFunction, KFunction
  | KClass, KClass | KTemplate, KTemplate | KTemplateType, KTemplateType | KNamespace, KNamespace
  | KFlagAttr, KFlagAttr | KIntAttr, KIntAttr | KFloatAttr, KFloatAttr | KPrimAttr, KPrimAttr
  | KTextAttr, KTextAttr => true
  | _, _ => false
  end.
(* the pointer arrays inside primitives, inc/clcpp/clcpp.h *)
Inductive ak := AConstants | AParameters | AEnums | AClasses | AMethods | AFields | ATemplates
  | ANamespaces | ATypes | AFunctions | AInstances | AAttributes | ABases.
Definition ak_eqb (a b : ak) : bool :=
  match a, b with
  | AConstants, AConstants | AParameters, AParameters | AEnums, AEnums | AClasses, AClasses
  | AMethods, AMethods | AFields, AFields | ATemplates, ATemplates | ANamespaces, ANamespaces
  | ATypes, ATypes | AFunctions, AFunctions | AInstances, AInstances | AAttributes, AAttributes
  | ABases, ABases => true
  | _, _ => false
  end.

Notation loc := (kind * nat)%type.
Definition loc_eqb (a b : loc) : bool := kind_eqb (fst a) (fst b) && (snd a =? snd b)%nat.
(* a pointer: an integer (Int 0 is null) or the address of a primitive *)
Inductive ref := Int (z : Z) | Ptr (l : loc).
Notation cell := (ak * loc)%type.
Definition cell_eqb (a b : cell) : bool := ak_eqb (fst a) (fst b) && loc_eqb (snd a) (snd b).

(* what the build does not decide: where primitives are in memory, what fresh memory holds,
   and how std::sort orders equal elements *)
Record layout := mk_layout {
  lay_addr : loc -> Z;
  lay_junk : Z;
  lay_sort : list (Z * ref) -> list (Z * ref) }.

(* CppExport.cpp:45 POINTER_TO_HASH: the low 32 bits *)
Definition as_int (L : layout) (r : ref) : Z := match r with Int z => z | Ptr l => lay_addr L l end.
Definition to_hash (L : layout) (r : ref) : Z := u32 (as_int L r).

(* what BuildCArray writes into a primitive, apart from the pointers that start out null.
   r_text is an offset into name_text_data (None: null), r_parent, r_type, r_args and r_ref
   are the hashes put into pointers, r_data is the data nothing else depends on. *)
Record row := mk_row {
  r_hash : Z; r_text : option Z; r_parent : Z; r_type : Z; r_uid : Z; r_args : list Z;
  r_ref : Z; r_data : list Z }.
Notation table := (kind -> list row).
Definition get_row (T : table) (l : loc) : outcome row :=
  match nth_error (T (fst l)) (snd l) with Some r => Ok r | None => UB end.
Definition loc_of (r : ref) : outcome loc := match r with Ptr l => Ok l | Int _ => UB end.
Definition deref (T : table) (r : ref) : outcome row := do l <- loc_of r; get_row T l.
Definition locs (T : table) (k : kind) : list loc := map (pair k) (seq 0 (length (T k))).

Definition upd {A} (f : loc -> A) (l : loc) (v : A) : loc -> A := fun l' => if loc_eqb l l' then v else f l'.
Definition updc {A} (f : cell -> A) (c : cell) (v : A) : cell -> A := fun c' => if cell_eqb c c' then v else f c'.

(* a for loop over a list, threading a state *)
Fixpoint each {A S} (f : A -> S -> outcome S) (l : list A) (s : S) : outcome S :=
  match l with
  | [] => Ok s
  | a :: r => do s' <- f a s; each f r s'
  end.
Fixpoint mapM {A B} (f : A -> outcome B) (l : list A) : outcome (list B) :=
  match l with
  | [] => Ok []
  | a :: r => do b <- f a; do bs <- mapM f r; Ok (b :: bs)
  end.

(* ---- names: CppExport.cpp:62-95 BuildNames ---- *)
(* 66-71: the size of the text *)
Definition name_data_size (names : zmap name) : Z := fold_left (fun n e => n + zlen (n_text (snd e)) + 1) names 0.
(* 74-83: strcpy writes the text and its terminator; texts hold no zero byte *)
Definition copy_name (e : Z * name) (s : list Z * zmap (option Z) * Z) : outcome (list Z * zmap (option Z) * Z) :=
  let '(buf, nm, pos) := s in
  do buf' <- wr_bytes buf pos (n_text (snd e) ++ [0]);
  Ok (buf', m_set (fst e) (Some pos) nm, pos + zlen (n_text (snd e)) + 1).
Definition BuildNames (L : layout) (names : zmap name)
  : outcome (list Z * zmap (option Z) * list (Z * option Z)) :=
  do s <- each copy_name names (repeat (lay_junk L) (Z.to_nat (name_data_size names)), [], 0);
  let '(buf, nm, _) := s in
  (* 85-94: the array is the map in order *)
  Ok (buf, nm, nm).

(* ---- raw copies: CppExport.cpp:98-212 ---- *)
(* 206-207: cppexp.name_map[hash] creates a null entry when the hash has none *)
Definition intern (nm : zmap (option Z)) (h : Z) : option Z * zmap (option Z) :=
  match m_find h nm with Some t => (t, nm) | None => (None, m_set h None nm) end.
(* 192-212 BuildCArray: the tables in map order, nm threaded through *)
Fixpoint BuildCArray {T} (prim_of : T -> prim) (copy : T -> row -> row) (src : zmap T) (nm : zmap (option Z))
  : list row * zmap (option Z) :=
  match src with
  | [] => ([], nm)
  | (_, v) :: rest =>
      let h := n_hash (p_name (prim_of v)) in
      let (text, nm1) := intern nm h in
      let (rows, nm2) := BuildCArray prim_of copy rest nm1 in
      (* 98-102 CopyPrimitive(Primitive) *)
      (copy v (mk_row h text (n_hash (p_parent (prim_of v))) 0 0 [] 0 []) :: rows, nm2)
  end.
Definition with_data (r : row) (d : list Z) : row :=
  mk_row (r_hash r) (r_text r) (r_parent r) (r_type r) (r_uid r) (r_args r) (r_ref r) d.
Definition b2z (b : bool) : Z := if b then 1 else 0.
Definition qop_z (q : qop) : Z := match q with VALUE => 0 | POINTER => 1 | REFERENCE => 2 end.
(* 139-143 CopyPrimitive(Type); also used for enums and classes *)
Definition copy_type (size : Z) (r : row) : row := with_data r [size].
(* 103-107 *)
Definition copy_econst (v : enum_const) (r : row) : row := with_data r [ec_value v].
(* 108-113 *)
Definition copy_function (v : function) (r : row) : row :=
  mk_row (r_hash r) (r_text r) (r_parent r) 0 (fn_uid v) [] 0 [fn_address v].
(* 114-138 *)
Definition copy_field (v : field) (r : row) : row :=
  mk_row (r_hash r) (r_text r) (r_parent r) (n_hash (f_type v)) (f_parent_uid v) [] 0
    [f_offset v; qop_z (q_op (f_qual v)); b2z (q_const (f_qual v))].
(* 144-152 *)
Definition copy_ttype (v : template_type) (r : row) : row :=
  mk_row (r_hash r) (r_text r) (r_parent r) 0 0 (map n_hash (tt_types v)) 0 (tt_size v :: map b2z (tt_ptrs v)).
(* 153-162 *)
Definition copy_int (v : int_attr) (r : row) : row := with_data r [ia_value v].
Definition copy_float (v : float_attr) (r : row) : row := with_data r [fa_value v].
(* 163-167 *)
Definition copy_pattr (v : prim_attr) (r : row) : row :=
  mk_row (r_hash r) (r_text r) (r_parent r) 0 0 [] (n_hash (pa_value v)) [].

(* 181-188 and 192-212 for container infos *)
Record info := mk_info { i_hash : Z; i_text : option Z; i_read : Z; i_write : Z; i_flags : Z; i_count : Z }.
Fixpoint BuildInfos (src : zmap container_info) (nm : zmap (option Z)) : list info * zmap (option Z) :=
  match src with
  | [] => ([], nm)
  | (_, v) :: rest =>
      let h := n_hash (ci_name v) in
      let (text, nm1) := intern nm h in
      let (infos, nm2) := BuildInfos rest nm1 in
      (mk_info h text (n_hash (ci_read v)) (n_hash (ci_write v)) (ci_flags v) (ci_count v) :: infos, nm2)
  end.

(* 1105-1119: the tables in the order of the calls *)
Definition BuildTables (db : database) (nm : zmap (option Z)) : table * list info * zmap (option Z) :=
  let (types, nm) := BuildCArray t_prim (fun v => copy_type (t_size v)) (m_types db) nm in
  let (econsts, nm) := BuildCArray ec_prim copy_econst (m_enum_consts db) nm in
  let (enums, nm) := BuildCArray e_prim (fun v => copy_type (e_size v)) (m_enums db) nm in
  let (fields, nm) := BuildCArray f_prim copy_field (m_fields db) nm in
  let (functions, nm) := BuildCArray fn_prim copy_function (m_functions db) nm in
  let (classes, nm) := BuildCArray c_prim (fun v => copy_type (c_size v)) (m_classes db) nm in
  let (templates, nm) := BuildCArray (fun p => p) (fun _ r => r) (m_templates db) nm in
  let (ttypes, nm) := BuildCArray tt_prim copy_ttype (m_template_types db) nm in
  let (namespaces, nm) := BuildCArray (fun p => p) (fun _ r => r) (m_namespaces db) nm in
  let (flags, nm) := BuildCArray (fun p => p) (fun _ r => r) (m_flag_attrs db) nm in
  let (ints, nm) := BuildCArray ia_prim copy_int (m_int_attrs db) nm in
  let (floats, nm) := BuildCArray fa_prim copy_float (m_float_attrs db) nm in
  let (prims, nm) := BuildCArray pa_prim copy_pattr (m_prim_attrs db) nm in
  let (texts, nm) := BuildCArray ta_prim (fun _ r => r) (m_text_attrs db) nm in
  let (infos, nm) := BuildInfos (m_containers db) nm in
  (fun k => match k with
            | KType => types | KEnumConst => econsts | KEnum => enums | KField => fields
            | KFunction => functions | KClass => classes | KTemplate => templates
            | KTemplateType => ttypes | KNamespace => namespaces | KFlagAttr => flags
            | KIntAttr => ints | KFloatAttr => floats | KPrimAttr => prims | KTextAttr => texts
            end, infos, nm).

(* ---- CppExport.cpp:386-408 AssignAttributeText: the text data and the offset of each value ---- *)
Definition text_data_size (vals : list (list Z)) : Z := fold_left (fun n v => n + zlen v + 1) vals 0.
Definition copy_text (v : list Z) (s : list Z * list Z * Z) : outcome (list Z * list Z * Z) :=
  let '(buf, offs, pos) := s in
  do buf' <- wr_bytes buf pos (v ++ [0]);
  Ok (buf', offs ++ [pos], pos + zlen v + 1).
Definition AssignAttributeText (L : layout) (vals : list (list Z)) : outcome (list Z * list Z) :=
  do s <- each copy_text vals (repeat (lay_junk L) (Z.to_nat (text_data_size vals)), [], 0);
  Ok (fst s).

(* ---- CppExport.cpp:638-656 GatherTypePrimitives ---- *)
Definition GatherTypePrimitives (T : table) : list loc :=
  locs T KType ++ locs T KClass ++ locs T KEnum ++ locs T KTemplateType.

(* ---- parenting: CppExport.cpp:214-345 ---- *)
(* 228-241: from hash to index, a multimap *)
Definition ParentMap (rows : list row) : zmap nat :=
  fold_left (fun m p => mm_insert (r_hash (snd p)) (fst p) m) (combine (seq 0 (length rows)) rows) [].
(* the C string a name points to *)
Definition text_of (names : list Z) (r : row) : outcome (list Z) :=
  match r_text r with
  | None => UB
  | Some off => c_str (skipn (Z.to_nat off) names)
  end.
(* 256-272: the map of fields, keyed by the hash of parent::field *)
Definition field_key (names : list Z) (T : table) (par : loc -> ref) (i : nat) : outcome Z :=
  do p <- deref T (par (KField, i));
  do pt <- text_of names p;
  do f <- get_row T (KField, i);
  do ft <- text_of names f;
  HashNameString (pt ++ str "::" ++ ft ++ [0]) 0.
Definition FieldParentMap (names : list Z) (T : table) (par : loc -> ref) : outcome (zmap nat) :=
  each (fun i m => do h <- field_key names T par i; Ok (mm_insert h i m)) (seq 0 (length (T KField))) [].

(* 274-281 ParentAndChildMatch: only a function and a field can fail to match *)
Definition matches (T : table) (pk : kind) (j : nat) (child : loc) : bool :=
  match pk, fst child with
  | KFunction, KField =>
      match nth_error (T KFunction) j, nth_error (T KField) (snd child) with
      | Some p, Some c => r_uid p =? r_uid c
      | _, _ => false
      end
  | _, _ => true
  end.

(* 290-308: assign parents and count; cnt is the int paired with each parent *)
Definition assign_parent (L : layout) (T : table) (pk : kind) (pm : zmap nat) (child : loc) (s : (loc -> ref) * (nat -> Z))
  : outcome ((loc -> ref) * (nat -> Z)) :=
  let (par, cnt) := s in
  match find (fun j => matches T pk j child) (m_range (to_hash L (par child)) pm) with
  | Some j => Ok (upd par child (Ptr (pk, j)), fun i => if (i =? j)%nat then cnt j + 1 else cnt i)
  | None => Ok (par, cnt)
  end.
(* 311-322: allocate; the last slot holds the number of entries so far *)
Definition alloc_arrays (L : layout) (a : ak) (pk : kind) (cnt : nat -> Z) (arr : cell -> list ref) : cell -> list ref :=
  fun c => if ak_eqb (fst c) a && kind_eqb (fst (snd c)) pk && negb (cnt (snd (snd c)) =? 0)
           then repeat (Int (lay_junk L)) (Z.to_nat (cnt (snd (snd c)) - 1)) ++ [Int 0]
           else arr c.
(* CArray::operator[] on the left of an assignment asserts the index *)
Definition wrA {A} (l : list A) (i : Z) (v : A) : outcome (list A) :=
  if (0 <=? i) && (i <? zlen l) then Ok (firstn (Z.to_nat i) l ++ v :: skipn (S (Z.to_nat i)) l) else Trap.
(* 338-345: add one child to its parent's array *)
Definition add_child (L : layout) (c : cell) (child : loc) (arr : cell -> list ref) : outcome (cell -> list ref) :=
  let nb := zlen (arr c) in
  do last <- rdA (arr c) (u32 (nb - 1));
  let cur := s32 (as_int L last) in
  do a1 <- wrA (arr c) (u32 cur) (Ptr child);
  do a2 <- if cur + 1 =? nb then Ok a1 else wrA a1 (u32 (nb - 1)) (Int (cur + 1));
  Ok (updc arr c a2).
(* 325-345: a parent in the source array; arrays of different tables do not overlap. An integer
   in that range is not the address of a primitive. *)
Definition fill_child (L : layout) (T : table) (a : ak) (pk : kind) (par : loc -> ref) (child : loc) (arr : cell -> list ref)
  : outcome (cell -> list ref) :=
  match par child with
  | Ptr (k, j) =>
      if kind_eqb k pk && (j <? length (T pk))%nat then add_child L (a, (pk, j)) child arr else Ok arr
  | Int z =>
      if (lay_addr L (pk, O) <=? z) && (z <? lay_addr L (pk, length (T pk))) then UB else Ok arr
  end.
(* 283-345 Parent; children are the primitives of the tables in ps_children, in order *)
Record pass := mk_pass { ps_parent : kind; ps_array : ak; ps_children : list kind }.
Definition Parent (L : layout) (T : table) (pm : zmap nat) (p : pass) (s : (loc -> ref) * (cell -> list ref))
  : outcome ((loc -> ref) * (cell -> list ref)) :=
  let (par, arr) := s in
  let children := flat_map (locs T) (ps_children p) in
  do s1 <- each (assign_parent L T (ps_parent p) pm) children (par, fun _ => 0);
  let arr1 := alloc_arrays L (ps_array p) (ps_parent p) (snd s1) arr in
  do arr2 <- each (fill_child L T (ps_array p) (ps_parent p) (fst s1)) children arr1;
  Ok (fst s1, arr2).
(* 1137-1150, the calls in order *)
Definition passes : list pass := [
  mk_pass KEnum AConstants [KEnumConst];
  mk_pass KFunction AParameters [KField];
  mk_pass KClass AEnums [KEnum];
  mk_pass KClass AClasses [KClass];
  mk_pass KClass AMethods [KFunction];
  mk_pass KClass AFields [KField];
  mk_pass KClass ATemplates [KTemplate];
  mk_pass KNamespace ANamespaces [KNamespace];
  mk_pass KNamespace ATypes [KType];
  mk_pass KNamespace AEnums [KEnum];
  mk_pass KNamespace AClasses [KClass];
  mk_pass KNamespace AFunctions [KFunction];
  mk_pass KNamespace ATemplates [KTemplate];
  mk_pass KTemplate AInstances [KTemplateType]].
(* 357-384 BuildAttributePtrArray, 1158-1163: attributes of all kinds in one array *)
Definition attr_kinds : list kind := [KFlagAttr; KIntAttr; KFloatAttr; KPrimAttr; KTextAttr].
Definition attr_passes : list pass := [
  mk_pass KEnum AAttributes attr_kinds;
  mk_pass KField AAttributes attr_kinds;
  mk_pass KFunction AAttributes attr_kinds;
  mk_pass KClass AAttributes attr_kinds].
(* the map each Parent call is given; fm is that of the fields (1154) *)
Definition map_for (T : table) (fm : zmap nat) (p : pass) : zmap nat :=
  match ps_parent p with KField => fm | k => ParentMap (T k) end.
Definition ParentAll (L : layout) (T : table) (fm : zmap nat) (ps : list pass) (s : (loc -> ref) * (cell -> list ref))
  : outcome ((loc -> ref) * (cell -> list ref)) :=
  each (fun p s => Parent L T (map_for T fm p) p s) ps s.

(* ---- CppExport.cpp:410-462 Link ---- *)
Definition entries (T : table) (a : list ref) : outcome (list (Z * ref)) :=
  mapM (fun r => do x <- deref T r; Ok (r_hash x, r)) a.
Definition child_map (es : list (Z * ref)) : zmap ref := fold_left (fun m e => mm_insert (fst e) (snd e) m) es [].
Definition link1 (L : layout) (cm : zmap ref) (r : ref) : ref :=
  match m_find (to_hash L r) cm with Some c => c | None => r end.

(* ---- CppExport.cpp:569-595 return parameters ---- *)
Definition c_hash (s : string) : outcome Z := HashNameString (str s ++ [0]) 0.
(* 569-579; -1 when there is none *)
Fixpoint ReturnParameterIndex (T : table) (rh : Z) (ps : list ref) (i : Z) : outcome Z :=
  match ps with
  | [] => Ok (-1)
  | p :: rest => do r <- deref T p; if r_hash r =? rh then Ok i else ReturnParameterIndex T rh rest (i + 1)
  end.
(* src/clReflectCore/Array.h:92-100 *)
Definition unstable_remove {A} (a : list A) (i : Z) : outcome (list A) :=
  do _ <- assert (i <? zlen a);
  do last <- rd a (zlen a - 1);
  do a1 <- wr a i last;
  Ok (slice a1 0 (zlen a - 1)).
(* 581-595, one function *)
Definition assign_return (T : table) (rh : Z) (l : loc) (s : (cell -> list ref) * (loc -> ref))
  : outcome ((cell -> list ref) * (loc -> ref)) :=
  let (arr, ret) := s in
  do i <- ReturnParameterIndex T rh (arr (AParameters, l)) 0;
  if i =? -1 then Ok s
  else
    do r <- rdA (arr (AParameters, l)) i;
    do ps <- unstable_remove (arr (AParameters, l)) i;
    Ok (updc arr (AParameters, l) ps, upd ret l r).

(* ---- CppExport.cpp:597-636 the global namespace ---- *)
Definition is_null (r : ref) : bool := match r with Int z => z =? 0 | Ptr _ => false end.
Definition GatherGlobalPrimitives (T : table) (par : loc -> ref) (k : kind) : list loc :=
  filter (fun l => is_null (par l)) (locs T k).

(* ---- CppExport.cpp:658-720, 1179-1186 sorting ---- *)
Definition sort_array (L : layout) (T : table) (a : list ref) : outcome (list ref) :=
  do es <- entries T a; Ok (map snd (lay_sort L es)).
(* the arrays each overload of SortPrimitives sorts *)
Definition sorted_arrays (k : kind) : list ak :=
  match k with
  | KEnum => [ABases; AConstants; AAttributes]
  | KField => [AAttributes]
  | KFunction => [AParameters; AAttributes]
  | KClass => [ABases; AEnums; AClasses; AMethods; AFields; AAttributes; ATemplates]
  | KTemplate => [AInstances]
  | KTemplateType => [ABases]
  | KNamespace => [ANamespaces; ATypes; AEnums; AClasses; AFunctions; ATemplates]
  | _ => []
  end.
Definition sorted_kinds : list kind := [KEnum; KField; KFunction; KClass; KTemplate; KTemplateType; KNamespace].
Definition sort_cells (T : table) : list cell :=
  flat_map (fun k => flat_map (fun l => map (fun a => (a, l)) (sorted_arrays k)) (locs T k)) sorted_kinds.
Definition SortPrimitives (L : layout) (T : table) (arr : cell -> list ref) : outcome (cell -> list ref) :=
  each (fun c arr => do s <- sort_array L T (arr c); Ok (updc arr c s)) (sort_cells T) arr.

(* ---- CppExport.cpp:464-529 container infos ---- *)
Definition find_type (types : list (Z * ref)) (h : Z) : outcome ref :=
  do e <- FindPrimitive types h; Ok (match e with Some x => snd x | None => Int 0 end).
(* 464-483 *)
Definition LinkContainerIterator (nm : zmap (option Z)) (types : list (Z * ref)) (h : Z) : outcome ref :=
  if h =? 0 then Ok (Int 0)
  else match m_find h nm with None => Ok (Int 0) | Some _ => find_type types h end.
(* 488-494: the last template of a name *)
Definition template_map (rows : list row) : zmap nat :=
  fold_left (fun m p => m_set (r_hash (snd p)) (fst p) m) (combine (seq 0 (length rows)) rows) [].
(* 504-528: which primitives info i is given to *)
Definition parent_info (T : table) (types : list (Z * ref)) (fm : zmap nat) (arr : cell -> list ref)
    (h : Z) (i : nat) (ci : loc -> option nat) : outcome (loc -> option nat) :=
  do t <- find_type types h;
  match t with
  | Ptr l => Ok (upd ci l (Some i))
  | Int _ =>
      match m_find h (template_map (T KTemplate)) with
      | Some t => each (fun r ci => do l <- loc_of r; Ok (upd ci l (Some i))) (arr (AInstances, (KTemplate, t))) ci
      | None =>
          match m_find h fm with
          | Some f => Ok (upd ci (KField, f) (Some i))
          | None => Ok ci
          end
      end
  end.
Definition link_info (T : table) (nm : zmap (option Z)) (types : list (Z * ref)) (fm : zmap nat) (arr : cell -> list ref)
    (e : nat * info) (s : list (ref * ref) * (loc -> option nat)) : outcome (list (ref * ref) * (loc -> option nat)) :=
  let (its, ci) := s in
  do r <- LinkContainerIterator nm types (i_read (snd e));
  do w <- LinkContainerIterator nm types (i_write (snd e));
  do ci' <- parent_info T types fm arr (i_hash (snd e)) (fst e) ci;
  Ok (its ++ [(r, w)], ci').

(* ---- CppExport.cpp:531-567 BuildBaseClassArrays ---- *)
(* 536-557: the bases collected for each derived type *)
Definition collect_base (types : list (Z * ref)) (e : Z * type_inheritance) (acc : loc -> list ref) : outcome (loc -> list ref) :=
  do b <- find_type types (n_hash (ti_base (snd e)));
  match b with
  | Int _ => Ok acc
  | Ptr _ =>
      do d <- find_type types (n_hash (ti_derived (snd e)));
      match d with
      | Int _ => Ok acc
      | Ptr l => Ok (upd acc l (acc l ++ [b]))
      end
  end.
(* 559-566 *)
Definition set_bases (acc : loc -> list ref) (arr : cell -> list ref) : cell -> list ref :=
  fun c => match fst c, acc (snd c) with ABases, b :: r => b :: r | _, _ => arr c end.

(* ---- CppExport.cpp:722-779 constructors and destructors ---- *)
Definition method_hash (names : list Z) (r : row) (suffix : string) : outcome Z :=
  do t <- text_of names r; HashNameString (t ++ str suffix ++ [0]) 0.
(* 722-740, one class *)
Definition find_constructors (names : list Z) (T : table) (arr : cell -> list ref) (l : loc) (s : (loc -> ref) * (loc -> ref))
  : outcome ((loc -> ref) * (loc -> ref)) :=
  let (ctor, dtor) := s in
  do r <- get_row T l;
  do ch <- method_hash names r "::ConstructObject";
  do dh <- method_hash names r "::DestructObject";
  do es <- entries T (arr (AMethods, l));
  do c <- find_type es ch;
  do d <- find_type es dh;
  Ok (upd ctor l c, upd dtor l d).
(* 742-753: std::map::insert keeps the first function of a name *)
Definition function_map (rows : list row) : zmap nat :=
  fold_left (fun m p => m_insert (r_hash (snd p)) (fst p) m) (combine (seq 0 (length rows)) rows) [].
(* 755-779, one template type *)
Definition template_constructors (names : list Z) (T : table) (l : loc) (s : (loc -> ref) * (loc -> ref) * (loc -> ref))
  : outcome ((loc -> ref) * (loc -> ref) * (loc -> ref)) :=
  let '(ctor, dtor, par) := s in
  do r <- get_row T l;
  do ch <- method_hash names r "::ConstructObject";
  do dh <- method_hash names r "::DestructObject";
  let '(ctor, par) := match m_find ch (function_map (T KFunction)) with
                      | Some f => (upd ctor l (Ptr (KFunction, f)), upd par (KFunction, f) (Ptr l))
                      | None => (ctor, par)
                      end in
  let '(dtor, par) := match m_find dh (function_map (T KFunction)) with
                      | Some f => (upd dtor l (Ptr (KFunction, f)), upd par (KFunction, f) (Ptr l))
                      | None => (dtor, par)
                      end in
  Ok (ctor, dtor, par).

(* ---- CppExport.cpp:781-890 flag attributes; values of attrFlag_*: inc/clcpp/clcpp.h:338-365 ---- *)
Definition attrFlag_Replicate : Z := 256.
Definition int_value (r : row) : Z := hd 0 (r_data r).
(* 796-828, one attribute *)
Definition attribute_bits (names : list Z) (T : table) (a : ref) : outcome Z :=
  do l <- loc_of a;
  do r <- get_row T l;
  do h1 <- c_hash "disk_transient"; if r_hash r =? h1 then Ok 1 else
  do h2 <- c_hash "network_transient"; if r_hash r =? h2 then Ok 2 else
  do h3 <- c_hash "replicate_transient"; if r_hash r =? h3 then Ok 4 else
  do h4 <- c_hash "export_transient"; if r_hash r =? h4 then Ok 8 else
  do h5 <- c_hash "transient"; if r_hash r =? h5 then Ok 11 else
  do h6 <- c_hash "pre_save"; if r_hash r =? h6 then Ok 64 else
  do h7 <- c_hash "post_load"; if r_hash r =? h7 then Ok 128 else
  do h8 <- c_hash "replicate"; if r_hash r =? h8 then Ok attrFlag_Replicate else
  do t <- text_of names r;
  if is_prefix (str "load_") t then Ok 16 else
  if is_prefix (str "save_") t then Ok 32 else
  do h9 <- c_hash "custom_flag";
  if (r_hash r =? h9) && kind_eqb (fst l) KIntAttr then Ok (u32 (int_value r)) else Ok 0.
(* 781-831 GetFlagAttributeBits *)
Definition GetFlagAttributeBits (names : list Z) (T : table) (attrs : list ref) : outcome Z :=
  each (fun a bits => do b <- attribute_bits names T a; Ok (Z.lor bits b)) attrs 0.
(* 833-841 AddFlagAttributeBits for the four tables *)
Definition AddFlagAttributeBits (names : list Z) (T : table) (arr : cell -> list ref) (ls : list loc) (flags : loc -> Z) : outcome (loc -> Z) :=
  each (fun l flags => do b <- GetFlagAttributeBits names T (arr (AAttributes, l)); Ok (upd flags l b)) ls flags.
(* 848-857: custom flags and the mask *)
Definition custom_flags (T : table) (hc hi : Z) (a : ref) (s : Z * Z) : outcome (Z * Z) :=
  do l <- loc_of a;
  do r <- get_row T l;
  if (r_hash r =? hc) && kind_eqb (fst l) KIntAttr then Ok (Z.lor (fst s) (u32 (int_value r)), snd s)
  else if r_hash r =? hi then Ok (fst s, 4294967295) else Ok s.
(* 843-862 *)
Definition GetInheritedFlagAttributes (T : table) (arr : cell -> list ref) (flags : loc -> Z) (l : loc) : outcome Z :=
  do hc <- c_hash "custom_flag";
  do hi <- c_hash "custom_flag_inherit";
  do s <- each (custom_flags T hc hi) (arr (AAttributes, l)) (0, 0);
  Ok (Z.lor (Z.land (flags l) attrFlag_Replicate) (Z.land (fst s) (snd s))).
(* 864-884; fuel bounds the depth of the recursion *)
Fixpoint InheritFlags (fuel : nat) (T : table) (arr : cell -> list ref) (r : ref) (flags : loc -> Z) : outcome (Z * (loc -> Z)) :=
  match fuel with
  | O => Fuel
  | S n =>
      do l <- loc_of r;
      do s <- (fix loop (bases : list ref) (s : Z * (loc -> Z)) : outcome (Z * (loc -> Z)) :=
                 match bases with
                 | [] => Ok s
                 | b :: rest =>
                     do x <- InheritFlags n T arr b (snd s);
                     loop rest (Z.lor (fst s) (fst x), snd x)
                 end) (arr (ABases, l)) (0, flags);
      if kind_eqb (fst l) KClass then
        do own <- GetInheritedFlagAttributes T arr (snd s) l;
        let inh := Z.lor (fst s) own in
        Ok (inh, upd (snd s) l (Z.lor (snd s l) inh))
      else Ok s
  end.
(* 886-890 *)
Definition InheritFlagAttributes (fuel : nat) (T : table) (arr : cell -> list ref) (flags : loc -> Z) : outcome (loc -> Z) :=
  each (fun l flags => do x <- InheritFlags fuel T arr (Ptr l) flags; Ok (snd x)) (locs T KClass) flags.

(* ---- CppExport.cpp:892-922 primitive attributes ---- *)
Definition attr_ref_map (es : list (Z * ref)) : zmap ref := fold_left (fun m e => m_set (fst e) (snd e) m) es [].

(* ---- CppExport.cpp:924-1032 verification ---- *)
Definition VerifyPtr (L : layout) (nm : zmap (option Z)) (r : ref) : ref :=
  match m_find (to_hash L r) nm with Some _ => Int 0 | None => r end.
(* 983-986: the parent of a primitive attribute is not verified *)
Definition verify_parents (L : layout) (nm : zmap (option Z)) (par : loc -> ref) : loc -> ref :=
  fun l => match fst l with KPrimAttr => par l | _ => VerifyPtr L nm (par l) end.
(* 988-998: base types *)
Definition verify_bases (L : layout) (nm : zmap (option Z)) (arr : cell -> list ref) : cell -> list ref :=
  fun c => match fst c with ABases => map (VerifyPtr L nm) (arr c) | _ => arr c end.

(* ---- CppExport.cpp:1034-1090 isolation ---- *)
(* src/clReflectCore/Array.h:103-112 *)
Definition stable_remove {A} (a : list A) (i : Z) : outcome (list A) :=
  do _ <- assert (i <? zlen a);
  Ok (slice a 0 i ++ slice a (i + 1) (zlen a - i - 1)).
(* the loops of 1034-1045 and 1047-1072; each turn removes an entry or moves on *)
Fixpoint remove_loop (n : nat) (bad : ref -> outcome bool) (a : list ref) (i : Z) : outcome (list ref) :=
  match n with
  | O => Fuel
  | S n =>
      if i <? zlen a then
        do x <- rdA a i;
        do b <- bad x;
        if b then do a' <- stable_remove a i; remove_loop n bad a' i
        else remove_loop n bad a (i + 1)
      else Ok a
  end.
Definition remove_if (bad : ref -> outcome bool) (a : list ref) : outcome (list ref) := remove_loop (S (length a)) bad a 0.
Definition bad_field (typ : loc -> ref) (f : ref) : outcome bool := do l <- loc_of f; Ok (is_null (typ l)).
Fixpoint any_bad (typ : loc -> ref) (ps : list ref) : outcome bool :=
  match ps with
  | [] => Ok false
  | p :: rest => do b <- bad_field typ p; if b then Ok true else any_bad typ rest
  end.
Definition bad_function (typ : loc -> ref) (arr : cell -> list ref) (ret : loc -> ref) (f : ref) : outcome bool :=
  do l <- loc_of f;
  do b <- any_bad typ (arr (AParameters, l));
  if is_null (ret l) then Ok b
  else do b2 <- bad_field typ (ret l); Ok (b || b2).
(* 1074-1090 *)
Definition isolate_class (typ : loc -> ref) (ret : loc -> ref) (l : loc) (arr : cell -> list ref) : outcome (cell -> list ref) :=
  do fs <- remove_if (bad_field typ) (arr (AFields, l));
  let arr := updc arr (AFields, l) fs in
  do ms <- remove_if (bad_function typ arr ret) (arr (AMethods, l));
  Ok (updc arr (AMethods, l) ms).
Definition isolate_namespace (typ : loc -> ref) (ret : loc -> ref) (l : loc) (arr : cell -> list ref) : outcome (cell -> list ref) :=
  do fs <- remove_if (bad_function typ arr ret) (arr (AFunctions, l));
  Ok (updc arr (AFunctions, l) fs).
Definition IsolateInvalidPrimitives (T : table) (typ ret : loc -> ref) (arr : cell -> list ref) : outcome (cell -> list ref) :=
  do arr <- each (isolate_class typ ret) (locs T KClass) arr;
  each (isolate_namespace typ ret) (locs T KNamespace) arr.

(* the exported database, clcpp_internal.h DatabaseMem *)
Record export := mk_export {
  x_name_text : list Z;
  x_names : list (Z * option Z);         (* hash, offset of the text *)
  x_attr_text : list Z;
  x_attr_vals : list Z;                  (* offset of the value of each text attribute *)
  x_rows : table;
  x_infos : list info;
  x_iters : list (ref * ref);            (* read and write iterator type of each info *)
  x_types : list (Z * ref);              (* type_primitives, with the hash of each *)
  x_parent : loc -> ref;
  x_type : loc -> ref;
  x_args : loc -> list ref;
  x_arr : cell -> list ref;
  x_ret : loc -> ref;
  x_ctor : loc -> ref;
  x_dtor : loc -> ref;
  x_flags : loc -> Z;
  x_prim : loc -> ref;
  x_ci : loc -> option nat;
  x_global : ak -> list loc }.

Definition row_or (T : table) (l : loc) : row :=
  match nth_error (T (fst l)) (snd l) with Some r => r | None => mk_row 0 None 0 0 0 [] 0 [] end.

(* CppExport.cpp:1093-1227 BuildCppExport *)
Definition BuildCppExport (L : layout) (fuel : nat) (db : database) : outcome export :=
  do n <- BuildNames L (m_names db);
  let '(names, nm, xnames) := n in
  let '(T, infos, nm) := BuildTables db nm in
  do texts <- AssignAttributeText L (map (fun e => ta_value (snd e)) (m_text_attrs db));
  let tps := GatherTypePrimitives T in
  (* 1129-1150 *)
  let par := fun l => Int (r_parent (row_or T l)) in
  do s <- ParentAll L T [] passes (par, fun _ => []);
  (* 1154-1163 *)
  do fm <- FieldParentMap names T (fst s);
  do s <- ParentAll L T fm attr_passes s;
  let (par, arr) := s in
  (* 1166-1167 *)
  do tes <- entries T (map Ptr tps);
  let cm := child_map tes in
  let typ := fun l => link1 L cm (Int (r_type (row_or T l))) in
  let args := fun l => map (fun h => link1 L cm (Int h)) (r_args (row_or T l)) in
  (* 1171 *)
  do rh <- c_hash "return";
  do s <- each (assign_return T rh) (locs T KFunction) (arr, fun _ => Int 0);
  let (arr, ret) := s in
  (* 1174 *)
  let glob := fun a => match a with
                       | ANamespaces => GatherGlobalPrimitives T par KNamespace
                       | ATypes => GatherGlobalPrimitives T par KType
                       | AEnums => GatherGlobalPrimitives T par KEnum
                       | AClasses => GatherGlobalPrimitives T par KClass
                       | AFunctions => GatherGlobalPrimitives T par KFunction
                       | ATemplates => GatherGlobalPrimitives T par KTemplate
                       | _ => []
                       end in
  (* 1179-1186 *)
  do arr <- SortPrimitives L T arr;
  let types := lay_sort L tes in
  (* 1190-1193 *)
  do s <- each (link_info T nm types fm arr) (combine (seq 0 (length infos)) infos) ([], fun _ => None);
  let (iters, ci) := s in
  do acc <- each (collect_base types) (m_inherits db) (fun _ => []);
  let arr := set_bases acc arr in
  (* 1198-1199 *)
  do s <- each (find_constructors names T arr) (locs T KClass) (fun _ => Int 0, fun _ => Int 0);
  do s <- each (template_constructors names T) (locs T KTemplateType) (fst s, snd s, par);
  let '(ctor, dtor, par) := s in
  (* 1203-1209 *)
  do flags <- AddFlagAttributeBits names T arr (locs T KEnum ++ locs T KField ++ locs T KFunction ++ locs T KClass) (fun _ => 0);
  do flags <- InheritFlagAttributes fuel T arr flags;
  (* 1212 *)
  do fes <- entries T (map Ptr (locs T KFunction));
  let am := attr_ref_map (types ++ fes) in
  let prm := fun l => link1 L am (Int (r_ref (row_or T l))) in
  (* 1218 *)
  let par := verify_parents L nm par in
  let typ := fun l => VerifyPtr L nm (typ l) in
  let args := fun l => map (VerifyPtr L nm) (args l) in
  let prm := fun l => VerifyPtr L nm (prm l) in
  let arr := verify_bases L nm arr in
  (* 1224 *)
  do arr <- IsolateInvalidPrimitives T typ ret arr;
  Ok (mk_export names xnames (fst texts) (snd texts) T infos iters types par typ args arr ret ctor dtor flags prm ci glob).
