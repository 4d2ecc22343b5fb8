(* What a scan is meant to record, stated over the declarations alone: no database, no caches, no flags set and
   restored, no order of calls. *)
From Verif Require Import Base Text HashModel Maps FileUtilsModel FileUtilsSpec DatabaseModel AttrModel ScanModel.
Local Open Scope string_scope.
Local Open Scope list_scope.
Local Open Scope Z_scope.

(* the name a text has in a database: the text with its hash (C01, C02), none if the hash is zero (C50) *)
Definition thash (t : list Z) : Z := match HashNameString (t ++ [0]) 0 with Ok h => h | _ => 0 end.
Definition name_of (t : list Z) : name := if thash t =? 0 then noname else mk_name (thash t) t.
Definition prim_of (nm parent : list Z) : prim := mk_prim (name_of nm) (name_of parent).

(* ---- C++ types ---- *)
(* a type behind its typedefs and elaborations, with the consts met on the way *)
Inductive stands : qt -> bool -> ty -> Prop :=
| st_here : forall c t, (forall q, t <> T_sugar q) -> stands (Q c t) c t
| st_alias : forall c q c' t, stands q c' t -> stands (Q c (T_sugar q)) (c || c') t.
(* one array, written as such *)
Inductive sized : qt -> Z -> qt -> Prop :=
| sz_array : forall c n e, n <= 4294967295 -> sized (Q c (T_array n e)) n e
| sz_other : forall c t, (forall n e, t <> T_array n e) -> sized (Q c t) 0 (Q c t).
(* one pointer or reference; the const is that of what it points to *)
Inductive shape : qt -> qop -> bool -> ty -> Prop :=
| sh_pointer : forall q c0 to c t, stands q c0 (T_pointer to) -> stands to c t -> shape q POINTER c t
| sh_reference : forall q c0 to c t, stands q c0 (T_reference to) -> stands to c t -> shape q REFERENCE c t
| sh_value : forall q c t, stands q c t -> (forall to, t <> T_pointer to) -> (forall to, t <> T_reference to) -> shape q VALUE c t.
(* what is left must be a builtin type, an enum or a class *)
Definition nameable (t : ty) : Prop :=
  match t with T_builtin _ | T_enum _ | T_record _ _ | T_tspec _ _ => True | _ => False end.

(* names as the compiler prints them lose their keywords, first occurrence first, and spaces before * and & *)
Inductive removed (pat : list Z) : list Z -> list Z -> Prop :=
| rm_none : forall s, (forall a b, s <> a ++ pat ++ b) -> removed pat s s
| rm_first : forall a b r, (forall a' b', a ++ pat ++ b = a' ++ pat ++ b' -> (length a <= length a')%nat) ->
    removed pat (a ++ b) r -> removed pat (a ++ pat ++ b) r.
Definition tidied (s r : list Z) : Prop := exists a b c d,
  removed (str "enum ") s a /\ removed (str "struct ") a b /\ removed (str "class ") b c /\
  replaced (str " *") (str "*") c d /\ replaced (str " &") (str "&") d r.

(* ---- template specialisations ---- *)
Definition spec_of (t : ty) : option Z :=
  match t with T_record _ (RD_spec i) | T_tspec _ (RD_spec i) => Some i | _ => None end.
(* a template alias for a class that is not a specialisation *)
Definition alias_of_plain (t : ty) : bool := match t with T_tspec _ RD_plain => true | _ => false end.
Definition arg_text (i : pinfo) : list Z := pi_type i ++ match q_op (pi_qual i) with POINTER => str "*" | _ => [] end.
Fixpoint joined_by_comma (l : list (list Z)) : list Z :=
  match l with [] => [] | [t] => t | t :: r => t ++ str "," ++ joined_by_comma r end.
Definition instance_name (c : cts) (infos : list pinfo) : list Z :=
  s_template c ++ str "<" ++ joined_by_comma (map arg_text infos) ++ str ">".

Section Supported.
Variable E : env.
(* described q i: q is a type the database can describe, and i is its description *)
Inductive described : qt -> pinfo -> Prop :=
| described_as : forall q n e op c t raw nm, sized q n e -> shape e op c t -> nameable t -> spells t (printed t) raw ->
    tidied raw nm -> described q (mk_pinfo nm (mk_qual op c) n)
(* spells t raw nm: nm is the name of t, which prints as raw *)
with spells : ty -> list Z -> list Z -> Prop :=
| sp_printed : forall t raw, spec_of t = None -> alias_of_plain t = false -> spells t raw raw
| sp_instance : forall t i raw nm, spec_of t = Some i -> instance i nm -> spells t raw nm
(* instance i nm: specialisation i can be described, and nm is its name *)
with instance : Z -> list Z -> Prop :=
| is_instance : forall i infos bs, zlen (s_args (E i)) <= 3 -> arguments (s_args (E i)) infos -> based (s_bases (E i)) bs ->
    instance i (instance_name (E i) infos)
(* arguments l infos: type arguments only, no references or arrays *)
with arguments : list targ -> list pinfo -> Prop :=
| args_nil : arguments [] []
| args_cons : forall q i r is, described q i -> q_op (pi_qual i) <> REFERENCE -> pi_count i = 0 -> arguments r is ->
    arguments (TA_type q :: r) (i :: is)
(* based l bs: bs are the names of the base classes l, none of them virtual *)
with based : list base -> list (list Z) -> Prop :=
| based_nil : based [] []
| based_cons : forall b c t a raw nm r bs, stands (b_type b) c t -> b_virtual b = false ->
    removed (str "struct ") ((if c then str "const " else []) ++ printed t) a -> removed (str "class ") a raw ->
    spells t raw nm -> based r bs -> based (b :: r) (nm :: bs).
(* what is recorded for it *)
Definition template_record (i : Z) (tt : template_type) : Prop := exists infos bs,
  zlen (s_args (E i)) <= 3 /\ arguments (s_args (E i)) infos /\ based (s_bases (E i)) bs /\
  tt = mk_ttype (prim_of (instance_name (E i) infos) (s_template (E i))) (u32 (s_size (E i)))
         (firstn 4 (map (fun x => name_of (pi_type x)) infos ++ repeat noname 4))
         (firstn 4 (map (fun x => qop_eqb (q_op (pi_qual x)) POINTER) infos ++ repeat false 4)).
End Supported.

(* specialisations whose names have the same hash are all describable or none is. (Two of them can have the same name:
   const is not part of a template argument's text.) Es holds the translation units of the run *)
Definition coherent (Es : env -> Prop) : Prop := forall E i infos E' j nm, Es E -> Es E' ->
  zlen (s_args (E i)) <= 3 -> arguments E (s_args (E i)) infos -> instance E' j nm ->
  thash (instance_name (E i) infos) = thash nm -> exists bs, based E (s_bases (E i)) bs.

(* the specialisation behind a type, the ones a specialisation mentions *)
Definition uses_type (q : qt) (k : Z) : Prop := exists n e op c t, sized q n e /\ shape e op c t /\ spec_of t = Some k.
Definition uses_base (b : base) (k : Z) : Prop := exists c t, stands (b_type b) c t /\ spec_of t = Some k.
Definition mentions (c : cts) (k : Z) : Prop :=
  (exists q, In (TA_type q) (s_args c) /\ uses_type q k) \/ (exists b, In b (s_bases c) /\ uses_base b k).

(* ---- what is recorded, in source order ---- *)
Inductive event :=
| Attribute_ (owner : list Z) (a : attr)
| Namespace_ (p : prim)
| Class_ (p : prim) (is_class : bool) (size : option Z)     (* no size: a forward declaration *)
| Template_ (p : prim)
| Enum_ (e : enum)
| Const_ (c : enum_const)
| Function_ (f : function)
| Field_ (f : field)
| Array_ (nm : list Z) (count : Z)
| Type_ (nm : list Z) (size : Z)
| Container_ (nm : list Z) (c : list Z * list Z * bool)
| Instance_ (nm : list Z)                (* a template instance is used *)
| Derived_ (derived base : list Z).

(* ---- marks ---- *)
Inductive mark := Unmarked | Full | Part | Never.
(* the attributes of an annotation, with or without 'attr:' in front; C40 says which they are *)
Definition annotation (sf : list Z -> Z) (text : list Z) (l : list attr) : Prop :=
  exists t names, (text = str "attr:" ++ t \/ (text = t /\ forall r, text <> str "attr:" ++ r)) /\
    ParseAttributes sf [] (t ++ [0]) = Ok (l, names).
Inductive annotations (sf : list Z -> Z) : list (list Z) -> list attr -> Prop :=
| an_nil : annotations sf [] []
| an_cons : forall t l r ls, annotation sf t l -> annotations sf r ls -> annotations sf (t :: r) (l ++ ls).
(* what clcpp_internal namespaces ask for: the first annotation of the class in front *)
Definition request (d : decl) : list (list Z) :=
  match d with
  | D_namespace h (D_record h' _ _ :: _) =>
      if list_eqb (h_name h) (str "clcpp_internal") then firstn 1 (h_annots h') else []
  | _ => []
  end.
(* the first request for a symbol counts *)
Fixpoint spec_mark (asked : list (list Z)) (nm : list Z) : mark :=
  match asked with
  | [] => Unmarked
  | a :: r => if list_eqb a (str "full-" ++ nm) then Full else if list_eqb a (str "part-" ++ nm) then Part else spec_mark r nm
  end.
(* a request for a container, whose parts have no dashes; the last one for a container counts *)
Definition container_request (a : list Z) (c : list Z * (list Z * list Z * bool)) : Prop :=
  let '(nm, (rd, wr, key)) := c in
  a = str "container-" ++ nm ++ str "-" ++ rd ++ str "-" ++ wr ++ str "-" ++ (if key then str "haskey" else str "nokey") /\
  ~ In 45 nm /\ ~ In 45 rd /\ ~ In 45 wr.
Definition containers_of (asked : list (list Z)) (cs : list (list Z * (list Z * list Z * bool))) : Prop :=
  NoDup (map fst cs) /\
  forall nm v, In (nm, v) cs <-> exists l1 a l2, asked = l1 ++ a :: l2 /\ container_request a (nm, v) /\
    forall a' v', In a' l2 -> ~ container_request a' (nm, v').
(* the first attribute decides, and where it says nothing the requests do *)
Definition is_named (a : attr) (t : list Z) : bool := n_hash (attr_name a) =? thash t.
Definition own_mark (asked : list (list Z)) (nm : list Z) (l : list attr) : mark :=
  match l with
  | [] => spec_mark asked nm
  | a :: _ => if is_named a (str "reflect") then Full else if is_named a (str "reflect_part") then Part
              else if is_named a (str "noreflect") then Never else spec_mark asked nm
  end.
(* the attributes recorded: without the first when there is a mark, and none of a declaration marked noreflect in
   a context that is not reflected *)
Definition kept_attributes (allow : bool) (m : mark) (l : list attr) : list attr :=
  match m with Unmarked => l | Full | Part => tl l | Never => if allow then tl l else [] end.
(* forward declarations are always reflected in part *)
Definition final_mark (fwd : bool) (m : mark) : mark := if fwd then Part else m.
Definition selects (allow : bool) (m : mark) : bool :=
  match m with Full | Part => true | Unmarked => allow | Never => false end.
Definition passes_on (allow : bool) (m : mark) : bool := match m with Full => true | _ => allow end.
Definition forward (d : decl) : bool :=
  match d with
  | D_record _ r _ => negb (r_def r) && r_free r
  | D_leaf _ (L_template _ fwd) => fwd
  | _ => false
  end.
Definition header (d : decl) : option hdr :=
  match d with D_namespace h _ | D_record h _ _ | D_leaf h _ => Some h | D_unnamed => None end.

Section Walk.
Variables (sf : list Z -> Z) (E : env) (asked : list (list Z)).
(* the template instance a type or base class is *)
Inductive used (uses : Z -> Prop) : list event -> Prop :=
| used_none : (forall k, ~ uses k) -> used uses []
| used_one : forall k nm, uses k -> instance E k nm -> used uses [Instance_ nm].
(* one field or parameter, and the array it may be *)
Inductive made : qt -> list Z -> list Z -> Z -> field -> list event -> Prop :=
| made_field : forall q nm owner index i us, described E q i -> used (uses_type q) us ->
    made q nm owner index (mk_field (prim_of nm owner) (name_of (pi_type i)) (pi_qual i) index 0)
      (us ++ if pi_count i =? 0 then [] else [Array_ (owner ++ str "::" ++ nm) (pi_count i)]).
(* the base classes of a class, all or up to the first that cannot be described *)
Inductive derives (nm : list Z) : list base -> bool -> list event -> Prop :=
| dv_nil : derives nm [] true []
| dv_cons : forall b r n us all evs, based E [b] [n] -> used (uses_base b) us -> derives nm r all evs ->
    derives nm (b :: r) all (us ++ Derived_ nm n :: evs)
| dv_stop : forall b r, (forall n, ~ based E [b] [n]) -> derives nm (b :: r) false [].
Definition unsupported (q : qt) : Prop := forall i, ~ described E q i.
(* parameters, numbered and named: all of them, or the arrays up to the first that cannot be described *)
Definition param_name (nm : list Z) (index : Z) : list Z := match nm with [] => str "unnamed" ++ itoa index | _ => nm end.
Inductive params (owner : list Z) : Z -> list (list Z * qt) -> option (list field) -> list event -> Prop :=
| ps_nil : forall i, params owner i [] (Some []) []
| ps_bad : forall i nm q r, unsupported q -> params owner i ((nm, q) :: r) None []
| ps_cons : forall i nm q r f ev fs evs, made q (param_name nm i) owner i f ev -> params owner (i + 1) r (Some fs) evs ->
    params owner i ((nm, q) :: r) (Some (f :: fs)) (ev ++ evs)
| ps_stop : forall i nm q r f ev evs, made q (param_name nm i) owner i f ev -> params owner (i + 1) r None evs ->
    params owner i ((nm, q) :: r) None (ev ++ evs).
Definition set_uid (uid : Z) (f : field) : field := mk_field (f_prim f) (f_type f) (f_qual f) (f_offset f) uid.
(* a function with its return value, unless the type is called void, and its parameters: all or nothing *)
Inductive function_events (f : fn) (nm parent : list Z) (this : list field) : list event -> Prop :=
| fe_again : f_first f = false -> function_events f nm parent this []
| fe_return : f_first f = true -> unsupported (f_ret f) -> function_events f nm parent this []
| fe_param : forall ret ev evs, f_first f = true -> made (f_ret f) (str "return") nm (-1) ret ev ->
    params nm (zlen this) (f_params f) None evs -> function_events f nm parent this (ev ++ evs)
| fe_all : forall ret ev ps evs uid, f_first f = true -> made (f_ret f) (str "return") nm (-1) ret ev ->
    params nm (zlen this) (f_params f) (Some ps) evs -> CalculateFunctionUniqueID (this ++ ps) = Ok uid ->
    function_events f nm parent this
      (ev ++ evs ++ Function_ (mk_func (prim_of nm parent) uid 0) ::
       (if list_eqb (n_text (f_type ret)) (str "void") then [] else [Field_ (set_uid uid ret)]) ++
       map (fun p => Field_ (set_uid uid p)) (this ++ ps)).
Definition constant (enum_name parent : list Z) (c : list Z * Z) : event :=
  Const_ (mk_econst (prim_of (match parent with [] => fst c | _ => parent ++ str "::" ++ fst c end) enum_name) (s32 (snd c))).
Inductive leaf_events (nm parent : list Z) (layout : bool) : leaf -> list event -> Prop :=
| le_enum : forall scoped consts, leaf_events nm parent layout (L_enum scoped consts)
    (Enum_ (mk_enum (prim_of nm parent) 4 scoped) :: map (constant nm parent) consts)
| le_function : forall f evs, function_events f nm parent [] evs -> leaf_events nm parent layout (L_function f) evs
| le_operator : forall inst this f, leaf_events nm parent layout (L_method true inst this f) []
| le_static : forall this f evs, function_events f nm parent [] evs -> leaf_events nm parent layout (L_method false false this f) evs
| le_bad_this : forall this f, unsupported this -> leaf_events nm parent layout (L_method false true this f) []
| le_method : forall this f t ev evs, made this (str "this") nm 0 t ev -> function_events f nm parent [t] evs ->
    leaf_events nm parent layout (L_method false true this f) (ev ++ evs)
| le_anonymous : forall n bits q, leaf_events nm parent layout (L_field true n bits q) []
| le_bad_field : forall n bits q, unsupported q -> leaf_events nm parent layout (L_field false n bits q) []
| le_field : forall n bits q f ev, layout = true -> made q n parent (s32 (u32 (bits / 8))) f ev ->
    leaf_events nm parent layout (L_field false n bits q) (ev ++ [Field_ f])
| le_template : forall k fwd, k <= 4 -> leaf_events nm parent layout (L_template k fwd) [Template_ (prim_of nm parent)]
| le_big_template : forall k fwd, 4 < k -> leaf_events nm parent layout (L_template k fwd) []
| le_other : leaf_events nm parent layout L_other [].

(* walk allow parent layout d evs: d, found in the scope parent, where everything is reflected if allow says so,
   gives evs *)
Inductive walk : bool -> list Z -> bool -> decl -> list event -> Prop :=
| wk_unnamed : forall allow parent layout, walk allow parent layout D_unnamed []
| wk_invalid : forall allow parent layout d h, header d = Some h -> h_invalid h = true -> walk allow parent layout d []
| wk_left : forall allow parent layout d h l m, header d = Some h -> h_invalid h = false -> annotations sf (h_annots h) l ->
    m = own_mark asked (h_name h) l -> selects allow (final_mark (forward d) m) = false ->
    walk allow parent layout d (map (Attribute_ (h_name h)) (kept_attributes allow m l))
| wk_taken : forall allow parent layout d h l m evs, header d = Some h -> h_invalid h = false -> annotations sf (h_annots h) l ->
    m = own_mark asked (h_name h) l -> selects allow (final_mark (forward d) m) = true ->
    inside (passes_on allow (final_mark (forward d) m)) parent layout d evs ->
    walk allow parent layout d (map (Attribute_ (h_name h)) (kept_attributes allow m l) ++ evs)
with inside : bool -> list Z -> bool -> decl -> list event -> Prop :=
| in_namespace : forall allow parent layout h l evs, walks allow (h_name h) false l evs ->
    inside allow parent layout (D_namespace h l) (Namespace_ (prim_of (h_name h) parent) :: evs)
(* a declaration that is no forward declaration; virtual bases; bases that cannot be described *)
| in_repeated : forall allow parent layout h r l, r_def r = false -> r_free r = false -> inside allow parent layout (D_record h r l) []
| in_virtual : forall allow parent layout h r l, r_def r = true -> r_vbases r = true -> inside allow parent layout (D_record h r l) []
| in_bad_bases : forall allow parent layout h r l bs, r_def r = true -> r_vbases r = false -> derives (h_name h) (r_bases r) false bs ->
    inside allow parent layout (D_record h r l) bs
| in_forward : forall allow parent layout h r l, r_def r = false -> r_free r = true -> r_anon r = false ->
    inside allow parent layout (D_record h r l) [Class_ (prim_of (h_name h) parent) (r_class r) None]
| in_forward_anonymous : forall allow parent layout h r l evs, r_def r = false -> r_free r = true -> r_anon r = true ->
    walks allow parent true l evs -> inside allow parent layout (D_record h r l) evs
| in_class : forall allow parent layout h r l bs evs, r_def r = true -> r_vbases r = false -> derives (h_name h) (r_bases r) true bs -> r_anon r = false ->
    walks allow (h_name h) true l evs ->
    inside allow parent layout (D_record h r l) (bs ++ Class_ (prim_of (h_name h) parent) (r_class r) (Some (u32 (r_size r))) :: evs)
| in_anonymous : forall allow parent layout h r l bs evs, r_def r = true -> r_vbases r = false -> derives (h_name h) (r_bases r) true bs -> r_anon r = true ->
    walks allow parent true l evs -> inside allow parent layout (D_record h r l) (bs ++ evs)
| in_leaf : forall allow parent layout h k evs, leaf_events (h_name h) parent layout k evs -> inside allow parent layout (D_leaf h k) evs
with walks : bool -> list Z -> bool -> list decl -> list event -> Prop :=
| wks_nil : forall allow parent layout, walks allow parent layout [] []
| wks_cons : forall allow parent layout d r ev evs, walk allow parent layout d ev -> walks allow parent layout r evs ->
    walks allow parent layout (d :: r) (ev ++ evs).
(* the declarations looked at in a translation unit *)
Definition looked_at (d : decl) : bool :=
  match d with
  | D_namespace h _ => negb (list_eqb (h_name h) (str "clcpp_internal"))
  | D_record _ _ _ => true
  | D_leaf _ k => match k with L_function _ | L_enum _ _ | L_template _ _ => true | _ => false end
  | D_unnamed => false
  end.
Definition unit_events (tu : list decl) (evs : list event) : Prop := walks false [] false (filter looked_at tu) evs.

(* The same, declaration by declaration. taken allow d allow': d is reflected, and allow' holds inside it *)
Inductive taken (allow : bool) (d : decl) : bool -> Prop :=
| tk : forall h l m, header d = Some h -> h_invalid h = false -> annotations sf (h_annots h) l ->
    m = final_mark (forward d) (own_mark asked (h_name h) l) -> selects allow m = true -> taken allow d (passes_on allow m).
(* the declarations looked at, each with its scope *)
Inductive reached (tu : list decl) : bool -> list Z -> bool -> decl -> Prop :=
| rc_top : forall d, In d tu -> looked_at d = true -> reached tu false [] false d
| rc_namespace : forall allow parent layout h l allow' c, reached tu allow parent layout (D_namespace h l) ->
    taken allow (D_namespace h l) allow' -> In c l -> reached tu allow' (h_name h) false c
| rc_class : forall allow parent layout h r l allow' bs c, reached tu allow parent layout (D_record h r l) ->
    taken allow (D_record h r l) allow' -> r_def r = true -> r_vbases r = false -> derives (h_name h) (r_bases r) true bs ->
    In c l -> reached tu allow' (if r_anon r then parent else h_name h) true c
| rc_forward : forall allow parent layout h r l allow' c, reached tu allow parent layout (D_record h r l) ->
    taken allow (D_record h r l) allow' -> r_def r = false -> r_free r = true -> r_anon r = true ->
    In c l -> reached tu allow' parent true c.
(* what a declaration gives by itself *)
Inductive gives (allow : bool) (parent : list Z) (layout : bool) : decl -> event -> Prop :=
| gv_attribute : forall d h l a, header d = Some h -> h_invalid h = false -> annotations sf (h_annots h) l ->
    In a (kept_attributes allow (own_mark asked (h_name h) l) l) -> gives allow parent layout d (Attribute_ (h_name h) a)
| gv_namespace : forall h l allow', taken allow (D_namespace h l) allow' ->
    gives allow parent layout (D_namespace h l) (Namespace_ (prim_of (h_name h) parent))
| gv_base : forall h r l allow' all bs ev, taken allow (D_record h r l) allow' -> r_def r = true -> r_vbases r = false ->
    derives (h_name h) (r_bases r) all bs -> In ev bs -> gives allow parent layout (D_record h r l) ev
| gv_class : forall h r l allow' bs, taken allow (D_record h r l) allow' -> r_def r = true -> r_vbases r = false ->
    derives (h_name h) (r_bases r) true bs -> r_anon r = false ->
    gives allow parent layout (D_record h r l) (Class_ (prim_of (h_name h) parent) (r_class r) (Some (u32 (r_size r))))
| gv_forward : forall h r l allow', taken allow (D_record h r l) allow' -> r_def r = false -> r_free r = true -> r_anon r = false ->
    gives allow parent layout (D_record h r l) (Class_ (prim_of (h_name h) parent) (r_class r) None)
| gv_leaf : forall h k allow' evs ev, taken allow (D_leaf h k) allow' -> leaf_events (h_name h) parent layout k evs -> In ev evs ->
    gives allow parent layout (D_leaf h k) ev.
End Walk.
(* the types of the language, for every translation unit *)
Definition builtin_types : list (list Z * Z) :=
  [(str "void", 0); (str "bool", 1); (str "char", 1); (str "unsigned char", 1); (str "wchar_t", 4); (str "short", 2);
   (str "unsigned short", 2); (str "int", 4); (str "unsigned int", 4); (str "long", 8); (str "unsigned long", 8);
   (str "float", 4); (str "double", 8); (str "long long", 8); (str "unsigned long long", 8)].
(* a run over translation units: requests reach to the end of it, and containers come last *)
Inductive run_events (sf : list Z -> Z) : list (list Z) -> list (env * list decl) -> list event -> Prop :=
| re_end : forall asked cs, containers_of asked cs -> run_events sf asked [] (map (fun c => Container_ (fst c) (snd c)) cs)
| re_unit : forall asked E tu evs r more, unit_events sf E (asked ++ flat_map request tu) tu evs ->
    run_events sf (asked ++ flat_map request tu) r more ->
    run_events sf asked ((E, tu) :: r) (map (fun t => Type_ (fst t) (snd t)) builtin_types ++ evs ++ more).

(* ---- a database with these recorded ---- *)
Definition known {T} (h : Z) (m : zmap T) : bool := match m_find h m with Some _ => true | None => false end.
(* added under its name, behind those of the same name *)
Definition insert_named {T} (n : name) (v : T) (m : zmap T) : zmap T := mm_insert (n_hash n) v m.
(* unless there is one of that name *)
Definition insert_new {T} (n : name) (v : T) (m : zmap T) : zmap T := if known (n_hash n) m then m else insert_named n v m.
(* unless the first of that name is the same *)
Definition insert_attr {T} (same : T -> T -> bool) (n : name) (v : T) (m : zmap T) : zmap T :=
  match m_find (n_hash n) m with
  | Some w => if same w v then m else insert_named n v m
  | None => insert_named n v m
  end.
Definition note_attr (owner : list Z) (a : attr) (d : database) : database :=
  let p := name_of owner in
  match a with
  | FlagAttr n => set_flag_attrs (insert_attr prim_eqb n (mk_prim n p) (m_flag_attrs d)) d
  | IntAttr n v => set_int_attrs (insert_attr int_attr_eqb n (mk_int (mk_prim n p) v) (m_int_attrs d)) d
  | FloatAttr n v => set_float_attrs (insert_attr float_attr_eqb n (mk_float (mk_prim n p) v) (m_float_attrs d)) d
  | PrimAttr n v => set_prim_attrs (insert_attr prim_attr_eqb n (mk_pattr (mk_prim n p) v) (m_prim_attrs d)) d
  | TextAttr n v => set_text_attrs (insert_attr text_attr_eqb n (mk_text (mk_prim n p) v) (m_text_attrs d)) d
  end.
(* a class is there once; its definition gives the size *)
Definition sized_class (size : option Z) (h : Z) (m : zmap class) : zmap class :=
  match size, m_find h m with
  | Some s, Some c => m_update h (mk_class (c_prim c) s (c_is_class c)) m
  | _, _ => m
  end.
Definition note (ev : event) (d : database) : database :=
  match ev with
  | Attribute_ owner a => note_attr owner a d
  | Namespace_ p => set_namespaces (insert_new (p_name p) p (m_namespaces d)) d
  | Class_ p is_class size =>
      set_classes (sized_class size (n_hash (p_name p))
        (insert_new (p_name p) (mk_class p FORWARD_DECL_SIZE is_class) (m_classes d))) d
  | Template_ p => set_templates (insert_new (p_name p) p (m_templates d)) d
  | Enum_ e => set_enums (insert_named (p_name (e_prim e)) e (m_enums d)) d
  | Const_ c => set_enum_consts (insert_named (p_name (ec_prim c)) c (m_enum_consts d)) d
  | Function_ f => set_functions (insert_named (p_name (fn_prim f)) f (m_functions d)) d
  | Field_ f => set_fields (insert_named (p_name (f_prim f)) f (m_fields d)) d
  | Array_ nm count => set_containers (m_insert (thash nm) (mk_cinfo (name_of nm) noname noname 2 count) (m_containers d)) d
  | Type_ nm size => set_types (insert_named (name_of nm) (mk_type (mk_prim (name_of nm) noname) size) (m_types d)) d
  | Container_ nm (rd, wr, key) =>
      set_containers (m_set (thash nm) (mk_cinfo (name_of nm) (name_of rd) (name_of wr) (if key then 1 else 0) 0) (m_containers d)) d
  | Instance_ _ | Derived_ _ _ => d
  end.
Definition noted (evs : list event) (d : database) : database := fold_left (fun d ev => note ev d) evs d.
(* the tables events speak of: all but names, template types and inheritance *)
Definition blank (d : database) : database := set_names [] (set_template_types [] (set_inherits [] d)).

(* ---- the template types and the inheritance of a database ---- *)
Definition recorded_instance (d : database) (nm : list Z) : Prop := In (thash nm) (keys (m_template_types d)).
(* the entry for a base class is called base<-derived *)
Definition inherits_text (base derived : list Z) : list Z := n_text (name_of base) ++ str "<-" ++ n_text (name_of derived).
Definition inherits_entry (base derived : list Z) : Z * type_inheritance :=
  (thash (inherits_text base derived), mk_inh (name_of (inherits_text base derived)) (name_of derived) (name_of base)).
Definition recorded_base (d : database) (base derived : list Z) : Prop := In (thash (inherits_text base derived)) (keys (m_inherits d)).
(* every template type describes a specialisation of the run under its name; those it mentions are there, and its bases *)
Definition template_types_ok (Es : env -> Prop) (d : database) : Prop :=
  forall k tt, In (k, tt) (m_template_types d) -> exists E i nm, Es E /\ template_record E i tt /\ instance E i nm /\ k = thash nm /\
    (forall j u, mentions (E i) j -> instance E j u -> recorded_instance d u) /\
    (forall b n, In b (s_bases (E i)) -> based E [b] [n] -> recorded_base d n nm).
(* a base class of a specialisation *)
Definition instance_base (Es : env -> Prop) (base derived : list Z) : Prop := exists E i infos b, Es E /\
  arguments E (s_args (E i)) infos /\ derived = instance_name (E i) infos /\ In b (s_bases (E i)) /\ based E [b] [base].

(* ---- a run, declaration by declaration ---- *)
(* the translation units of a run *)
Definition units (tus : list (env * list decl)) (E : env) : Prop := In E (map fst tus).
Definition requests (tus : list (env * list decl)) : list (list Z) := flat_map (fun p => flat_map request (snd p)) tus.
Definition given (sf : list Z -> Z) (tus : list (env * list decl)) (ev : event) : Prop :=
  exists before E tu after allow parent layout d, tus = before ++ (E, tu) :: after /\
    reached sf E (requests (before ++ [(E, tu)])) tu allow parent layout d /\
    gives sf E (requests (before ++ [(E, tu)])) allow parent layout d ev.
(* the class recorded for its declarations, in source order: scope and kind of the first, size of the last definition *)
Definition class_events (h : Z) (evs : list event) : list (prim * bool * option Z) :=
  flat_map (fun ev => match ev with Class_ p c s => if n_hash (p_name p) =? h then [(p, c, s)] else [] | _ => [] end) evs.
Definition last_size (l : list (prim * bool * option Z)) : Z :=
  fold_left (fun z e => match snd e with Some s => s | None => z end) l FORWARD_DECL_SIZE.
Definition class_of (l : list (prim * bool * option Z)) : list class :=
  match l with [] => [] | (p, c, _) :: _ => [mk_class p (last_size l) c] end.
(* what the events of a run say under one hash, in source order *)
Definition named {T} (h : Z) (what : event -> option (name * T)) (evs : list event) : list T :=
  flat_map (fun ev => match what ev with Some (n, v) => if n_hash n =? h then [v] else [] | None => [] end) evs.
Definition a_field (ev : event) := match ev with Field_ f => Some (p_name (f_prim f), f) | _ => None end.
Definition a_function (ev : event) := match ev with Function_ f => Some (p_name (fn_prim f), f) | _ => None end.
Definition an_enum (ev : event) := match ev with Enum_ e => Some (p_name (e_prim e), e) | _ => None end.
Definition a_constant (ev : event) := match ev with Const_ c => Some (p_name (ec_prim c), c) | _ => None end.
Definition a_type (ev : event) := match ev with Type_ nm z => Some (name_of nm, mk_type (mk_prim (name_of nm) noname) z) | _ => None end.
Definition a_namespace (ev : event) := match ev with Namespace_ p => Some (p_name p, p) | _ => None end.
Definition a_template (ev : event) := match ev with Template_ p => Some (p_name p, p) | _ => None end.
Definition an_array (ev : event) := match ev with Array_ nm n => Some (mk_name (thash nm) nm, mk_cinfo (name_of nm) noname noname 2 n) | _ => None end.
Definition a_container (ev : event) := match ev with
  | Container_ nm (rd, wr, key) => Some (mk_name (thash nm) nm, mk_cinfo (name_of nm) (name_of rd) (name_of wr) (if key then 1 else 0) 0)
  | _ => None end.
(* specialisations that do not mention themselves, directly or through others: none has a chain of n of them below it *)
Definition ranked (n : nat) (E : env) : Prop := exists rank : Z -> nat, (forall i j, mentions (E i) j -> (rank j < rank i)%nat) /\ forall i, (rank i < n)%nat.
