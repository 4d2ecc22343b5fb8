(* C71-C74: what the exporter takes from a linker map. *)
From Verif Require Import Base BaseProofs Text HashModel HashSpec Maps FileUtilsModel FileUtilsSpec DatabaseModel MapFileModel MapFileSpec
  MapNameProofs MapNestProofs MapParamProofs MapTableProofs MapSafeProofs.

Ltac bytes := vm_compute; repeat (constructor; [split; reflexivity|]); constructor.
Definition sevens (k : nat) : Z := 7.
Lemma sevens_ok : forall k, 0 <= sevens k < 10. Proof. intros k. unfold sevens. lia. Qed.
Lemma closers_check : forall s, (forallb (fun p => negb (((fst p =? 41) || (fst p =? 62)) && (48 <=? snd p) && (snd p <=? 57))) (combine s (tl s)) = true) -> closers_ok s.
Proof.
  intros s H a c d b E Hc Hd. rewrite forallb_forall in H. assert (X : In (c, d) (combine s (tl s))).
  { subst s. clear. induction a as [|x a IH]; [left; reflexivity|]. cbn [app tl combine]. destruct (a ++ c :: d :: b) as [|y l] eqn:F; [destruct a; discriminate|]. cbn [tl combine] in IH |- *. right. exact IH. }
  apply H in X. cbn [fst snd] in X. lia.
Qed.
Ltac no_prefix := let r := fresh in let E := fresh in intros r E; vm_compute in E; discriminate.

(* ---- C71: the function's name in a signature ---- *)
(* Any signature: the name is a piece of it that starts at the front or behind a blank (or with operator) and ends at a
   parenthesis or at the end; reading it ends, whatever digits the random numbers give. *)
Theorem C71_piece : forall digits s, (forall k, 0 <= digits k < 10) -> closers_ok s -> zlen s < 3 * 10 ^ 8 ->
  exists before n after, ParseFunctionName digits s = Ok n /\ s = before ++ n ++ after /\
    (before = [] \/ (exists b, before = b ++ str " ") \/ (exists m, n = str "operator " ++ m)) /\
    (after = [] \/ exists a, after = str "(" ++ a).
Proof. intros digits s H1 H2 H3. exact (parse_ok digits s H1 H2 H3). Qed.
Print Assumptions C71_piece.

(* return type, name without template arguments, parameters, anything behind them *)
Theorem C71_plain : forall digits ret n rest, (forall k, 0 <= digits k < 10) ->
  let s := ret ++ n ++ str "(" ++ rest in
  closers_ok s -> zlen s < 3 * 10 ^ 8 -> ret = [] \/ (exists r, ret = r ++ str " ") -> (forall r, ret <> r ++ str "operator ") ->
  ~ In 40 (ret ++ n) -> ~ In 60 (ret ++ n) -> ~ In 32 n -> (forall r, ret ++ n <> r ++ str "&") ->
  (forall r, rest <> str "*)(" ++ r) -> (forall r, rest <> str "anonymous namespace)" ++ r) ->
  ParseFunctionName digits s = Ok n.
Proof. intros digits ret n rest H s. exact (parse_plain digits ret n rest H). Qed.
Print Assumptions C71_plain.

(* a template's name: its arguments may contain blanks and further templates, nested in one another *)
Theorem C71_template : forall digits ret na args nb rest, (forall k, 0 <= digits k < 10) ->
  let n := na ++ str "<" ++ args ++ str ">" ++ nb in
  let s := ret ++ n ++ str "(" ++ rest in
  closers_ok s -> zlen s < 3 * 10 ^ 8 -> ret = [] \/ (exists r, ret = r ++ str " ") -> (forall r, ret <> r ++ str "operator ") ->
  flat ret -> flat na -> nested args -> flat nb -> ~ In 32 na -> ~ In 32 nb -> (forall r, nb <> r ++ str "&") ->
  ~ In 60 rest -> ~ In 40 rest -> (forall r, rest <> str "anonymous namespace)" ++ r) ->
  ParseFunctionName digits s = Ok n.
Proof. intros digits ret na args nb rest H n s. exact (parse_nested digits ret na args nb rest H). Qed.
Print Assumptions C71_template.

(* both theorems apply to real signatures *)
Example C71_witness : ParseFunctionName sevens (str "void N::f(int, A<B> const&) const") = Ok (str "N::f") /\
  ParseFunctionName sevens (str "A<int> const& N::g<A<B<int> > >(int)") <> Ok [] /\
  ParseFunctionName sevens (str "void N::g<unsigned int, A<B<int> > >::h(int)") = Ok (str "N::g<unsigned int, A<B<int> > >::h").
Proof.
  split; [|split].
  - apply (C71_plain sevens (str "void ") (str "N::f") (str "int, A<B> const&) const") sevens_ok).
    + apply closers_check. reflexivity.
    + reflexivity.
    + right. exists (str "void"). reflexivity.
    + intros r E. apply (f_equal (@rev Z)) in E. rewrite (rev_app_distr r) in E. vm_compute in E. discriminate.
    + vm_compute. intuition discriminate.
    + vm_compute. intuition discriminate.
    + vm_compute. intuition discriminate.
    + intros r E. apply (f_equal (@rev Z)) in E. rewrite (rev_app_distr r) in E. vm_compute in E. discriminate.
    + no_prefix.
    + no_prefix.
  - vm_compute. discriminate.
  - apply (C71_template sevens (str "void ") (str "N::g") (str "unsigned int, A<B<int> > ") (str "::h") (str "int)") sevens_ok).
    + apply closers_check. reflexivity.
    + reflexivity.
    + right. exists (str "void"). reflexivity.
    + intros r E. apply (f_equal (@rev Z)) in E. rewrite (rev_app_distr r) in E. vm_compute in E. discriminate.
    + unfold flat. vm_compute. intuition discriminate.
    + unfold flat. vm_compute. intuition discriminate.
    + apply (nested_list (str "unsigned int, A") (str "B<int> ") (str " ")); [unfold flat; vm_compute; intuition discriminate| |unfold flat; vm_compute; intuition discriminate].
      apply (nested_list (str "B") (str "int") (str " ")); [unfold flat; vm_compute; intuition discriminate| |unfold flat; vm_compute; intuition discriminate].
      apply nested_flat. unfold flat. vm_compute. intuition discriminate.
    + unfold flat. vm_compute. intuition discriminate.
    + vm_compute. intuition discriminate.
    + vm_compute. intuition discriminate.
    + intros r E. apply (f_equal (@rev Z)) in E. rewrite (rev_app_distr r) in E. vm_compute in E. discriminate.
    + vm_compute. intuition discriminate.
    + vm_compute. intuition discriminate.
    + no_prefix.
Qed.
(* Findings: the exact name is not found for every signature. A template argument list that repeats inside a later one
   is put back in the wrong order; a conversion operator loses its class; a call operator its parentheses; a function
   that returns a function pointer has no name *)
Theorem C71_names_refuted :
  ParseFunctionName sevens (str "void N<int>::f<A<int> >(int)") = Ok (str ">") /\
  ParseFunctionName sevens (str "A::operator bool() const") = Ok (str "operator bool") /\
  ParseFunctionName sevens (str "A::operator()(int)") = Ok (str "A::operator") /\
  ParseFunctionName sevens (str "void (*g(int))(int)") = Ok [].
Proof. repeat split; vm_compute; reflexivity. Qed.
Print Assumptions C71_names_refuted.

(* ---- C72: function addresses ---- *)
Lemma callable_intro : forall digits U n ps k, (forall j, 0 <= digits j < 10) -> told_apart U -> plain_function U n ps k -> callable digits U n ps k.
Proof.
  intros digits U n ps k H TA [A1 [A2 [A3 [A4 [A5 [A6 [A7 [A8 [A9 [A10 [A11 [A12 A13]]]]]]]]]]]]. unfold callable. repeat (split; try assumption).
  - intros [a [b E]]. apply (A3 a b E).
  - intros r E. apply A9. rewrite E, last_last. reflexivity.
Qed.
(* A function without scope: the first function filed under its name whose parameters have the signature's types gets
   the address. If there is none, nothing changes. *)
Theorem C72_free : forall digits U d n ps k address, (forall j, 0 <= digits j < 10) -> told_apart U -> plain_function U n ps k ->
  address <> 0 -> names_of U (d_names d) -> (forall a b, n <> a ++ str "::" ++ b) ->
  exists m' fns, ProcessFunctionItem digits d (signature n ps k) address = Ok (mk_mapdb m' fns (d_fields d) (d_gettype d)) /\ names_of U m' /\ names_kept (d_names d) m' /\
    (addressed (hash32 n 0) (id_of ps) address (d_functions d) fns \/ unmatched (hash32 n 0) (id_of ps) (d_functions d) /\ fns = d_functions d).
Proof. intros digits U d n ps k address H1 H2 H3. apply process_free. apply callable_intro; assumption. Qed.
Print Assumptions C72_free.
(* A function with a scope: it is first taken for a member function, whose first parameter is a pointer to the scope
   (to const for a const function). Only if no function matches is it taken for a static or namespace function. *)
Theorem C72_scoped : forall digits U d c m ps k address, (forall j, 0 <= digits j < 10) -> told_apart U ->
  let n := c ++ str "::" ++ m in plain_function U n ps k -> address <> 0 -> names_of U (d_names d) ->
  c <> [] -> ~ In 58 m -> zlen c < 1024 -> In c U ->
  let as_member := id_of (this_text c k :: ps) in
  exists m' fns, ProcessFunctionItem digits d (signature n ps k) address = Ok (mk_mapdb m' fns (d_fields d) (d_gettype d)) /\ names_of U m' /\ names_kept (d_names d) m' /\
    (addressed (hash32 n 0) as_member address (d_functions d) fns \/
     unmatched (hash32 n 0) as_member (d_functions d) /\
     (addressed (hash32 n 0) (id_of ps) address (d_functions d) fns \/ unmatched (hash32 n 0) (id_of ps) (d_functions d) /\ fns = d_functions d)).
Proof. intros digits U d c m ps k address H1 H2 n H3. apply process_member. apply callable_intro; assumption. Qed.
Print Assumptions C72_scoped.
(* Any signature at all: a function in the table afterwards was there before, or has the address given, which is not 0;
   every function stays, its name, parent and id unchanged. *)
Theorem C72_frame : forall digits d s address d', ProcessFunctionItem digits d s address = Ok d' ->
  (forall h f, In (h, f) (d_functions d') -> In (h, f) (d_functions d) \/ fn_address f = address /\ address <> 0) /\
  (forall h f, In (h, f) (d_functions d) -> exists a, In (h, mk_func (fn_prim f) (fn_uid f) a) (d_functions d')) /\
  incl (d_fields d) (d_fields d').
Proof.
  intros digits d s address d' H. apply process_touched in H. destruct (touched_functions _ _ _ H) as [A B]. split; [exact A|]. split; [exact B|].
  destruct H as [[_ [-> _]]|h uid _ _ -> _|h e _ _ -> _ _|h f h2 p _ _ _ F _]; try apply incl_refl. intros x Hx. apply (added_In _ _ _ _ _ F). auto.
Qed.
Print Assumptions C72_frame.
(* A signature of fewer than 790 characters is read within the buffers, and reading it ends. *)
Theorem C72_defined : forall digits d s address, (forall j, 0 <= digits j < 10) -> closers_ok s -> Forall (fun c => 0 < c < 256) s -> zlen s < 790 ->
  defined (ProcessFunctionItem digits d s address).
Proof. exact process_defined. Qed.
Print Assumptions C72_defined.

(* a database with N::A::f(int) const, N::A::f(int) and a free g(unsigned int, N::A* ) *)
Definition fun_of (n : list Z) (ps : list (list Z)) : Z * function := (hash32 n 0, mk_func (mk_prim (mk_name (hash32 n 0) n) noname) (id_of ps) 0).
Definition base_texts : list (list Z) := [str "int"; str "N::A"; str "unsigned int"; str "N::A*"].
Definition base_db : mapdb := mk_mapdb [] [fun_of (str "N::A::f") [str "const N::A*"; str "int"]; fun_of (str "N::A::f") [str "N::A*"; str "int"]; fun_of (str "g") [str "unsigned int"; str "N::A*"]] [] [].
Lemma base_apart : told_apart base_texts.
Proof.
  split.
  - intros t H. cbn [base_texts In] in H. repeat (destruct H as [<-|H]; [split; [bytes|]; split; [reflexivity|vm_compute; discriminate]|]). destruct H.
  - intros t u H K E. cbn [base_texts In] in H, K. repeat (destruct H as [<-|H]); try (destruct H); repeat (destruct K as [<-|K]); try (destruct K); try reflexivity; vm_compute in E; discriminate.
Qed.
Lemma base_names : names_of base_texts (d_names base_db).
Proof. split; [exact I|]. intros h x H. discriminate. Qed.
Lemma inside_check : forall s pat, string_find s pat 0 = None -> forall a b, s <> a ++ pat ++ b.
Proof. intros s pat H a b E. pose proof (string_find_none _ _ _ H a b E). lia. Qed.
Ltac no_inside := apply inside_check; vm_compute; reflexivity.
Ltac word := split; [vm_compute; repeat (constructor; [split; [split; reflexivity|intuition discriminate]|]); constructor|split; [vm_compute; intuition discriminate|split; vm_compute; discriminate]].
Lemma int_param : parameter (str "int").
Proof. apply (parameter_type [] [] (str "int")); [left; reflexivity|constructor|word|vm_compute; discriminate|vm_compute; discriminate|vm_compute; discriminate|reflexivity|vm_compute; discriminate]. Qed.
Lemma unsigned_param : parameter (str "unsigned int").
Proof. apply (parameter_type (str "unsigned ") [] (str "int")); [right; left; reflexivity|constructor|word|vm_compute; discriminate|vm_compute; discriminate|vm_compute; discriminate|reflexivity|vm_compute; discriminate]. Qed.
Lemma pointer_param : parameter (str "N::A*").
Proof. apply (parameter_type [] [] (str "N::A*")); [left; reflexivity|constructor|word|vm_compute; discriminate|vm_compute; discriminate|vm_compute; discriminate|reflexivity|vm_compute; discriminate]. Qed.
Lemma type_of : forall p t, type_text p t -> t = p \/ t = removelast p.
Proof. intros p t [->|[c [_ ->]]]; [left; reflexivity|right; rewrite removelast_last; reflexivity]. Qed.
Lemma base_plain : plain_function base_texts (str "N::A::f") [str "int"] true /\ plain_function base_texts (str "g") [str "unsigned int"; str "N::A*"] false.
Proof.
  split; (split; [apply closers_check; reflexivity|split; [reflexivity|split; [no_inside|split; [bytes|split; [discriminate|]]]]]);
    (split; [vm_compute; intuition discriminate|split; [vm_compute; intuition discriminate|split; [vm_compute; intuition discriminate|split; [vm_compute; discriminate|split; [no_prefix|split; [no_prefix|]]]]]]).
  - split; [constructor; [apply int_param|constructor]|]. intros p t [<-|[]] [->|[c [Hc E]]]; [left; reflexivity|]. apply (f_equal (fun l => last l 0)) in E. rewrite last_last in E. vm_compute in E. lia.
  - split; [constructor; [apply unsigned_param|constructor; [apply pointer_param|constructor]]|]. intros p t Q H. destruct Q as [<-|Q]; [|destruct Q as [<-|Q]; [|destruct Q]].
    + destruct H as [->|[c [Hc E]]]; [right; right; left; reflexivity|]. apply (f_equal (fun l => last l 0)) in E. rewrite last_last in E. vm_compute in E. lia.
    + apply type_of in H. destruct H as [-> | ->]; [right; right; right; left; reflexivity|right; left; reflexivity].
Qed.
(* the const member function gets its address, the other overload does not; the free function gets its own *)
Example C72_witness :
  (exists m' fns, ProcessFunctionItem sevens base_db (str "N::A::f(int) const") 4096 = Ok (mk_mapdb m' fns [] []) /\
     map (fun e => fn_address (snd e)) fns = [4096; 0; 0]) /\
  (exists m' fns, ProcessFunctionItem sevens base_db (str "g(unsigned int, N::A*)") 4096 = Ok (mk_mapdb m' fns [] []) /\
     map (fun e => fn_address (snd e)) fns = [0; 0; 4096]).
Proof.
  destruct base_plain as [P1 P2]. split.
  - destruct (C72_scoped sevens base_texts base_db (str "N::A") (str "f") [str "int"] true 4096 sevens_ok base_apart P1) as [m' [fns [E [_ [_ H]]]]]; [discriminate|exact base_names|discriminate|vm_compute; intuition discriminate|reflexivity|right; left; reflexivity|].
    exists m', fns. split; [exact E|]. destruct H as [[pre [f [post [E1 [E2 [E3 F]]]]]]|[F _]].
    + destruct pre as [|e pre]; [|exfalso; injection E1 as <- _; inversion F as [|? ? X _]; apply X; split; vm_compute; reflexivity]. rewrite E3. apply (f_equal (@tl _)) in E1. cbn [app tl base_db d_functions] in E1. rewrite <- E1. reflexivity.
    + exfalso. inversion F as [|? ? X _]. apply X. split; vm_compute; reflexivity.
  - destruct (C72_free sevens base_texts base_db (str "g") [str "unsigned int"; str "N::A*"] false 4096 sevens_ok base_apart P2) as [m' [fns [E [_ [_ H]]]]]; [discriminate|exact base_names|no_inside|].
    exists m', fns. split; [exact E|]. destruct H as [[pre [f [post [E1 [E2 [E3 F]]]]]]|[F _]].
    + assert (D : forall e l, pre = e :: l -> fst e = hash32 (str "N::A::f") 0 \/ fst e = hash32 (str "g") 0) by (intros e l ->; injection E1 as <- _; left; reflexivity).
      destruct pre as [|e1 [|e2 [|e3 pre]]]; cbn [app] in E1.
      * exfalso. apply (f_equal (fun l => hd 0 (map fst l))) in E1. vm_compute in E1. discriminate E1.
      * exfalso. apply (f_equal (fun l => hd 0 (tl (map fst l)))) in E1. vm_compute in E1. discriminate E1.
      * rewrite E3. pose proof (f_equal (hd (fun_of [] [])) E1) as Q1. pose proof (f_equal (fun l => hd (fun_of [] []) (tl l)) E1) as Q2. pose proof (f_equal (fun l => tl (tl (tl l))) E1) as Q3. cbn [hd tl base_db d_functions app] in Q1, Q2, Q3. subst e1 e2 post. reflexivity.
      * exfalso. apply (f_equal (@length _)) in E1. cbn [length base_db d_functions] in E1. rewrite app_length in E1. cbn [length] in E1. lia.
    + exfalso. inversion F as [|? ? _ F2]. inversion F2 as [|? ? _ F3]. inversion F3 as [|? ? X _]. apply X. split; vm_compute; reflexivity.
Qed.
(* Findings: functions that are in the database but never get an address. A parameter that points to const is written
   behind its type by these compilers and read as part of the type's name; so is the second word of long long; a comma
   inside template arguments starts a new parameter; the stars of a pointer to a pointer behind a template count once *)
Definition found (n s : list Z) (ps : list (list Z)) : bool :=
  match ProcessFunctionItem sevens (mk_mapdb [] [fun_of n ps] [] []) s 4096 with Ok d => existsb (fun e => fn_address (snd e) =? 4096) (d_functions d) | _ => false end.
Theorem C72_types_refuted :
  found (str "f") (str "f(char const*)") [str "const char*"] = false /\
  found (str "f") (str "f(char*)") [str "char*"] = true /\
  found (str "f") (str "f(long long)") [str "long long"] = false /\
  found (str "f") (str "f(Map<A, B>)") [str "Map<A, B>"] = false /\ found (str "f") (str "f(Map<A, B>)") [str "Map<A,B>"] = false /\
  found (str "f") (str "f(Vec<A>**)") [str "Vec<A>**"] = false /\ found (str "f") (str "f(Vec<A>**)") [str "Vec<A>*"] = true.
Proof. repeat split; vm_compute; reflexivity. Qed.
Print Assumptions C72_types_refuted.
(* Finding: a static function whose first parameter is a pointer to its class and the member function with the other
   parameters have the same id; the map's address for the one goes to whichever the database lists first *)
Theorem C72_static_refuted : id_of [str "A*"; str "int"] = id_of (this_text (str "A") false :: [str "int"]) /\
  (exists d, ProcessFunctionItem sevens (mk_mapdb [] [fun_of (str "A::f") [str "A*"; str "int"]; fun_of (str "A::f") [this_text (str "A") false; str "int"]] [] []) (str "A::f(int)") 4096 = Ok d /\
     map (fun e => fn_address (snd e)) (d_functions d) = [4096; 0]) /\
  (exists d, ProcessFunctionItem sevens (mk_mapdb [] [fun_of (str "A::f") [str "A*"; str "int"]; fun_of (str "A::f") [this_text (str "A") false; str "int"]] [] []) (str "A::f(A*, int)") 8192 = Ok d /\
     map (fun e => fn_address (snd e)) (d_functions d) = [8192; 0]).
Proof. split; [reflexivity|]. split; eexists; (split; [vm_compute; reflexivity|vm_compute; reflexivity]). Qed.
Print Assumptions C72_static_refuted.
(* Finding: a type name of 1024 characters or more overruns the buffer *)
Theorem C72_long_refuted : let t := repeat 97 1024 in
  ProcessFunctionItem sevens (mk_mapdb [] [fun_of (str "f") [t]] [] []) (str "f(" ++ t ++ str ")") 4096 = UB.
Proof. vm_compute. reflexivity. Qed.
Print Assumptions C72_long_refuted.

(* ---- C73: generated class functions and GetType ---- *)
(* clcppConstructObject_...(T* ) and clcppDestructObject_...(T* ) become functions of T that take T*, at the address,
   with one field, this *)
Theorem C73_class : forall digits U d x t rest address (dtor : bool), (forall j, 0 <= digits j < 10) ->
  let n := (if dtor then str "clcppDestructObject" else str "clcppConstructObject") ++ x in
  let s := n ++ str "(" ++ t ++ str "*" ++ rest in
  let f := t ++ str "::" ++ (if dtor then str "DestructObject" else str "ConstructObject") in
  closers_ok s -> zlen s < 3 * 10 ^ 8 -> ~ In 40 x -> ~ In 60 x -> ~ In 32 x -> (forall r, x <> r ++ str "&") -> pointee t -> address <> 0 ->
  told_apart U -> In t U -> In (str "this") U -> In f U -> names_of U (d_names d) ->
  let name_of := fun u => mk_name (hash32 u 0) u in
  exists m' fns fds, ProcessFunctionItem digits d s address = Ok (mk_mapdb m' fns fds (d_gettype d)) /\ names_of U m' /\ names_kept (d_names d) m' /\
    added (hash32 f 0, mk_func (mk_prim (name_of f) (name_of t)) (id_of [t ++ str "*"]) address) (d_functions d) fns /\
    added (hash32 (str "this") 0, mk_field (mk_prim (name_of (str "this")) (name_of f)) (name_of t) (mk_qual POINTER false) 0 (id_of [t ++ str "*"])) (d_fields d) fds.
Proof. exact process_class. Qed.
Print Assumptions C73_class.
(* clcpp::GetType<T>() and clcpp::GetTypeNameHash<T>(): the address is kept with T, the other one and other types' stay *)
Theorem C73_get_type : forall digits U d ret t rest address (by_name : bool), (forall j, 0 <= digits j < 10) ->
  let n := (if by_name then str "clcpp::GetTypeNameHash" else str "clcpp::GetType") ++ str "<" ++ t ++ str ">" in
  let s := ret ++ n ++ str "(" ++ rest in
  closers_ok s -> zlen s < 3 * 10 ^ 8 -> ret = [] \/ (exists r, ret = r ++ str " ") -> (forall r, ret <> r ++ str "operator ") -> flat ret -> flat t ->
  (forall r, t <> str "struct " ++ r) -> (forall r, t <> str "class " ++ r) -> (forall r, t <> str "enum " ++ r) ->
  ~ In 60 rest -> ~ In 40 rest -> (forall r, rest <> str "anonymous namespace)" ++ r) -> address <> 0 ->
  told_apart U -> In t U -> names_of U (d_names d) -> ssorted (keys (d_gettype d)) ->
  exists m' ts, ProcessFunctionItem digits d s address = Ok (mk_mapdb m' (d_functions d) (d_fields d) ts) /\ names_of U m' /\ names_kept (d_names d) m' /\
    (let old := match m_find (hash32 t 0) (d_gettype d) with Some e => e | None => (0, 0) end in
     m_find (hash32 t 0) ts = Some (if by_name then (address mod 2 ^ 32, snd old) else (fst old, address mod 2 ^ 32))) /\
    (forall h, h <> hash32 t 0 -> m_find h ts = m_find h (d_gettype d)).
Proof. exact process_type. Qed.
Print Assumptions C73_get_type.
Definition class_texts : list (list Z) := [str "N::A"; str "this"; str "N::A::ConstructObject"].
Lemma class_apart : told_apart class_texts.
Proof.
  split.
  - intros t H. cbn [class_texts In] in H. repeat (destruct H as [<-|H]; [split; [bytes|]; split; [reflexivity|vm_compute; discriminate]|]). destruct H.
  - intros t u H K E. cbn [class_texts In] in H, K. repeat (destruct H as [<-|H]); try (destruct H); repeat (destruct K as [<-|K]); try (destruct K); try reflexivity; vm_compute in E; discriminate.
Qed.
Example C73_witness :
  (exists m' fns fds, ProcessFunctionItem sevens (mk_mapdb [] [] [] []) (str "clcppConstructObject_42(N::A*)") 4096 = Ok (mk_mapdb m' fns fds []) /\ length fns = 1%nat /\ length fds = 1%nat) /\
  (exists m' ts, ProcessFunctionItem sevens (mk_mapdb [] [] [] []) (str "clcpp::Type const* clcpp::GetType<N::A>()") 4096 = Ok (mk_mapdb m' [] [] ts) /\ m_find (hash32 (str "N::A") 0) ts = Some (0, 4096)).
Proof.
  split.
  - destruct (C73_class sevens class_texts (mk_mapdb [] [] [] []) (str "_42") (str "N::A") (str ")") 4096 false sevens_ok) as [m' [fns [fds [E [_ [_ [A B]]]]]]].
    + apply closers_check. reflexivity.
    + reflexivity.
    + vm_compute. intuition discriminate.
    + vm_compute. intuition discriminate.
    + vm_compute. intuition discriminate.
    + intros r E. apply (f_equal (@rev Z)) in E. rewrite (rev_app_distr r) in E. vm_compute in E. discriminate.
    + split; [discriminate|]. split; [vm_compute; intuition discriminate|]. split; [vm_compute; intuition discriminate|]. split; [vm_compute; intuition discriminate|]. split; [vm_compute; discriminate|]. split; [vm_compute; discriminate|]. split; [no_prefix|]. split; no_prefix.
    + discriminate.
    + exact class_apart.
    + left. reflexivity.
    + right. left. reflexivity.
    + right. right. left. reflexivity.
    + split; [exact I|]. intros h x H. discriminate.
    + exists m', fns, fds. split; [exact E|]. destruct A as [pre [post [A1 ->]]], B as [pre2 [post2 [B1 ->]]]. destruct pre; [|discriminate]. destruct pre2; [|discriminate]. cbn [app d_functions d_fields] in A1, B1. subst. split; reflexivity.
  - destruct (C73_get_type sevens class_texts (mk_mapdb [] [] [] []) (str "clcpp::Type const* ") (str "N::A") (str ")") 4096 false sevens_ok) as [m' [ts [E [_ [_ [A _]]]]]].
    + apply closers_check. reflexivity.
    + reflexivity.
    + right. exists (str "clcpp::Type const*"). reflexivity.
    + intros r E. apply (f_equal (@rev Z)) in E. rewrite (rev_app_distr r) in E. vm_compute in E. discriminate.
    + unfold flat. vm_compute. intuition discriminate.
    + unfold flat. vm_compute. intuition discriminate.
    + no_prefix.
    + no_prefix.
    + no_prefix.
    + vm_compute. intuition discriminate.
    + vm_compute. intuition discriminate.
    + no_prefix.
    + discriminate.
    + exact class_apart.
    + left. reflexivity.
    + split; [exact I|]. intros h x H. discriminate.
    + exact I.
    + exists m', ts. split; [exact E|]. exact A.
Qed.
(* Findings: an address above 4 GB is cut to 32 bits (the low half is a different address); a template's GetType
   is filed under a name that is not a type's *)
Theorem C73_addresses_refuted : exists d, ProcessFunctionItem sevens (mk_mapdb [] [] [] []) (str "clcpp::GetType<A>()") (2 ^ 32 + 4096) = Ok d /\
  m_find (hash32 (str "A") 0) (d_gettype d) = Some (0, 4096).
Proof. eexists. split; [vm_compute; reflexivity|vm_compute; reflexivity]. Qed.
Print Assumptions C73_addresses_refuted.
Theorem C73_templates_refuted : exists d, ProcessFunctionItem sevens (mk_mapdb [] [] [] []) (str "clcpp::GetType<A<B> >()") 4096 = Ok d /\
  m_find (hash32 (str "A<B") 0) (d_gettype d) = Some (0, 4096) /\ m_find (hash32 (str "A<B>") 0) (d_gettype d) = None.
Proof. eexists. split; [vm_compute; reflexivity|split; vm_compute; reflexivity]. Qed.
Print Assumptions C73_templates_refuted.

(* ---- C74: whole maps ---- *)
(* sscanf and the demangler are the libraries': what they make of a line or symbol is left open. A section line starts
   with .text and has an address. *)
Definition is_section (scan_text : list Z -> option Z) (l : list Z) : Prop := (exists r, l = str ".text" ++ r) /\ scan_text l <> None.
Definition map_start (l : list Z) : Prop := exists r, firstn 4095 l = str "Archive member included because of file (symbol)" ++ r.
(* no section line: nothing is read *)
Theorem C74_no_section : forall scan_symbol scan_text demangle digits file first ls d, lines file (first :: ls) -> map_start first ->
  Forall (fun l => ~ is_section scan_text l) (map (firstn 4095) ls) -> ParseGCCMapFile scan_symbol scan_text demangle digits file d = Ok (d, 0).
Proof. intros ss st dm rnd file first ls d HL HF. exact (proj1 (map_read ss st dm rnd file first ls d HL HF)). Qed.
Print Assumptions C74_no_section.
(* The base address is the first section line's. Addresses come from lines behind it only, and none is 0; no function
   is lost or changes its name, parent or id. *)
Theorem C74_addresses : forall scan_symbol scan_text demangle digits file first ls d before t after base, lines file (first :: ls) -> map_start first ->
  map (firstn 4095) ls = before ++ t :: after -> Forall (fun l => ~ is_section scan_text l) before -> (exists r, t = str ".text" ++ r) -> scan_text t = Some base ->
  forall d' base', ParseGCCMapFile scan_symbol scan_text demangle digits file d = Ok (d', base') ->
    base' = base /\
    (forall h f, In (h, f) (d_functions d') -> In (h, f) (d_functions d) \/ fn_address f <> 0 /\ exists l symbol, In l after /\ scan_symbol l = Some (fn_address f, symbol)) /\
    (forall h f, In (h, f) (d_functions d) -> exists a, In (h, mk_func (fn_prim f) (fn_uid f) a) (d_functions d')).
Proof.
  intros ss st dm rnd file first ls d before t after base HL HF HM HB HT Hb d' base' H. destruct (map_read ss st dm rnd file first ls d HL HF) as [_ M]. destruct (M before t after base HM HB HT Hb _ H) as [M1 M2]. cbn [fst snd] in M1, M2. split; [exact M1|]. apply (lines_functions ss dm). exact M2.
Qed.
Print Assumptions C74_addresses.
(* A map whose symbols behind the section line are functions as in C72 (or are skipped): the database gets the
   addresses, one symbol after the other, and nothing else changes but names. symbols lists, for each such line in order,
   the hash of the name, the ids the function may have and the address. *)
Inductive function_lines (scan_symbol : list Z -> option (Z * list Z)) (demangle : list Z -> option (list Z)) (U : list (list Z)) : list (list Z) -> list (Z * list Z * Z) -> Prop :=
| lines_end : function_lines scan_symbol demangle U [] []
| lines_skip : forall l ls es, scan_symbol l = None -> function_lines scan_symbol demangle U ls es -> function_lines scan_symbol demangle U (l :: ls) es
| lines_other : forall l ls es a symbol, scan_symbol l = Some (a, symbol) -> zlen symbol < 1024 -> hd 0 symbol <> 95 \/ demangle symbol = None ->
    function_lines scan_symbol demangle U ls es -> function_lines scan_symbol demangle U (l :: ls) es
| lines_symbol : forall l ls es a symbol n ps k us, scan_symbol l = Some (a, symbol) -> zlen symbol < 1024 -> hd 0 symbol = 95 -> demangle symbol = Some (signature n ps k) ->
    (forall x y, signature n ps k <> x ++ str " for " ++ y) -> a <> 0 -> plain_function U n ps k -> possible_ids U ps k n us ->
    function_lines scan_symbol demangle U ls es -> function_lines scan_symbol demangle U (l :: ls) ((hash32 n 0, us, a) :: es).
Lemma function_plain : forall ss dm U ls es, function_lines ss dm U ls es -> plain_lines ss dm U ls es.
Proof. induction 1; [constructor|eapply plain_skip|eapply plain_other|eapply plain_symbol]; eassumption. Qed.
Theorem C74_functions : forall scan_symbol scan_text demangle digits file first ls d before t after base U symbols,
  (forall i j, 0 <= digits i j < 10) -> told_apart U -> names_of U (d_names d) ->
  lines file (first :: ls) -> map_start first ->
  map (firstn 4095) ls = before ++ t :: after -> Forall (fun l => ~ is_section scan_text l) before -> (exists r, t = str ".text" ++ r) -> scan_text t = Some base ->
  function_lines scan_symbol demangle U after symbols ->
  exists names fns, ParseGCCMapFile scan_symbol scan_text demangle digits file d = Ok (mk_mapdb names fns (d_fields d) (d_gettype d), base) /\
    names_kept (d_names d) names /\ all_given symbols (d_functions d) fns.
Proof.
  intros ss st dm rnd file first ls d before t after base U es Hr TA N HL HF HM HB HT Hb HP. destruct (map_section ss st dm rnd file first ls d before t after base HL HF HM HB HT Hb) as [n ->]. apply (plain_read ss st dm rnd U after es Hr TA (function_plain _ _ _ _ _ HP)). exact N.
Qed.
Print Assumptions C74_functions.
(* So a function whose symbol is listed once has that symbol's address afterwards, if no two functions of the database
   have the same name and id, and no function has an id the symbol is tried with before. *)
Theorem C74_function_found : forall scan_symbol scan_text demangle digits file first ls d before t after base U es1 h us1 us2 a es2 f,
  (forall i j, 0 <= digits i j < 10) -> told_apart U -> names_of U (d_names d) ->
  lines file (first :: ls) -> map_start first ->
  map (firstn 4095) ls = before ++ t :: after -> Forall (fun l => ~ is_section scan_text l) before -> (exists r, t = str ".text" ++ r) -> scan_text t = Some base ->
  function_lines scan_symbol demangle U after (es1 ++ (h, us1 ++ fn_uid f :: us2, a) :: es2) ->
  NoDup (map (fun e => (fst e, fn_uid (snd e))) (d_functions d)) -> In (h, f) (d_functions d) ->
  (forall g, In (h, g) (d_functions d) -> ~ In (fn_uid g) us1) -> (forall us b, In (h, us, b) (es1 ++ es2) -> ~ In (fn_uid f) us) ->
  exists d', ParseGCCMapFile scan_symbol scan_text demangle digits file d = Ok (d', base) /\ In (h, mk_func (fn_prim f) (fn_uid f) a) (d_functions d').
Proof.
  intros ss st dm rnd file first ls d before t after base U es1 h us1 us2 a es2 f Hr TA N HL HF HM HB HT Hb HP ND Hi H1 H2.
  destruct (C74_functions ss st dm rnd file first ls d before t after base U _ Hr TA N HL HF HM HB HT Hb HP) as [m [fns [E [_ G]]]]. eexists. split; [exact E|]. apply (all_given_this es1 h us1 (fn_uid f) us2 a es2 (d_functions d) fns f G ND Hi eq_refl H1 H2).
Qed.
Print Assumptions C74_function_found.
(* Every map whose symbols have fewer than 1024 characters and whose signatures fewer than 790 is read within the
   buffers, to the end. *)
Theorem C74_defined : forall scan_symbol scan_text demangle digits file first ls d, (forall i j, 0 <= digits i j < 10) -> lines file (first :: ls) -> map_start first ->
  (forall l a symbol, In l (map (firstn 4095) ls) -> scan_symbol l = Some (a, symbol) ->
     zlen symbol < 1024 /\ (forall s, demangle symbol = Some s -> closers_ok s /\ Forall (fun c => 0 < c < 256) s /\ zlen s < 790)) ->
  defined (ParseGCCMapFile scan_symbol scan_text demangle digits file d).
Proof.
  intros ss st dm rnd file first ls d Hr HL HF H. destruct (find_section st (map (firstn 4095) ls)) as [F|[before [t [after [E [F [HT HS]]]]]]].
  - rewrite (C74_no_section ss st dm rnd file first ls d HL HF F). split; discriminate.
  - destruct (st t) as [base|] eqn:Eb; [|congruence]. destruct (map_section ss st dm rnd file first ls d before t after base HL HF E F HT Eb) as [n ->]. apply lines_defined; [exact Hr|]. intros l a symbol Hl. apply H. rewrite E. apply in_or_app. right. right. exact Hl.
Qed.
Print Assumptions C74_defined.
(* a map with two sections and three symbols, of which one stands before the section line *)
Definition wit_file : list Z := str "Archive member included because of file (symbol)" ++ [10] ++ str "early" ++ [10] ++ str ".text 0x1000" ++ [10] ++ str "one" ++ [10] ++ str ".data" ++ [10] ++ str "two" ++ [10].
Definition wit_symbol (l : list Z) : option (Z * list Z) :=
  if list_eqb l (str "early") then Some (17, str "_g") else if list_eqb l (str "one") then Some (4096, str "_f") else if list_eqb l (str "two") then Some (8192, str "main") else None.
Definition wit_text (l : list Z) : option Z := if list_eqb l (str ".text 0x1000") then Some 4096 else None.
Definition wit_demangle (s : list Z) : option (list Z) :=
  if list_eqb s (str "_f") then Some (str "N::A::f(int) const") else if list_eqb s (str "_g") then Some (str "g(unsigned int, N::A*)") else None.
Example C74_witness : exists d', ParseGCCMapFile wit_symbol wit_text wit_demangle (fun _ => sevens) wit_file base_db = Ok (d', 4096) /\
  In (hash32 (str "N::A::f") 0, mk_func (mk_prim (mk_name (hash32 (str "N::A::f") 0) (str "N::A::f")) noname) (id_of [str "const N::A*"; str "int"]) 4096) (d_functions d').
Proof.
  set (f := snd (fun_of (str "N::A::f") [str "const N::A*"; str "int"])).
  apply (C74_function_found wit_symbol wit_text wit_demangle (fun _ => sevens) wit_file (str "Archive member included because of file (symbol)") [str "early"; str ".text 0x1000"; str "one"; str ".data"; str "two"] base_db
    [str "early"] (str ".text 0x1000") [str "one"; str ".data"; str "two"] 4096 base_texts [] (hash32 (str "N::A::f") 0) [] [id_of [str "int"]] 4096 [] f).
  - intros i j. apply sevens_ok.
  - exact base_apart.
  - exact base_names.
  - unfold wit_file. repeat (apply lines_cons; [vm_compute; intuition discriminate|]). apply FileUtilsSpec.lines_end. intros [].
  - exists []. vm_compute. reflexivity.
  - vm_compute. reflexivity.
  - constructor; [|constructor]. intros [[r E] _]. vm_compute in E. discriminate E.
  - exists (str " 0x1000"). reflexivity.
  - reflexivity.
  - cbn [app]. apply (lines_symbol wit_symbol wit_demangle base_texts (str "one") [str ".data"; str "two"] [] 4096 (str "_f") (str "N::A::f") [str "int"] true).
    + reflexivity.
    + reflexivity.
    + reflexivity.
    + vm_compute. reflexivity.
    + no_inside.
    + discriminate.
    + apply base_plain.
    + apply (ids_scoped base_texts [str "int"] true (str "N::A") (str "f")); [discriminate|vm_compute; intuition discriminate|reflexivity|right; left; reflexivity].
    + apply lines_skip; [reflexivity|]. apply (lines_other wit_symbol wit_demangle base_texts (str "two") [] [] 8192 (str "main")); [reflexivity|reflexivity|left; vm_compute; discriminate|]. apply lines_end.
  - assert (X : forall a b c : Z * Z, (fst a, snd a) <> b -> a <> c -> b <> c -> NoDup [a; b; c]) by (intros a b c Q1 Q2 Q3; rewrite <- surjective_pairing in Q1; constructor; [intros [Y|[Y|[]]]; congruence|constructor; [intros [Y|[]]; congruence|constructor; [intros []|constructor]]]).
    apply X; intros Q; [apply (f_equal snd) in Q|apply (f_equal fst) in Q|apply (f_equal fst) in Q]; vm_compute in Q; discriminate Q.
  - left. reflexivity.
  - intros g _ [].
  - intros us b [].
Qed.
(* Findings: an empty map file is dereferenced through a null pointer; a symbol of 1024 characters overruns the buffer
   it is scanned into *)
Theorem C74_empty_refuted : forall scan_symbol scan_text demangle digits d, ParseGCCMapFile scan_symbol scan_text demangle digits [] d = UB.
Proof. reflexivity. Qed.
Print Assumptions C74_empty_refuted.
Theorem C74_long_symbol_refuted : exists scan_symbol scan_text demangle, forall digits d,
  ParseGCCMapFile scan_symbol scan_text demangle digits (str "Archive member included because of file (symbol)" ++ [10] ++ str ".text" ++ [10] ++ str "s" ++ [10]) d = UB.
Proof.
  exists (fun l => Some (1, repeat 95 1024)), (fun _ => Some 0), (fun _ => None). intros digits d. vm_compute. reflexivity.
Qed.
Print Assumptions C74_long_symbol_refuted.
