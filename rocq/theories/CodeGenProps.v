(* C51, C68, C69: generated C++ code *)
From Coq Require Import Permutation String.
From Verif Require Import Base BaseProofs Text Maps HashModel HashProofs FileUtilsSpec JsonNumSpec DatabaseModel CodeGenModel CodeGenSpec CodeGenProofs CodeGenFileProofs.

(* n is more than the depth of the namespaces. The slot a type's GetType specialisation reads is the one filled with it *)
Theorem C51_cpp : forall db n, db_ok db -> (length (namespaces db) + 2 <= n)%nat ->
  exists cpp its fwd, (forall h_file, exists h_file', GenMergedCppImpl n (Some None) h_file db = Ok (Some (Some cpp), h_file')) /\
    source cpp its /\ cpp_source db fwd its /\ Forall declaration_line fwd.
Proof.
  intros db n Hok Hn. destruct (codegen_ok db Hok n Hn) as [cpp [hdr [hc [hh [cits [hits [fwd [_ [_ [S1 [S2 [_ [_ [D [_ H]]]]]]]]]]]]]]]. exists cpp, cits, fwd. split; [|auto].
  intros b. destruct (H (Some None) b) as [a' [b' [E [L _]]]]. exists b'. destruct a' as [[new|]|]; cbn [left_by] in L; try contradiction. subst new. exact E.
Qed.
Print Assumptions C51_cpp.

(* the header gives each type the hash of its name *)
Theorem C51_h : forall db n, db_ok db -> (length (namespaces db) + 2 <= n)%nat ->
  exists hdr its fwd, (forall cpp_file, exists cpp_file', GenMergedCppImpl n cpp_file (Some None) db = Ok (cpp_file', Some (Some hdr))) /\
    source hdr its /\ h_source db fwd its /\ Forall declaration_line fwd.
Proof.
  intros db n Hok Hn. destruct (codegen_ok db Hok n Hn) as [cpp [hdr [hc [hh [cits [hits [fwd [_ [_ [_ [_ [S1 [S2 [D [_ H]]]]]]]]]]]]]]]. exists hdr, hits, fwd. split; [|auto].
  intros a. destruct (H a (Some None)) as [a' [b' [E [_ L]]]]. exists a'. destruct b' as [[new|]|]; cbn [left_by] in L; try contradiction. subst new. exact E.
Qed.
Print Assumptions C51_h.

(* both files declare each class and enum that can be reached from the global namespace, once and where it belongs *)
Theorem C68_forward : forall db n, db_ok db -> (length (namespaces db) + 2 <= n)%nat ->
  exists cpp hdr cits hits fwd, GenMergedCppImpl n (Some None) (Some None) db = Ok (Some (Some cpp), Some (Some hdr)) /\
    source cpp cits /\ cpp_source db fwd cits /\ source hdr hits /\ h_source db fwd hits /\ forward_declarations db fwd.
Proof.
  intros db n Hok Hn. destruct (codegen_ok db Hok n Hn) as [cpp [hdr [hc [hh [cits [hits [fwd [_ [_ [A [B [C [D [_ [F H]]]]]]]]]]]]]]]. exists cpp, hdr, cits, hits, fwd. split; [|auto 6].
  destruct (H (Some None) (Some None)) as [a' [b' [E [L M]]]]. destruct a' as [[a'|]|]; cbn [left_by] in L; try contradiction. destruct b' as [[b'|]|]; cbn [left_by] in M; try contradiction. subst. exact E.
Qed.
Print Assumptions C68_forward.

Lemma hashed_begins : forall file h, hashed_file file h -> begins_with_hash file h.
Proof.
  intros file h [hx [body [A [B [C D]]]]]. exists hx, ([13; 10] ++ body). split; [exact A|]. split; [exact B|]. split; [exact C|]. intros c r E. cbn [app] in E. assert (c = 13) by congruence. subst c. split; [reflexivity|lia].
Qed.
(* a file is replaced exactly when it does not begin with the hash of the new text *)
Theorem C69_gate : forall db n, db_ok db -> (length (namespaces db) + 2 <= n)%nat ->
  exists cpp hdr hc hh, GenMergedCppImpl n (Some None) (Some None) db = Ok (Some (Some cpp), Some (Some hdr)) /\
    hashed_file cpp hc /\ begins_with_hash cpp hc /\ hashed_file hdr hh /\ begins_with_hash hdr hh /\
    forall cpp_file h_file, exists cpp_file' h_file', GenMergedCppImpl n cpp_file h_file db = Ok (cpp_file', h_file') /\
      left_by cpp hc cpp_file cpp_file' /\ left_by hdr hh h_file h_file'.
Proof.
  intros db n Hok Hn. destruct (codegen_ok db Hok n Hn) as [cpp [hdr [hc [hh [cits [hits [fwd [A [B [_ [_ [_ [_ [_ [_ H]]]]]]]]]]]]]]]. exists cpp, hdr, hc, hh. split; [|auto 6 using hashed_begins].
  destruct (H (Some None) (Some None)) as [a' [b' [E [L M]]]]. destruct a' as [[a'|]|]; cbn [left_by] in L; try contradiction. destruct b' as [[b'|]|]; cbn [left_by] in M; try contradiction. subst. exact E.
Qed.
Print Assumptions C69_gate.

(* generating from an unchanged database changes no file *)
Theorem C69_again : forall db n cpp_file h_file cpp_file' h_file',
  GenMergedCppImpl n cpp_file h_file db = Ok (cpp_file', h_file') -> GenMergedCppImpl n cpp_file' h_file' db = Ok (cpp_file', h_file').
Proof.
  intros db n a b a' b' H. unfold GenMergedCppImpl in *. destruct (BuildNamespaceContents db (BuildNamespaces db)) as [s| | |]; try discriminate. cbn [obind] in *.
  destruct (RemoveEmptyNamespaces n (fst s) 0) as [m| | |]; try discriminate. cbn [obind] in *.
  assert (HW : forall cg f f', WriteFile cg f = Ok f' -> WriteFile cg f' = Ok f').
  { clear. intros cg f f' H. unfold WriteFile in *. destruct (GenerateHash cg) as [h| | |]; try discriminate. cbn [obind] in *.
    match type of H with context [if negb (?e =? h) then Some ?t else f] => destruct (negb (e =? h)) eqn:E; [set (t0 := t) in *|] end.
    - assert (f' = Some t0) by congruence. subst f'. match goal with |- context [if ?b then _ else _] => destruct b; reflexivity end.
    - assert (f' = f) by congruence. subst f'. rewrite E. reflexivity. }
  assert (HA : forall (c : outcome codegen) (x x' : option (option (list Z))),
    match x with None => Ok None | Some f => do cg <- c; do f <- WriteFile cg f; Ok (Some f) end = Ok x' ->
    match x' with None => Ok None | Some f => do cg <- c; do f <- WriteFile cg f; Ok (Some f) end = Ok x').
  { intros c x x' Hx. destruct x as [f|]; [|injection Hx as <-; reflexivity]. destruct c as [cg| | |]; try discriminate. cbn [obind] in *. destruct (WriteFile cg f) as [f'| | |] eqn:Ef; try discriminate. cbn [obind] in Hx. injection Hx as <-. rewrite (HW _ _ _ Ef). reflexivity. }
  match type of H with (do a <- ?X; _) = _ => destruct X as [x| | |] eqn:Ex; try discriminate end. cbn [obind] in H.
  match type of H with (do a <- ?X; _) = _ => destruct X as [y| | |] eqn:Ey; try discriminate end. cbn [obind] in H. injection H as <- <-.
  rewrite (HA _ _ _ Ex). cbn [obind]. rewrite (HA _ _ _ Ey). reflexivity.
Qed.
Print Assumptions C69_again.

(* ---- witnesses ---- *)
Definition name_okb (s : list Z) : bool := (Nat.leb (length s) 400) && forallb (fun c => (1 <=? c) && (c <=? 255) && negb (c =? 10)) s.
Definition u32b (h : Z) : bool := (0 <=? h) && (h <? 4294967296).
Fixpoint nodupb (l : list Z) : bool := match l with [] => true | a :: r => negb (existsb (Z.eqb a) r) && nodupb r end.
Definition db_okb (db : database) : bool :=
  nodupb (map (fun ns => n_hash (p_name ns)) (namespaces db)) &&
  forallb (fun ns => negb (n_hash (p_name ns) =? 0) && name_okb (n_text (p_name ns))) (namespaces db) &&
  forallb (fun c => name_okb (n_text (p_name (c_prim c))) && u32b (n_hash (p_name (c_prim c)))) (map snd (m_classes db)) &&
  forallb (fun e => name_okb (n_text (p_name (e_prim e))) && u32b (n_hash (p_name (e_prim e))) && ((0 <=? e_scoped e) && (e_scoped e <=? 2))) (map snd (m_enums db)) &&
  forallb (fun t => name_okb (n_text (p_name (t_prim t))) && u32b (n_hash (p_name (t_prim t)))) (map snd (m_types db)) &&
  (zlen (m_classes db) + zlen (m_enums db) + zlen (m_types db) <? 2 ^ 31).
Lemma db_okb_ok : forall db, db_okb db = true -> db_ok db.
Proof.
  assert (HN : forall s, name_okb s = true -> name_ok s).
  { intros s H. apply andb_true_iff in H. destruct H as [H1 H2]. split; [apply Nat.leb_le, H1|]. apply Forall_forall. intros c Hc. rewrite forallb_forall in H2. specialize (H2 c Hc). lia. }
  assert (HU : forall h, u32b h = true -> is_u32 h) by (intros h H; unfold u32b, is_u32 in *; lia).
  assert (HD : forall l, nodupb l = true -> NoDup l).
  { induction l as [|a l IH]; intros H; [constructor|]. cbn [nodupb] in H. apply andb_true_iff in H. destruct H as [H1 H2]. constructor; [|auto]. intros Hin. assert (existsb (Z.eqb a) l = true) by (apply existsb_exists; exists a; split; [exact Hin|apply Z.eqb_refl]). rewrite H in H1. discriminate. }
  intros db H. unfold db_okb in H. rewrite !andb_true_iff in H. destruct H as [[[[[H1 H2] H3] H4] H5] H6]. rewrite forallb_forall in H2, H3, H4, H5.
  split; [apply HD, H1|]. split; [intros x Hx; specialize (H2 x Hx); apply andb_true_iff in H2; destruct H2 as [A B]; split; [lia|apply HN, B]|].
  split; [intros x Hx; specialize (H3 x Hx); apply andb_true_iff in H3; destruct H3; auto|].
  split; [intros x Hx; specialize (H4 x Hx); rewrite !andb_true_iff in H4; destruct H4 as [[A B] C]; split; [auto|]; split; [auto|lia]|].
  split; [intros x Hx; specialize (H5 x Hx); apply andb_true_iff in H5; destruct H5; auto|lia].
Qed.
Definition cg_db (ns : list prim) (types : list type_) (classes : list class) (enums : list enum) : database :=
  mk_db [] (map (fun x => (n_hash (p_name x), x)) ns) (map (fun x => (n_hash (p_name (t_prim x)), x)) types) [] []
    (map (fun x => (n_hash (p_name (c_prim x)), x)) classes) (map (fun x => (n_hash (p_name (e_prim x)), x)) enums) [] [] [] [] [] [] [] [] [] [].
Local Open Scope string_scope.
Local Open Scope list_scope.
(* a namespace in a namespace, an empty namespace, a class in a class *)
Definition ex_a := mk_name 10 (str "A").
Definition ex_ab := mk_name 11 (str "A::B").
Definition ex_empty := mk_name 12 (str "Empty").
Definition ex_c := mk_name 255 (str "A::B::C").
Definition ex_db : database :=
  cg_db [mk_prim ex_a noname; mk_prim ex_ab ex_a; mk_prim ex_empty noname]
    [mk_type (mk_prim (mk_name 5 (str "int")) noname) 4]
    [mk_class (mk_prim ex_c ex_ab) 4 true; mk_class (mk_prim (mk_name 256 (str "A::B::C::Inner")) ex_c) 4 true; mk_class (mk_prim (mk_name 4096 (str "S")) noname) 4 false]
    [mk_enum (mk_prim (mk_name 20 (str "A::Plain")) ex_a) 4 0; mk_enum (mk_prim (mk_name 21 (str "Scoped")) noname) 4 1].
Example C51_witness_ok : db_ok ex_db /\ (length (namespaces ex_db) + 2 <= 5)%nat.
Proof. split; [apply db_okb_ok; vm_compute; reflexivity|cbn; lia]. Qed.
Definition crlf (l : list string) : list Z := flat_map (fun s => str s ++ [13; 10]) l.
Definition tabs (n : nat) (s : string) : string := Nat.iter n (String (Ascii.ascii_of_nat 9)) s.
Definition ex_forward : list string :=
  ["// Forward declarations for all known types";
   "namespace A"; "{"; tabs 1 "namespace B"; tabs 1 "{"; tabs 2 "class C;"; tabs 1 "}";
   tabs 1 "#if defined(CLCPP_USING_MSVC)"; tabs 1 "enum Plain;"; tabs 1 "#endif"; "}";
   "struct S;"; "enum class Scoped;"; ""].
Definition ex_header : list string :=
  ["// Generated by clmerge.exe - do not edit!"; "#include <clcpp/clcpp.h>"; ""] ++ ex_forward ++
  ["// Specialisations for constexpr clcppTypeHash";
   "template <> constexpr unsigned int clcppTypeHash< A::B::C >() { return 0xff; }";
   "template <> constexpr unsigned int clcppTypeHash< ::S >() { return 0x1000; }";
   "template <> constexpr unsigned int clcppTypeHash< ::Scoped >() { return 0x15; }";
   "template <> constexpr unsigned int clcppTypeHash< int >() { return 0x5; }";
   "#if defined(CLCPP_USING_MSVC)";
   "template <> constexpr unsigned int clcppTypeHash< A::Plain >() { return 0x14; }"; "#endif"].
Definition ex_cpp : list string :=
  ["// Generated by clmerge.exe - do not edit!"; "#include <clcpp/clcpp.h>"; "";
   "// Array of type name pointers"; "static const int clcppNbTypes = 5;"; "static const clcpp::Type* clcppTypePtrs[clcppNbTypes] = { 0 };"; "";
   "void clcppInitGetType(const clcpp::Database* db)"; "{"; tabs 1 "// Populate the type pointer array if a database is specified"; tabs 1 "if (db != 0)"; tabs 1 "{";
   tabs 2 "clcppTypePtrs[0] = db->GetType(0xff);"; tabs 2 "clcppTypePtrs[1] = db->GetType(0x1000);"; tabs 2 "clcppTypePtrs[2] = db->GetType(0x14);";
   tabs 2 "clcppTypePtrs[3] = db->GetType(0x15);"; tabs 2 "clcppTypePtrs[4] = db->GetType(0x5);"; tabs 1 "}"; "}"; ""] ++ ex_forward ++
  ["// Specialisations for GetType and GetTypeNameHash"; "namespace clcpp"; "{";
   tabs 1 "template <> const Type* GetType< A::B::C >() { return clcppTypePtrs[0]; }"; tabs 1 "template <> unsigned int GetTypeNameHash< A::B::C >() { return 0xff; }";
   tabs 1 "template <> const Type* GetType< ::S >() { return clcppTypePtrs[1]; }"; tabs 1 "template <> unsigned int GetTypeNameHash< ::S >() { return 0x1000; }";
   tabs 1 "template <> const Type* GetType< ::Scoped >() { return clcppTypePtrs[3]; }"; tabs 1 "template <> unsigned int GetTypeNameHash< ::Scoped >() { return 0x15; }";
   tabs 1 "template <> const Type* GetType< int >() { return clcppTypePtrs[4]; }"; tabs 1 "template <> unsigned int GetTypeNameHash< int >() { return 0x5; }";
   tabs 1 "#if defined(CLCPP_USING_MSVC)";
   tabs 1 "template <> const Type* GetType< A::Plain >() { return clcppTypePtrs[2]; }"; tabs 1 "template <> unsigned int GetTypeNameHash< A::Plain >() { return 0x14; }";
   tabs 1 "#endif"; "}"].
Definition without_first_line (s : list Z) : list Z := skipn 13 s.
Example C51_witness : exists cpp hdr, GenMergedCppImpl 5 (Some None) (Some None) ex_db = Ok (Some (Some cpp), Some (Some hdr)) /\
  without_first_line cpp = crlf ex_cpp /\ without_first_line hdr = crlf ex_header.
Proof. eexists. eexists. split; [vm_compute; reflexivity|]. split; vm_compute; reflexivity. Qed.
(* a file with another hash is replaced, and one with the hash is not though its text is different *)
Example C69_witness : exists cpp hdr old, GenMergedCppImpl 5 (Some None) (Some None) ex_db = Ok (Some (Some cpp), Some (Some hdr)) /\
  GenMergedCppImpl 5 (Some (Some hdr)) None ex_db = Ok (Some (Some cpp), None) /\
  GenMergedCppImpl 5 (Some (Some old)) None ex_db = Ok (Some (Some old), None) /\ old <> cpp.
Proof.
  assert (H : exists cpp hdr, GenMergedCppImpl 5 (Some None) (Some None) ex_db = Ok (Some (Some cpp), Some (Some hdr)) /\
    GenMergedCppImpl 5 (Some (Some hdr)) None ex_db = Ok (Some (Some cpp), None) /\
    GenMergedCppImpl 5 (Some (Some (firstn 13 cpp))) None ex_db = Ok (Some (Some (firstn 13 cpp)), None) /\ length cpp <> 13%nat).
  { eexists. eexists. split; [vm_compute; reflexivity|]. split; [vm_compute; reflexivity|]. split; [vm_compute; reflexivity|vm_compute; discriminate]. }
  destruct H as [cpp [hdr [A [B [C D]]]]]. exists cpp, hdr, (firstn 13 cpp). split; [exact A|]. split; [exact B|]. split; [exact C|]. intros E. apply (f_equal (@length Z)) in E. rewrite firstn_length in E.
  assert (L : (13 < length cpp)%nat) by (clear - A; revert A; destruct (Nat.ltb 13 (length cpp)) eqn:El; [intros _; apply Nat.ltb_lt, El|]; intros A; exfalso; apply Nat.ltb_ge in El;
    assert (X : match GenMergedCppImpl 5 (Some None) (Some None) ex_db with Ok (Some (Some c), _) => Nat.ltb 13 (length c) | _ => false end = true) by (vm_compute; reflexivity); rewrite A in X; apply Nat.ltb_lt in X; lia).
  lia.
Qed.
(* the text of the file is not what is compared: a file is left with text that is not the text for the database *)
Theorem C69_text_refuted : ~ (forall db n cpp old new, db_ok db -> (length (namespaces db) + 2 <= n)%nat ->
  GenMergedCppImpl n (Some None) None db = Ok (Some (Some cpp), None) -> GenMergedCppImpl n (Some (Some old)) None db = Ok (Some (Some new), None) -> new = cpp).
Proof.
  intros H. destruct C69_witness as [cpp [hdr [old [A [B [C D]]]]]]. destruct C51_witness_ok as [W1 W2]. apply D. apply (H ex_db 5%nat cpp old old W1 W2); [|exact C].
  destruct (C69_gate ex_db 5 W1 W2) as [cpp1 [hdr1 [hc [hh [_ [_ [_ [_ [_ X]]]]]]]]]. destruct (X (Some None) None) as [a [b [E [L M]]]]. destruct b as [b|]; [destruct M|]. destruct a as [[a|]|]; cbn [left_by] in L; try contradiction. subst a.
  destruct (X (Some None) (Some None)) as [a [b [E' [L' _]]]]. destruct a as [[a|]|]; cbn [left_by] in L'; try contradiction. subst a. rewrite E. rewrite E' in A. congruence.
Qed.
Print Assumptions C69_text_refuted.

(* a class in a namespace whose parent is not known gets specialisations but is not declared *)
Definition orphan_db : database := cg_db [mk_prim ex_ab ex_a] [] [mk_class (mk_prim ex_c ex_ab) 4 true] [].
Theorem C68_orphans_refuted : ~ (forall db fwd, db_ok db -> forward_declarations db fwd -> (length (entries db) <= length fwd)%nat).
Proof.
  intros H. assert (W : db_ok orphan_db) by (apply db_okb_ok; vm_compute; reflexivity).
  destruct (C68_forward orphan_db 3 W ltac:(cbn; lia)) as [cpp [hdr [ci [hi [fwd [_ [_ [_ [_ [_ F]]]]]]]]]]. specialize (H _ _ W F). change (length (entries orphan_db)) with 1%nat in H.
  assert (NS : forall h, h <> 0 -> ~ exists sc, scope orphan_db h sc).
  { intros h Hh [sc Hsc]. inversion Hsc as [E|ns sc' s Hin HS Hshort]; [congruence|]. cbn in Hin. destruct Hin as [<-|[]]. cbn [p_parent p_name n_hash ex_a] in HS. inversion HS as [|ns sc'' s' Hin' _ _ E1]. cbn in Hin'. destruct Hin' as [<-|[]]. discriminate E1. }
  destruct F as [reached [used [ds [os [R [U [FD [FO P]]]]]]]].
  cbn [orphan_db cg_db decls m_classes m_enums map snd app filter class_decl d_parent c_prim p_parent ex_ab n_hash] in FD. cbn [namespaces orphan_db cg_db m_namespaces map snd p_name n_hash filter ex_ab] in FO.
  assert (E1 : reached 11 = false) by (destruct (reached 11) eqn:E; [exfalso; apply (NS 11); [lia|]; apply R; exact E|reflexivity]).
  assert (E2 : used 11 = false).
  { destruct (used 11) eqn:E; [|reflexivity]. exfalso. apply (NS 11); [lia|]. apply (proj1 (U (mk_prim ex_ab ex_a) (or_introl eq_refl)) E). }
  rewrite E1 in FD. rewrite E2 in FO. inversion FD; subst. inversion FO; subst. apply Permutation_sym, Permutation_nil in P. subst fwd. cbn in H. lia.
Qed.
Print Assumptions C68_orphans_refuted.

(* longer names: a line of more than 511 characters is cut *)
Fixpoint infix (a l : list Z) : bool := is_prefix a l || match l with [] => false | _ :: r => infix a r end.
Lemma infix_app : forall a x y, infix a (x ++ a ++ y) = true.
Proof.
  assert (HP : forall a y, is_prefix a (a ++ y) = true) by (induction a as [|c a IH]; intros y; [destruct y; reflexivity|cbn; rewrite Z.eqb_refl; apply IH]).
  intros a x y. induction x as [|c x IH]; [cbn [app]; destruct (a ++ y) as [|c l] eqn:E; cbn [infix]; rewrite <- E, HP; reflexivity|]. cbn [app infix]. rewrite IH. apply orb_true_r.
Qed.
Lemma source_infix : forall file its it, source file its -> In it its -> infix (it_text it) file = true.
Proof.
  intros file its it [ls [HL HR]] Hin.
  assert (HA : exists l, In l ls /\ it_text it = unindented l).
  { assert (HG : forall ls sc pr ms its, read ls sc pr ms = Some its -> In it its -> exists l, In l ls /\ it_text it = unindented l).
    { clear. induction ls as [|l ls IH]; intros sc pr ms its HR Hin; cbn [read] in HR; [destruct sc, ms; try discriminate; injection HR as <-; destruct Hin|].
      assert (HI : forall sc pr ms its, read ls sc pr ms = Some its -> In it its -> exists x, In x (l :: ls) /\ it_text it = unindented x) by (intros sc' pr' ms' its' A B; destruct (IH _ _ _ _ A B) as [x [X Y]]; exists x; cbn; auto).
      destruct (list_eqb _ (str "{")); [exact (HI _ _ _ _ HR Hin)|]. destruct (list_eqb _ (str "}")); [destruct sc; [discriminate|exact (HI _ _ _ _ HR Hin)]|].
      destruct (list_eqb _ (str "#if defined(CLCPP_USING_MSVC)")); [destruct ms; [discriminate|exact (HI _ _ _ _ HR Hin)]|]. destruct (list_eqb _ (str "#endif")); [destruct ms; [exact (HI _ _ _ _ HR Hin)|discriminate]|].
      destruct (read ls sc (unindented l) ms) as [r|] eqn:E; try discriminate. injection HR as <-. destruct Hin as [<-|Hin]; [exists l; cbn; auto|exact (HI _ _ _ _ E Hin)]. }
    exact (HG _ _ _ _ _ HR Hin). }
  destruct HA as [l [Hl ->]].
  assert (HU : exists t, l = t ++ unindented l).
  { clear. induction l as [|c l [t IH]]; [exists []; reflexivity|]. destruct (Z.eq_dec c 9) as [->|N]; [exists (9 :: t); cbn [unindented app]; f_equal; exact IH|]. exists []. cbn [app].
    assert (E : unindented (c :: l) = c :: l); [|rewrite E; reflexivity]. cbn [unindented]. destruct c as [|p|p]; try reflexivity. do 4 (try (destruct p as [p|p|]; try reflexivity)). congruence. }
  destruct HU as [t HU].
  assert (HM : forall a x r, infix a r = true -> infix a (x ++ r) = true).
  { clear. intros a x r H. induction x as [|c x IH]; [exact H|]. cbn [app infix]. rewrite IH. apply orb_true_r. }
  clear HR. induction HL as [|x r ls Hx HL IH]; [destruct Hl|]. destruct Hl as [->|Hl]; [|apply HM, (HM _ [13; 10]), IH, Hl].
  rewrite HU at 2. rewrite <- app_assoc. apply infix_app.
Qed.
Definition long_name : list Z := repeat 97 500.
Definition long_db : database := cg_db [] [] [mk_class (mk_prim (mk_name 7 long_name) noname) 4 true] [].
Theorem C51_long_names_refuted : exists cpp, GenMergedCppImpl 2 (Some None) None long_db = Ok (Some (Some cpp), None) /\ ~ exists its fwd, source cpp its /\ cpp_source long_db fwd its.
Proof.
  assert (H : exists cpp, GenMergedCppImpl 2 (Some None) None long_db = Ok (Some (Some cpp), None) /\ infix (long_name ++ str " >() { return clcppTypePtrs[") cpp = false).
  { eexists. split; vm_compute; reflexivity. }
  destruct H as [cpp [A B]]. exists cpp. split; [exact A|]. intros [its [fwd [S1 [hash [count [slots [always [msvc [E [_ [_ [SP _]]]]]]]]]]]].
  assert (EN : entries long_db = [mk_entry (str "::" ++ long_name) 7 false]) by reflexivity.
  rewrite EN in SP. cbn [numbered filter other_than_plain_enum snd en_plain_enum negb] in SP. inversion SP as [|i e l a b its' HA HB HC]; subst.
  assert (Hin : In a ([hash] ++ preamble ++ [top (str "// Array of type name pointers"); count; top (str "static const clcpp::Type* clcppTypePtrs[clcppNbTypes] = { 0 };"); top []] ++
          [top (str "void clcppInitGetType(const clcpp::Database* db)");
           mk_item [str "void clcppInitGetType(const clcpp::Database* db)"] false (str "// Populate the type pointer array if a database is specified");
           mk_item [str "void clcppInitGetType(const clcpp::Database* db)"] false (str "if (db != 0)")] ++
          slots ++ [top []] ++ [top (str "// Forward declarations for all known types")] ++ fwd ++ [top []] ++
          [top (str "// Specialisations for GetType and GetTypeNameHash"); top (str "namespace clcpp")] ++ (a :: b :: its') ++ msvc)) by (rewrite !in_app_iff; cbn; tauto).
  pose proof (source_infix _ _ _ S1 Hin) as HI. destruct HA as [d [_ ->]]. cbn [it_text en_name] in HI.
  assert (HT : forall a x y f, infix (x ++ a ++ y) f = true -> infix a f = true).
  { clear. assert (HP : forall p f, is_prefix p f = true -> exists r, f = p ++ r).
    { induction p as [|c p IH]; intros f H; [exists f; reflexivity|]. destruct f as [|c' f]; [discriminate|]. cbn [is_prefix] in H. apply andb_true_iff in H. destruct H as [H1 H2]. apply Z.eqb_eq in H1. subst c'. destruct (IH f H2) as [r ->]. exists r. reflexivity. }
    intros a x y f. induction f as [|c f IH]; intros H; cbn [infix] in H; apply orb_true_iff in H; destruct H as [H|H].
    - destruct (HP _ _ H) as [r E]. rewrite E, <- !app_assoc. apply infix_app.
    - discriminate.
    - destruct (HP _ _ H) as [r E]. rewrite E, <- !app_assoc. apply infix_app.
    - cbn [infix]. rewrite (IH H). apply orb_true_r. }
  rewrite <- !app_assoc in HI. 
  apply (HT (long_name ++ str " >() { return clcppTypePtrs[") (str "template <> const Type* GetType< " ++ str "::") (d ++ str "]; }")) in HI || (rewrite !app_assoc in HI; rewrite <- (app_assoc _ long_name) in HI).
  rewrite B in HI. discriminate.
Qed.
Print Assumptions C51_long_names_refuted.
