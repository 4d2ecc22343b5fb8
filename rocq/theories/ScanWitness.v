(* A small source for the scanner, used by the examples of ScanProps.v:

     namespace clcpp_internal { struct A { } with annotation "full-N"; }   clcpp_reflect(N)
     namespace clcpp_internal { struct B { } with annotation "container-N::V<int>-R-W-haskey"; }
     namespace N {
       struct P;
       template <typename T> struct V : public P { };
       enum E { X, Y = -1 };
       clcpp_attr(weight = 3) struct S : public P { const int* a; int b[4]; V<int> c;  void m(V<int>& x, float);  };
       clcpp_attr(noreflect) struct H { int z; };
       int f(const S& s);
       int f(double, S* const s);
     }
     clcpp_attr(tag) struct O { int y; };
     S f2() is not reflected either. *)
From Verif Require Import Base Text HashModel Maps DatabaseModel AttrModel ScanModel ScanSpec ScanTypeProofs.
Local Open Scope string_scope.
Local Open Scope list_scope.
Local Open Scope Z_scope.

Definition t_int := Q false (T_builtin (str "int")).
Definition t_P := Q false (T_sugar (Q false (T_record (str "struct N::P") RD_plain))).
Definition t_S c := Q c (T_sugar (Q false (T_record (str "struct N::S") RD_plain))).
Definition t_V := Q false (T_sugar (Q false (T_tspec (str "V<int>") (RD_spec 0)))).
Definition wE : env := fun _ => mk_cts (str "N::V") [TA_type t_int] [mk_base false t_P] 8.
Definition H nm annots := mk_hdr false (str nm) (map str annots).
Definition plain (bases : list base) (size : Z) := mk_rcd true false false bases false false size.
Definition ask (a : string) := D_namespace (H "clcpp_internal" []) [D_record (H "clcpp_internal::A" [a]) (plain [] 1) []].
Definition w_N : list decl :=
  [D_record (H "N::P" []) (mk_rcd false true false [] false false 0) [];
   D_leaf (H "N::V" []) (L_template 1 false);
   D_leaf (H "N::E" []) (L_enum 0 [(str "X", 0); (str "Y", -1)]);
   D_record (H "N::S" ["attr:weight = 3"]) (plain [mk_base false t_P] 40)
     [D_leaf (H "N::S::a" []) (L_field false (str "a") 64 (Q false (T_pointer (Q true (T_builtin (str "int"))))));
      D_leaf (H "N::S::b" []) (L_field false (str "b") 128 (Q false (T_array 4 t_int)));
      D_leaf (H "N::S::c" []) (L_field false (str "c") 256 t_V);
      D_leaf (H "N::S::m" []) (L_method false true (Q false (T_pointer (t_S false)))
        (mk_fn true (Q false (T_builtin (str "void"))) [(str "x", Q false (T_reference t_V)); ([], Q false (T_builtin (str "float")))]));
      D_leaf (H "N::S::operator=" []) (L_method true true (Q false (T_pointer (t_S false))) (mk_fn true t_int []));
      D_unnamed];
   D_record (H "N::H" ["attr:noreflect"]) (plain [] 4) [D_leaf (H "N::H::z" []) (L_field false (str "z") 0 t_int)];
   D_leaf (H "N::f" []) (L_function (mk_fn true t_int [(str "s", Q false (T_reference (t_S true)))]));
   D_leaf (H "N::f" []) (L_function (mk_fn true t_int [([], Q false (T_builtin (str "double"))); (str "s", Q true (T_pointer (t_S false)))]));
   D_leaf (H "N::g" []) (L_function (mk_fn true t_int [(str "p", Q false T_other)]))].
Definition w_tu : list decl :=
  [ask "full-N"; ask "container-N::V<int>-R-W-haskey"; D_namespace (H "N" []) w_N;
   D_record (H "O" ["attr:tag"]) (plain [] 4) [D_leaf (H "O::y" []) (L_field false (str "y") 0 t_int)];
   D_leaf (H "f2" []) (L_function (mk_fn true (t_S false) []))].
Definition w_tus : list (env * list decl) := [(wE, w_tu)].
Definition w_sf : list Z -> Z := fun _ => 0.
Definition w_db : database := match scan 3 w_sf w_tus with Ok (d, _) => d | _ => db_empty end.
Definition texts {T} (key : T -> name) (m : zmap T) : list (list Z) := map (fun e => n_text (key (snd e))) m.
Fixpoint count_text (t : list Z) (l : list (list Z)) : Z := match l with [] => 0 | x :: r => (if list_eqb x t then 1 else 0) + count_text t r end.
Lemma w_scan : exists w, scan 3 w_sf w_tus = Ok (w_db, w).
Proof.
  assert (X : match scan 3 w_sf w_tus with Ok _ => true | _ => false end = true) by (vm_compute; reflexivity).
  unfold w_db. destruct (scan 3 w_sf w_tus) as [[d w]| | | ]; [|discriminate X..]. exists w. reflexivity.
Qed.
Lemma w_based : exists bs, based wE [mk_base false t_P] bs.
Proof.
  exists [str "N::P"].
  apply (based_cons wE (mk_base false t_P) false (T_record (str "struct N::P") RD_plain) (str "N::P") (str "N::P") (str "N::P") [] []).
  - apply st_alias with (c := false) (c' := false). apply st_here. intros q Hq. discriminate Hq.
  - reflexivity.
  - apply Remove_spec; [intros Hn; discriminate Hn|]. vm_compute. reflexivity.
  - apply Remove_spec; [intros Hn; discriminate Hn|]. vm_compute. reflexivity.
  - apply sp_printed; reflexivity.
  - apply based_nil.
Qed.
Lemma w_coherent : coherent (fun E => In E (map fst w_tus)).
Proof. intros E i infos E' j nm [<-|[]] _ _ _ _ _. exact w_based. Qed.
