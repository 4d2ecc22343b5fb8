(* A second source for the examples of PipeProps.v, scanned in a run of its own:

     namespace N {                                          clcpp_reflect(N)
       clcpp_attr(title = "a base") struct P { float q; };
       enum E { X, Z = 7 };
       int f(const S& s);
       clcpp_attr(title = "last") void g(P* p, const int& k);
     } *)
From Verif Require Import Base BaseProofs Text HashModel Maps DatabaseModel AttrModel NamesProofs MergeModel MergeSpec BinarySpec TextDbSpec ScanModel PipeSpec ScanWitness.
From Verif Require ScanSpec.
Local Open Scope string_scope.
Local Open Scope list_scope.
Local Open Scope Z_scope.

Definition v_tu : list decl :=
  [ask "full-N";
   D_namespace (H "N" [])
     [D_record (H "N::P" ["attr:title = 'a base'"]) (plain [] 4) [D_leaf (H "N::P::q" []) (L_field false (str "q") 0 (Q false (T_builtin (str "float"))))];
      D_leaf (H "N::E" []) (L_enum 0 [(str "X", 0); (str "Z", 7)]);
      D_leaf (H "N::f" []) (L_function (mk_fn true t_int [(str "s", Q false (T_reference (t_S true)))]));
      D_leaf (H "N::g" ["attr:title = 'last'"]) (L_function (mk_fn true (Q false (T_builtin (str "void")))
        [(str "p", Q false (T_pointer t_P)); (str "k", Q false (T_reference (Q true (T_builtin (str "int")))))]))]].
Definition unquote (c : Z) : Z := if c =? 39 then 34 else c.
Fixpoint quoted (d : decl) : decl :=
  let q h := mk_hdr (h_invalid h) (h_name h) (map (map unquote) (h_annots h)) in
  match d with
  | D_namespace h l => D_namespace (q h) (map quoted l)
  | D_record h r l => D_record (q h) r (map quoted l)
  | D_leaf h k => D_leaf (q h) k
  | D_unnamed => D_unnamed
  end.
Definition v_tus : list (env * list decl) := [(wE, map quoted v_tu)].
Definition v_db : database := match scan 3 w_sf v_tus with Ok (d, _) => d | _ => db_empty end.
Definition vw_db : database := match MergeAll db_empty [w_db; v_db] with Ok d => d | _ => db_empty end.
Lemma v_scan : exists w, scan 3 w_sf v_tus = Ok (v_db, w).
Proof.
  assert (X : match scan 3 w_sf v_tus with Ok _ => true | _ => false end = true) by (vm_compute; reflexivity).
  unfold v_db. destruct (scan 3 w_sf v_tus) as [[d w]| | | ]; [|discriminate X..]. exists w. reflexivity.
Qed.
Lemma v_coherent : ScanSpec.coherent (ScanSpec.units v_tus).
Proof. intros E i infos E' j nm [<-|[]] _ _ _ _ _. exact w_based. Qed.
Lemma vw_scanned : scanned w_sf [w_tus; v_tus] [w_db; v_db].
Proof.
  constructor; [split; [exact w_coherent|exists 3%nat; exact w_scan]|]. constructor; [split; [exact v_coherent|exists 3%nat; exact v_scan]|]. constructor.
Qed.
Lemma vw_merged : MergeAll db_empty [w_db; v_db] = Ok vw_db.
Proof.
  assert (X : match MergeAll db_empty [w_db; v_db] with Ok _ => true | _ => false end = true) by (vm_compute; reflexivity).
  unfold vw_db. destruct (MergeAll db_empty [w_db; v_db]) as [d| | | ]; [|discriminate X..]. reflexivity.
Qed.

(* the conditions, computed *)
Definition rowsb {T} (p : T -> bool) (m : zmap T) : bool := forallb (fun e => p (snd e)) m.
Lemma rowsb_ok : forall T (p : T -> bool) (P : T -> Prop) m, (forall v, p v = true -> P v) -> rowsb p m = true -> all_rows P m.
Proof. intros T p P m H Hb k v Hin. unfold rowsb in Hb. rewrite forallb_forall in Hb. apply H. exact (Hb (k, v) Hin). Qed.
Definition shortb (t : list Z) : bool := forallb (fun c => (1 <=? c) && (c <=? 255)) t && (zlen t <=? 1023).
Lemma shortb_ok : forall t, shortb t = true -> short_text t.
Proof.
  intros t H. unfold shortb in H. apply andb_true_iff in H. destruct H as [H1 H2]. split; [|lia]. rewrite forallb_forall in H1. unfold c_string. rewrite Forall_forall. intros c Hc. specialize (H1 c Hc). unfold is_byte. lia.
Qed.
Lemma short_ok : forall t, short_text t -> text_ok t.
Proof. intros t [A B]. split; [exact A|]. lia. Qed.
Definition fewb {T} (m : zmap T) : bool := zlen m <? 2 ^ 25.
Lemma fewb_ok : forall T (m : zmap T), fewb m = true -> at_most_rows m.
Proof. intros T m H. unfold fewb in H. unfold at_most_rows. lia. Qed.
Definition no0b {T} (m : zmap T) : bool := negb (existsb (fun k => k =? 0) (keys m)).
Lemma no0b_ok : forall T (m : zmap T), no0b m = true -> ~ In 0 (keys m).
Proof. intros T m H Hin. unfold no0b in H. apply negb_true_iff in H. assert (X : existsb (fun k => k =? 0) (keys m) = true) by (apply existsb_exists; exists 0; auto). congruence. Qed.
Definition s32b (v : Z) : bool := (- 2 ^ 31 <=? v) && (v <? 2 ^ 31).
Definition u32b (v : Z) : bool := (0 <=? v) && (v <? 2 ^ 32).
Lemma s32b_ok : forall v, s32b v = true -> is_s32 v.
Proof. intros v H. unfold s32b in H. unfold is_s32. lia. Qed.
Lemma u32b_ok : forall v, u32b v = true -> is_u32 v.
Proof. intros v H. unfold u32b in H. unfold is_u32. lia. Qed.
Lemma w_fits : fits w_db /\ fits v_db.
Proof.
  split; unfold fits; (split; [vm_compute; reflexivity|]);
  (split; [apply (rowsb_ok _ (fun n => shortb (n_text n))); [intros v; apply shortb_ok|vm_compute; reflexivity]|]);
  do 16 (split; [apply fewb_ok; vm_compute; reflexivity|]);
  (split; [apply (rowsb_ok _ (fun e => s32b (e_scoped e))); [intros v; apply s32b_ok|vm_compute; reflexivity]|]);
  (split; [apply (rowsb_ok _ (fun e => s32b (f_offset e))); [intros v; apply s32b_ok|vm_compute; reflexivity]|]);
  (split; [apply (rowsb_ok _ (fun e => u32b (fa_value e))); [intros v; apply u32b_ok|vm_compute; reflexivity]|]);
  (split; [apply (rowsb_ok _ (fun e => shortb (ta_value e))); [intros v; apply shortb_ok|vm_compute; reflexivity]|]);
  (split; [apply (rowsb_ok _ (fun e => u32b (ci_count e))); [intros v; apply u32b_ok|vm_compute; reflexivity]|]);
  (split; apply no0b_ok; vm_compute; reflexivity).
Qed.
Lemma w_distinct : distinct_texts v_db.
Proof.
  unfold distinct_texts. vm_compute. apply NoDup_cons; [intros [X|[]]; discriminate X|]. apply NoDup_cons; [intros []|]. apply NoDup_nil.
Qed.
Lemma vw_mergeable : Forall mergeable [w_db; v_db].
Proof.
  assert (X : forall d, fits d -> m_float_attrs d = [] -> mergeable d).
  { intros d F E. unfold fits in F. unfold mergeable. split; [|split; [|tauto]].
    - destruct F as [_ [F _]]. intros k v Hin. apply short_ok. exact (F k v Hin).
    - rewrite E. intros k v []. }
  destruct w_fits. constructor; [apply X; [assumption|vm_compute; reflexivity]|]. constructor; [apply X; [assumption|vm_compute; reflexivity]|]. constructor.
Qed.
