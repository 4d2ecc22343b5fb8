(* A database that meets what the export asks for, used beside the theorems. *)
From Verif Require Import Base BaseProofs Text HashModel HashSpec SearchModel Maps DatabaseModel NamesProofs MergeSpec ExportModel ExportSpec ExportProofs ExportParentProofs ExportTablesProofs ExportLinkProofs ExportMainProofs.
From Coq Require Import Sorted Permutation.

(* ---- the sample ---- *)
Definition hash_of (s : string) : Z := hash32 (str s) 0.
Definition nam (s : string) : name := if (s =? "")%string then noname else mk_name (hash_of s) (str s).
Definition pri (s p : string) : prim := mk_prim (nam s) (nam p).
Definition tab {T} (f : T -> prim) (l : list T) : zmap T := fold_left (fun m v => mm_insert (n_hash (p_name (f v))) v m) l [].
Definition inherit (d b : string) : type_inheritance := mk_inh (nam (b ++ "<-" ++ d)) (nam d) (nam b).
Definition val : qualifier := mk_qual VALUE false.
Definition all_names : list string :=
  ["int"; "N"; "N::A"; "N::B"; "N::C"; "x"; "y"; "Missing"; "N::f"; "a"; "return"; "g"; "N::E"; "N::E0"; "N::E1";
   "custom_flag"; "custom_flag_inherit"; "transient"; "replicate"; "N::A::x"; "N::V"; "N::V<int>"; "N::V<int>::ConstructObject";
   "N::A::ConstructObject"; "N::A<-N::B"; "N::A<-N::C"; "N::B<-N::C"; "N::ReadIt<-N::C"; "N::WriteIt<-N::C"; "N::A::m"; "this"; "b"; "load_x"; "group"; "weight"; "kin"; "M"; "M::D"; "N::ReadIt"; "N::WriteIt"]%string.
Definition sample : database := mk_db
  (fold_left (fun m s => m_set (hash_of s) (nam s) m) all_names [])
  (tab (fun p => p) [pri "N" ""])
  (tab t_prim [mk_type (pri "int" "") 4])
  (tab (fun p => p) [pri "N::V" "N"])
  (tab tt_prim [mk_ttype (pri "N::V<int>" "N::V") 8 [nam "int"; noname; noname; noname] [false; false; false; false]])
  (tab c_prim [mk_class (pri "N::A" "N") 4 true; mk_class (pri "N::B" "N") 8 true; mk_class (pri "N::C" "N") 16 true; mk_class (pri "M::D" "M") 1 true;
               mk_class (pri "N::ReadIt" "N") 24 true; mk_class (pri "N::WriteIt" "N") 24 true])
  (tab e_prim [mk_enum (pri "N::E" "N") 4 0])
  (tab ec_prim [mk_econst (pri "N::E0" "N::E") 0; mk_econst (pri "N::E1" "N::E") 1])
  (tab fn_prim [mk_func (pri "N::f" "N") 77 4096; mk_func (pri "N::f" "N") 78 0; mk_func (pri "g" "") 79 8192; mk_func (pri "N::A::m" "N::A") 80 0;
                mk_func (pri "N::A::ConstructObject" "N::A") 81 0; mk_func (pri "N::V<int>::ConstructObject" "N::V<int>") 82 0])
  (tab f_prim [mk_field (pri "x" "N::A") (nam "int") val 0 0; mk_field (pri "y" "N::B") (nam "Missing") val 4 0;
               mk_field (pri "a" "N::f") (nam "int") val 0 77; mk_field (pri "b" "N::f") (nam "N::A") val 1 77; mk_field (pri "return" "N::f") (nam "int") val (-1) 77;
               mk_field (pri "a" "N::f") (nam "N::E") val 0 78; mk_field (pri "a" "g") (nam "Missing") val 0 79; mk_field (pri "this" "N::A::m") (nam "Missing") val 0 80])
  (tab (fun p => p) [pri "custom_flag_inherit" "N::A"; pri "transient" "N::A::x"; pri "replicate" "N::B"])
  (tab ia_prim [mk_int (pri "custom_flag" "N::A") 4096])
  (tab fa_prim [mk_float (pri "weight" "N::f") 1065353216])
  (tab pa_prim [mk_pattr (pri "load_x" "N::A") (nam "N::f"); mk_pattr (pri "kin" "N::B") (nam "N::A")])
  (tab ta_prim [mk_text (pri "group" "N::A") (str "first"); mk_text (pri "group" "N::B") (str "")])
  (m_set (hash_of "N::V") (mk_cinfo (nam "N::V") (nam "N::ReadIt") (nam "N::WriteIt") 1 0)
   (m_set (hash_of "N::A::x") (mk_cinfo (nam "N::A::x") (nam "N::ReadIt") (nam "N::WriteIt") 2 8) []))
  (fold_left (fun m v => m_set (n_hash (ti_name v)) v m) [inherit "N::B" "N::A"; inherit "N::C" "N::A"; inherit "N::C" "N::B"; inherit "N::C" "N::ReadIt"; inherit "N::C" "N::WriteIt"] []).
(* insertion sort *)
Fixpoint ins (e : Z * ref) (l : list (Z * ref)) : list (Z * ref) :=
  match l with [] => [e] | x :: r => if fst e <=? fst x then e :: l else x :: ins e r end.
Definition isort (l : list (Z * ref)) : list (Z * ref) := fold_right ins [] l.
Definition kid (k : kind) : Z :=
  match k with KType => 1 | KEnumConst => 2 | KEnum => 3 | KField => 4 | KFunction => 5 | KClass => 6 | KTemplate => 7 | KTemplateType => 8
  | KNamespace => 9 | KFlagAttr => 10 | KIntAttr => 11 | KFloatAttr => 12 | KPrimAttr => 13 | KTextAttr => 14 end.
Definition lay : layout := mk_layout (fun l => 2 ^ 40 + kid (fst l) * 2 ^ 20 + 8 * Z.of_nat (snd l)) 205 isort.

(* ---- it meets the conditions: each is checked by computation ---- *)
Fixpoint sorted_b (strict : bool) (l : list Z) : bool :=
  match l with
  | [] => true
  | a :: r => match r with b :: _ => if strict then a <? b else a <=? b | [] => true end && sorted_b strict r
  end.
Lemma sorted_b_ok : forall l, sorted_b false l = true -> sorted l.
Proof.
  assert (G : forall l a, sorted_b false (a :: l) = true -> (forall b, In b l -> a <= b) /\ sorted l).
  { induction l as [|x l IH]; intros a H; [split; [intros b []|exact I]|]. cbn [sorted_b] in H. apply andb_true_iff in H. destruct H as [H1 H2]. change (sorted_b false (x :: l) = true) in H2.
    destruct (IH x H2) as [I1 I2]. split; [|split; assumption]. intros b [<-|Hb]; [lia|]. apply I1 in Hb. lia. }
  intros [|a l] H; [exact I|]. apply G in H. exact H.
Qed.
Lemma ssorted_b_ok : forall l, sorted_b true l = true -> ssorted l.
Proof.
  assert (G : forall l a, sorted_b true (a :: l) = true -> (forall b, In b l -> a < b) /\ ssorted l).
  { induction l as [|x l IH]; intros a H; [split; [intros b []|exact I]|]. cbn [sorted_b] in H. apply andb_true_iff in H. destruct H as [H1 H2]. change (sorted_b true (x :: l) = true) in H2.
    destruct (IH x H2) as [I1 I2]. split; [|split; assumption]. intros b [<-|Hb]; [lia|]. apply I1 in Hb. lia. }
  intros [|a l] H; [exact I|]. apply G in H. exact H.
Qed.
Definition table_b {T} (n : T -> name) (m : zmap T) : bool :=
  sorted_b false (keys m) && forallb (fun e => (fst e =? n_hash (n (snd e))) && negb (fst e =? 0)) m.
Lemma table_b_ok : forall T (n : T -> name) m, table_b n m = true -> wf_table n m.
Proof.
  intros T n m H. apply andb_true_iff in H. destruct H as [H1 H2]. split; [apply sorted_b_ok; exact H1|]. intros k v Hin. rewrite forallb_forall in H2. apply H2 in Hin.
  cbn [fst snd] in Hin. apply andb_true_iff in Hin. destruct Hin as [Ha Hb]. apply Z.eqb_eq in Ha. apply negb_true_iff, Z.eqb_neq in Hb. auto.
Qed.
Definition names_b (m : zmap name) : bool :=
  sorted_b true (keys m) && forallb (fun e => (n_hash (snd e) =? fst e) && (hash32 (n_text (snd e)) 0 =? fst e) && negb (fst e =? 0) &&
    forallb (fun c => (0 <? c) && (c <? 256)) (n_text (snd e)) && (zlen (n_text (snd e)) <? 2 ^ 28)) m.
Lemma names_b_ok : forall m, names_b m = true -> names_ok m /\ (forall h n, In (h, n) m -> text_ok (n_text n)) /\ forall h n, In (h, n) m -> zlen (n_text n) < 2 ^ 28.
Proof.
  intros m H. apply andb_true_iff in H. destruct H as [H1 H2]. rewrite forallb_forall in H2. apply ssorted_b_ok in H1.
  assert (H3 : forall h n, In (h, n) m -> n_hash n = h /\ hash32 (n_text n) 0 = h /\ h <> 0 /\ c_string (n_text n) /\ zlen (n_text n) < 2 ^ 28).
  { intros h n Hin. apply H2 in Hin. cbn [fst snd] in Hin. rewrite !andb_true_iff in Hin. destruct Hin as ((((A & B) & C) & D) & E). apply Z.eqb_eq in A, B. apply negb_true_iff, Z.eqb_neq in C. apply Z.ltb_lt in E.
    repeat split; auto. unfold c_string. rewrite Forall_forall. intros x Hx. rewrite forallb_forall in D. apply D in Hx. apply andb_true_iff in Hx. destruct Hx as [X Y]. apply Z.ltb_lt in X, Y. lia. }
  split; [split; [exact H1|]|split].
  - intros h n Hf. apply m_find_In in Hf. apply H3 in Hf. tauto.
  - intros h n Hin. apply H3 in Hin. unfold text_ok. split; [tauto|]. assert (2 ^ 28 < 2 ^ 31) by reflexivity. lia.
  - intros h n Hin. apply H3 in Hin. tauto.
Qed.
Definition list_eqb (a b : list Z) : bool := if list_eq_dec Z.eq_dec a b then true else false.
Definition interned_b (db : database) (n : name) : bool :=
  (n_hash n =? 0) || match m_find (n_hash n) (m_names db) with Some m => (n_hash m =? n_hash n) && list_eqb (n_text m) (n_text n) | None => false end.
Lemma interned_b_ok : forall db n, interned_b db n = true -> interned db n.
Proof.
  intros db n H. unfold interned_b in H. apply orb_true_iff in H. destruct H as [H|H]; [left; apply Z.eqb_eq; exact H|]. right.
  destruct (m_find (n_hash n) (m_names db)) as [m|]; [|discriminate]. apply andb_true_iff in H. destruct H as [H1 H2]. apply Z.eqb_eq in H1. unfold list_eqb in H2. destruct (list_eq_dec Z.eq_dec (n_text m) (n_text n)) as [E|]; [|discriminate].
  destruct m as [a b], n as [c d]. cbn in *. subst. reflexivity.
Qed.
Definition names_known (db : database) : bool :=
  forallb (fun k => forallb (fun i => interned_b db (it_name i) && interned_b db (it_parent i) && interned_b db (it_type i) && interned_b db (it_ref i) && forallb (interned_b db) (it_args i)) (items db k)) all_kinds
  && forallb (fun e => interned_b db (ci_name (snd e))) (m_containers db).
Lemma all_kinds_all : forall k, In k all_kinds.
Proof. intros k. destruct k; cbn; tauto. Qed.
Lemma names_known_ok : forall db, names_known db = true -> all_interned db.
Proof.
  intros db H. apply andb_true_iff in H. destruct H as [H1 H2]. rewrite forallb_forall in H1, H2. split.
  - intros k i Hi. specialize (H1 k (all_kinds_all k)). rewrite forallb_forall in H1. apply H1 in Hi. rewrite !andb_true_iff in Hi. destruct Hi as ((((A & B) & C) & D) & E).
    repeat split; try (apply interned_b_ok; assumption). rewrite Forall_forall. intros x Hx. rewrite forallb_forall in E. apply interned_b_ok. apply E. exact Hx.
  - intros h c Hc. apply H2 in Hc. apply interned_b_ok. exact Hc.
Qed.
Definition tables_b (d : database) : bool :=
  names_b (m_names d) && table_b p_name (m_namespaces d) && table_b (fun t => p_name (t_prim t)) (m_types d) &&
  table_b p_name (m_templates d) && table_b (fun t => p_name (tt_prim t)) (m_template_types d) &&
  table_b (fun c => p_name (c_prim c)) (m_classes d) && table_b (fun e => p_name (e_prim e)) (m_enums d) &&
  table_b (fun e => p_name (ec_prim e)) (m_enum_consts d) && table_b (fun f => p_name (fn_prim f)) (m_functions d) &&
  table_b (fun f => p_name (f_prim f)) (m_fields d) && table_b p_name (m_flag_attrs d) &&
  table_b (fun a => p_name (ia_prim a)) (m_int_attrs d) && table_b (fun a => p_name (fa_prim a)) (m_float_attrs d) &&
  table_b (fun a => p_name (pa_prim a)) (m_prim_attrs d) && table_b (fun a => p_name (ta_prim a)) (m_text_attrs d) &&
  (sorted_b true (keys (m_containers d)) && table_b ci_name (m_containers d)) && (sorted_b true (keys (m_inherits d)) && table_b ti_name (m_inherits d)).
Lemma tables_b_ok : forall d, tables_b d = true -> wf_tables d.
Proof.
  intros d H. unfold tables_b in H. rewrite !andb_true_iff in H. destruct H as ((((((((((((((((W1 & W2) & W3) & W4) & W5) & W6) & W7) & W8) & W9) & W10) & W11) & W12) & W13) & W14) & W15) & W16 & W17) & W18 & W19).
  destruct (names_b_ok _ W1) as (N1 & N2 & _). unfold wf_tables, wf_map.
  repeat match goal with |- _ /\ _ => split end; try exact N1; try exact N2; try (apply table_b_ok; assumption); try (apply ssorted_b_ok; assumption); apply sorted_b_ok || idtac.
  all: try (match goal with H : table_b ?n ?m = true |- _ => apply (table_b_ok _ n m) in H; destruct H as [Hs He]; first [exact Hs | exact He] end).
Qed.
Definition clash_b (L : layout) (db : database) : bool :=
  forallb (fun l => (2 ^ 32 <=? lay_addr L l) && negb (existsb (Z.eqb (lay_addr L l mod 2 ^ 32)) (keys (m_names db))) &&
                    negb (existsb (fun f => lay_addr L l mod 2 ^ 32 =? known_as db f) (places db KField))) (flat_map (places db) all_kinds).
Lemma clash_b_ok : forall L db, clash_b L db = true -> no_clash L db.
Proof.
  intros L db H l Hl. unfold clash_b in H. rewrite forallb_forall in H. apply H in Hl. rewrite !andb_true_iff in Hl. destruct Hl as [[A B] C]. apply Z.leb_le in A. apply negb_true_iff in B, C.
  split; [exact A|]. split.
  - intros Hin. assert (E : existsb (Z.eqb (lay_addr L l mod 2 ^ 32)) (keys (m_names db)) = true) by (apply existsb_exists; eexists; split; [exact Hin|apply Z.eqb_refl]). congruence.
  - intros f Hf E. assert (E2 : existsb (fun f => lay_addr L l mod 2 ^ 32 =? known_as db f) (places db KField) = true) by (apply existsb_exists; exists f; split; [exact Hf|apply Z.eqb_eq; exact E]). congruence.
Qed.
Lemma ins_perm : forall e l, Permutation (ins e l) (e :: l).
Proof. induction l as [|x l IH]; cbn [ins]; [reflexivity|]. destruct (fst e <=? fst x); [reflexivity|]. rewrite IH. apply perm_swap. Qed.
Lemma isort_sorts : sorts lay.
Proof.
  intros es. cbn [lay lay_sort]. unfold isort. split.
  - induction es as [|e es IH]; cbn [fold_right]; [reflexivity|]. rewrite ins_perm. rewrite IH. reflexivity.
  - induction es as [|e es IH]; cbn [fold_right]; [constructor|]. revert IH. generalize (fold_right ins [] es). clear es. intros l. induction l as [|x l IH]; intros Hl; cbn [ins].
    + constructor; constructor.
    + destruct (Z.leb_spec (fst e) (fst x)).
      * constructor; [exact Hl|]. inversion Hl; subst. constructor; [lia|]. eapply Forall_impl; [|eassumption]. cbn. intros; lia.
      * inversion Hl; subst. constructor; [apply IH; assumption|]. rewrite Forall_forall. intros y Hy. apply (Permutation_in y (ins_perm e l)) in Hy. destruct Hy as [<-|Hy]; [lia|]. rewrite Forall_forall in H3. apply H3. exact Hy.
Qed.
Fixpoint nodup_b (l : list Z) : bool := match l with [] => true | a :: r => negb (existsb (Z.eqb a) r) && nodup_b r end.
Lemma nodup_b_ok : forall l, nodup_b l = true -> NoDup l.
Proof.
  induction l as [|a l IH]; intros H; [constructor|]. cbn [nodup_b] in H. apply andb_true_iff in H. destruct H as [H1 H2]. constructor; [|apply IH; exact H2].
  intros Hin. apply negb_true_iff in H1. assert (E : existsb (Z.eqb a) l = true) by (apply existsb_exists; exists a; split; [exact Hin|apply Z.eqb_refl]). congruence.
Qed.
(* how far a type is above its most remote base *)
Definition rank_sample (l : loc) : nat :=
  if named sample l "N::C" then 2%nat else if named sample l "N::B" then 1%nat else 0%nat.
Definition rank_b (db : database) (rank : loc -> nat) : bool :=
  forallb (fun e => match type_named db (n_hash (ti_base (snd e))), type_named db (n_hash (ti_derived (snd e))) with
                    | Some b, Some d => (rank b <? rank d)%nat
                    | _, _ => true
                    end) (m_inherits db).
Lemma rank_b_ok : forall db rank, rank_b db rank = true -> forall l b, In b (bases_of db l) -> (rank b < rank l)%nat.
Proof.
  intros db rank E l b Hb. unfold rank_b in E. rewrite forallb_forall in E. unfold bases_of in Hb. apply in_flat_map in Hb. destruct Hb as [e [He Hb]]. apply E in He.
  destruct (type_named db (n_hash (ti_base (snd e)))) as [x|]; [|contradiction]. destruct (type_named db (n_hash (ti_derived (snd e)))) as [y|]; [|contradiction].
  destruct (loc_eqb_spec y l) as [->|]; [|contradiction]. destruct Hb as [<-|[]]. apply Nat.ltb_lt. exact He.
Qed.
Lemma sample_exportable : exportable lay 10 sample.
Proof.
  assert (W : tables_b sample = true) by (vm_compute; reflexivity).
  unfold exportable. split; [|split; [|split; [|split; [|split; [|split; [|split]]]]]].
  - apply tables_b_ok. exact W.
  - apply names_known_ok. vm_compute. reflexivity.
  - intros l Hl. assert (E : forallb (fun l => match owner sample l with Some _ => true | None => false end) (places sample KField) = true) by (vm_compute; reflexivity).
    rewrite forallb_forall in E. apply E in Hl. destruct (owner sample l); congruence.
  - split; [vm_compute; discriminate|]. split.
    + unfold tables_b in W. rewrite !andb_true_iff in W. apply names_b_ok. tauto.
    + intros h a Ha Hz. assert (E : forallb (fun e => negb (existsb (Z.eqb 0) (ta_value (snd e)))) (m_text_attrs sample) = true) by (vm_compute; reflexivity).
      rewrite forallb_forall in E. apply E in Ha. cbn [snd] in Ha. apply negb_true_iff in Ha. assert (E2 : existsb (Z.eqb 0) (ta_value a) = true) by (apply existsb_exists; exists 0; split; [exact Hz|reflexivity]). congruence.
  - apply clash_b_ok. vm_compute. reflexivity.
  - exact isort_sorts.
  - apply nodup_b_ok. vm_compute. reflexivity.
  - exists rank_sample. split.
    + intros l. unfold rank_sample. destruct (named sample l "N::C"); [lia|]. destruct (named sample l "N::B"); lia.
    + apply rank_b_ok. vm_compute. reflexivity.
Qed.
Lemma at_place : forall db k j, (j <? length (items db k))%nat = true -> In (k, j) (places db k).
Proof. intros db k j H. apply Nat.ltb_lt in H. apply places_In. cbn [fst snd]. split; [reflexivity|exact H]. Qed.
Lemma tmethod_kind : forall db l s f, tmethod db l s = Some f -> fst f = KFunction.
Proof. intros db l s f H. unfold tmethod in H. apply find_some in H. destruct H as [H _]. apply places_In in H. tauto. Qed.
Lemma bases_not : forall db c o, forallb (fun e => match type_named db (n_hash (ti_base (snd e))) with Some b => negb (loc_eqb b c) | None => true end) (m_inherits db) = true -> ~ In c (bases_of db o).
Proof.
  intros db c o E Hb. rewrite forallb_forall in E. unfold bases_of in Hb. apply in_flat_map in Hb. destruct Hb as [x [Hx Hb]]. apply E in Hx.
  destruct (type_named db (n_hash (ti_base (snd x)))) as [b|]; [|contradiction]. destruct (type_named db (n_hash (ti_derived (snd x)))) as [d|]; [|contradiction].
  destruct (loc_eqb d o); [|contradiction]. destruct Hb as [<-|[]]. destruct (loc_eqb_spec b b); [discriminate|congruence].
Qed.
