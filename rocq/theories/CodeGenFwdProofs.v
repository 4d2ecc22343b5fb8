(* The forward declarations written are those of the specification. *)
From Coq Require Import Permutation.
From Verif Require Import Base BaseProofs Text Maps HashModel FileUtilsModel DatabaseModel CodeGenModel CodeGenSpec CodeGenProofs CodeGenTreeProofs CodeGenDeclProofs.

(* ---- lists ---- *)
Lemma flat_map_cons_perm : forall A B (a : A -> B) (b : A -> list B) l, Permutation (flat_map (fun x => a x :: b x) l) (map a l ++ flat_map b l).
Proof.
  induction l as [|x l IH]; cbn; [constructor|]. apply perm_skip. eapply perm_trans; [apply Permutation_app_head, IH|]. rewrite !app_assoc. apply Permutation_app_tail. apply Permutation_app_comm.
Qed.
Lemma group_perm : forall A (f : A -> Z) (D : list A) ks, NoDup ks -> Permutation (flat_map (fun k => filter (fun d => f d =? k) D) ks) (filter (fun d => existsb (Z.eqb (f d)) ks) D).
Proof.
  intros A f D ks. induction ks as [|k ks IH]; intros Hd; cbn [flat_map].
  - replace (filter _ D) with (@nil A); [constructor|]. induction D as [|d D IHD]; [reflexivity|]. cbn. exact IHD.
  - inversion Hd as [|? ? H1 H2]; subst. eapply perm_trans; [apply Permutation_app_head, IH, H2|]. clear IH. induction D as [|d D IHD]; cbn [filter existsb]; [constructor|].
    destruct (Z.eqb_spec (f d) k) as [E|N]; cbn [orb].
    + assert (E2 : existsb (Z.eqb (f d)) ks = false).
      { destruct (existsb (Z.eqb (f d)) ks) eqn:X; [|reflexivity]. apply existsb_exists in X. destruct X as [y [Y1 Y2]]. apply Z.eqb_eq in Y2. congruence. }
      rewrite E2. cbn [app]. apply perm_skip. exact IHD.
    + destruct (existsb (Z.eqb (f d)) ks); [|exact IHD]. eapply perm_trans; [symmetry; apply Permutation_middle|]. apply perm_skip. exact IHD.
Qed.
Lemma split_perm : forall A (f g h : A -> bool) l, (forall a, In a l -> h a = f a || g a) -> (forall a, In a l -> f a && g a = false) -> Permutation (filter f l ++ filter g l) (filter h l).
Proof.
  induction l as [|a l IH]; intros H1 H2; cbn [filter]; [constructor|]. specialize (IH ltac:(intros; apply H1; right; assumption) ltac:(intros; apply H2; right; assumption)).
  pose proof (H1 a (or_introl eq_refl)) as E1. pose proof (H2 a (or_introl eq_refl)) as E2. rewrite E1. destruct (f a), (g a); try discriminate; cbn [orb app].
  - apply perm_skip. exact IH.
  - eapply perm_trans; [symmetry; apply Permutation_middle|]. apply perm_skip. exact IH.
  - exact IH.
Qed.
Lemma Forall2_map_both : forall A B C (R : B -> C -> Prop) (f : A -> B) (g : A -> C) l, (forall a, In a l -> R (f a) (g a)) -> Forall2 R (map f l) (map g l).
Proof. induction l as [|a l IH]; intros H; cbn; constructor; [apply H; left; reflexivity|apply IH; intros; apply H; right; assumption]. Qed.
Lemma Forall2_flat_map : forall A B C (R : B -> C -> Prop) (f : A -> list B) (g : A -> list C) l, (forall a, In a l -> Forall2 R (f a) (g a)) -> Forall2 R (flat_map f l) (flat_map g l).
Proof. induction l as [|a l IH]; intros H; cbn; [constructor|]. apply Forall2_app; [apply H; left; reflexivity|apply IH; intros; apply H; right; assumption]. Qed.
Lemma existsb_Zeqb : forall k l, existsb (Z.eqb k) l = true <-> In k l.
Proof. intros. rewrite existsb_exists. split; [intros [x [A B]]; apply Z.eqb_eq in B; congruence|intros H; exists k; split; [exact H|apply Z.eqb_refl]]. Qed.
Lemma filter_map_comm : forall A B (f : A -> B) (g : B -> bool) l, filter g (map f l) = map f (filter (fun a => g (f a)) l).
Proof. induction l as [|a l IH]; cbn; [reflexivity|]. destruct (g (f a)); cbn; rewrite IH; reflexivity. Qed.
Lemma filter_filter : forall A (f g : A -> bool) l, filter f (filter g l) = filter (fun a => g a && f a) l.
Proof. induction l as [|a l IH]; cbn; [reflexivity|]. destruct (g a); cbn; [destruct (f a)|]; rewrite IH; reflexivity. Qed.
Lemma filter_ext_In : forall A (f g : A -> bool) l, (forall a, In a l -> f a = g a) -> filter f l = filter g l.
Proof. induction l as [|a l IH]; intros H; cbn; [reflexivity|]. rewrite (H a (or_introl eq_refl)), IH by (intros; apply H; right; assumption). reflexivity. Qed.

(* ---- which namespaces stay ---- *)
Inductive sub : tree -> tree -> Prop :=
| sub_self : forall t, sub t t
| sub_in : forall s c k ts, In c ts -> sub s c -> sub s (T k ts).
Lemma sub_tkeys : forall s t, sub s t -> incl (tkeys s) (tkeys t).
Proof. intros s t H. induction H; intros x Hx; [exact Hx|]. cbn. right. apply in_flat_map. exists c. auto. Qed.
Lemma tkeys_sub : forall t x, In x (tkeys t) -> exists s, sub s t /\ key s = x.
Proof.
  induction t as [k ts IH] using tree_rect'; intros x Hx. destruct Hx as [<-|Hx]; [exists (T k ts); split; [constructor|reflexivity]|].
  apply in_flat_map in Hx. destruct Hx as [c [Hc Hx]]. rewrite Forall_forall in IH. destruct (IH c Hc x Hx) as [s [S1 S2]]. exists s. split; [econstructor; eassumption|exact S2].
Qed.
Lemma sub_rep : forall ch s t, sub s t -> rep ch t -> rep ch s.
Proof. intros ch s t H. induction H as [|s c k ts Hc _ IH]; intros R; [exact R|]. inversion R as [? ? R1 R2]; subst. rewrite Forall_forall in R2. apply IH, R2, Hc. Qed.
Section Live.
Variable ps : list cprim.
Notation pruned := (pruned ps).
Notation keep := (keep ps).
Definition live (t : tree) : Prop := exists j, In j (tkeys t) /\ own_count j ps <> 0.
Lemma Forall2_In_l : forall A B (R : A -> B -> Prop) l l' a, Forall2 R l l' -> In a l -> exists b, In b l' /\ R a b.
Proof. intros A B R l l' a H. induction H; intros Hin; [contradiction|]. destruct Hin as [->|Hin]; [eexists; split; [left; reflexivity|assumption]|]. destruct (IHForall2 Hin) as [b [B1 B2]]. exists b. split; [right; exact B1|exact B2]. Qed.
Lemma Forall2_In_r : forall A B (R : A -> B -> Prop) l l' b, Forall2 R l l' -> In b l' -> exists a, In a l /\ R a b.
Proof. intros A B R l l' b H. induction H; intros Hin; [contradiction|]. destruct Hin as [->|Hin]; [eexists; split; [left; reflexivity|assumption]|]. destruct (IHForall2 Hin) as [a [B1 B2]]. exists a. split; [right; exact B1|exact B2]. Qed.
Lemma keep_live : forall t t', pruned t t' -> (keep t' = true <-> live t).
Proof.
  induction t as [k ts IH] using tree_rect'; intros t' H. inversion H as [? ? us ts' H1 H2]; subst. rewrite Forall_forall in IH. unfold CodeGenTreeProofs.keep. cbn [subs key]. split.
  - destruct ts' as [|t ts'].
    + intros E. exists k. split; [left; reflexivity|lia].
    + intros _. assert (Ht : In t (filter keep us)) by (apply (Permutation_in _ (Permutation_sym H2)); left; reflexivity). apply filter_In in Ht. destruct Ht as [T1 T2].
      destruct (Forall2_In_r _ _ _ _ _ _ H1 T1) as [c [C1 C2]]. apply (IH c C1 t C2) in T2. destruct T2 as [j [J1 J2]]. exists j. split; [|exact J2]. right. apply in_flat_map. eauto.
  - intros [j [J1 J2]]. destruct J1 as [<-|J1].
    + destruct ts'; [|reflexivity]. lia.
    + apply in_flat_map in J1. destruct J1 as [c [C1 C2]]. destruct (Forall2_In_l _ _ _ _ _ _ H1 C1) as [u [U1 U2]].
      assert (KU : keep u = true) by (apply (IH c C1 u U2); exists j; auto). assert (Hu : In u (filter keep us)) by (apply filter_In; auto). apply (Permutation_in _ H2) in Hu. destruct ts'; [contradiction|reflexivity].
Qed.
Lemma pruned_live : forall t t' x, pruned t t' -> (In x (flat_map tkeys (subs t')) <-> exists c s, In c (subs t) /\ sub s c /\ key s = x /\ live s).
Proof.
  induction t as [k ts IH] using tree_rect'; intros t' x H. inversion H as [? ? us ts' H1 H2]; subst. rewrite Forall_forall in IH. cbn [subs]. split.
  - intros Hx. apply in_flat_map in Hx. destruct Hx as [u [U1 U2]]. apply (Permutation_in _ (Permutation_sym H2)) in U1. apply filter_In in U1. destruct U1 as [U1 KU].
    destruct (Forall2_In_r _ _ _ _ _ _ H1 U1) as [c [C1 C2]]. apply (keep_live c u C2) in KU. destruct u as [ku us0]. cbn [tkeys] in U2. destruct U2 as [<-|U2].
    + exists c, c. split; [exact C1|]. split; [constructor|]. split; [apply pruned_key in C2; symmetry; exact C2|exact KU].
    + apply (IH c C1 (T ku us0) x C2) in U2. destruct U2 as [d [s [D1 [D2 D3]]]]. exists c, s. split; [exact C1|]. split; [destruct c; econstructor; eassumption|exact D3].
  - intros [c [s [C1 [C2 [C3 C4]]]]]. destruct (Forall2_In_l _ _ _ _ _ _ H1 C1) as [u [U1 U2]].
    assert (KU : keep u = true) by (apply (keep_live c u U2); destruct C4 as [j [J1 J2]]; exists j; split; [apply (sub_tkeys s c C2 j J1)|exact J2]).
    apply in_flat_map. exists u. split; [apply (Permutation_in _ H2), filter_In; auto|]. inversion C2 as [? E1 E2|s' d kk ts2 D1 D2 E1 E2]; subst.
    + rewrite <- (pruned_key _ _ _ U2). apply key_in.
    + destruct u as [ku us0]. right. apply (IH (T kk ts2) C1 (T ku us0) (key s) U2). exists d, s. auto.
Qed.
End Live.

Section Fwd.
Variable db : database.
Hypothesis Hok : db_ok db.
Notation K := (keys (copy_namespaces db)).
Notation par := (par db).
Notation kids := (kids db).
Notation path := (path db).
Notation PS := (prims db).

(* ---- the primitives ---- *)
Definition decl_of (p : cprim) : decl :=
  mk_decl (cp_parent p) (cp_type p =? PT_Enum) (if cp_type p =? PT_Enum then str "enum " else class_keyword p) (cp_name p).
Definition not_type (p : cprim) : bool := negb (cp_type p =? PT_Type).
Lemma prims_ok : forall p, In p PS -> prim_ok p.
Proof.
  destruct Hok as [_ [_ [H1 [H2 [H3 _]]]]]. intros p Hp. unfold prims in Hp. rewrite !in_app_iff, !in_map_iff in Hp. destruct Hp as [[c [<- Hc]]|[[c [<- Hc]]|[c [<- Hc]]]].
  - apply filter_In in Hc. destruct Hc as [Hc _]. apply H1 in Hc. split; [apply Hc|]. split; [apply Hc|]. cbn. destruct (c_is_class c); auto.
  - apply filter_In in Hc. destruct Hc as [Hc _]. apply H2 in Hc. split; [apply Hc|]. split; [apply Hc|]. cbn. destruct (e_scoped c =? 0); [auto 10|]. destruct (e_scoped c =? 1); auto 10.
  - assert (Hc' : In c (map snd (m_types db))) by exact Hc. apply H3 in Hc'. split; [apply Hc'|]. split; [apply Hc'|]. cbn. auto.
Qed.
Lemma filter_all : forall A (f : A -> bool) l, (forall a, In a l -> f a = true) -> filter f l = l.
Proof. induction l as [|a l IH]; intros H; cbn; [reflexivity|]. rewrite (H a (or_introl eq_refl)), IH by (intros; apply H; right; assumption). reflexivity. Qed.
Lemma decls_prims : map decl_of (filter not_type PS) = filter (fun d => known db (d_parent d)) (decls db).
Proof.
  unfold prims, decls. rewrite !filter_app, !map_app. rewrite (filter_none _ not_type (map type_prim _)) by (intros x Hx; apply in_map_iff in Hx; destruct Hx as [t [<- _]]; reflexivity). cbn [map]. rewrite app_nil_r.
  f_equal.
  - rewrite filter_all by (intros x Hx; apply in_map_iff in Hx; destruct Hx as [c [<- _]]; unfold not_type; cbn; destruct (c_is_class c); reflexivity).
    rewrite map_map, (filter_map_comm _ _ class_decl). replace (filter (fun a => known db (d_parent (class_decl a))) (map snd (m_classes db))) with (filter (fun c => in_namespace db (c_prim c)) (map snd (m_classes db)))
      by (apply filter_ext; intros c; symmetry; apply (known_is_namespace db Hok)).
    apply map_ext. intros c. unfold decl_of, class_decl, class_keyword. cbn. destruct (c_is_class c); reflexivity.
  - rewrite filter_all by (intros x Hx; apply in_map_iff in Hx; destruct Hx as [c [<- _]]; unfold not_type; cbn; destruct (e_scoped c =? 0); [|destruct (e_scoped c =? 1)]; reflexivity).
    rewrite map_map, (filter_map_comm _ _ enum_decl). replace (filter (fun a => known db (d_parent (enum_decl a))) (map snd (m_enums db))) with (filter (fun c => in_namespace db (e_prim c)) (map snd (m_enums db)))
      by (apply filter_ext; intros c; symmetry; apply (known_is_namespace db Hok)).
    apply map_ext. intros e. unfold decl_of, enum_decl, class_keyword. cbn. destruct (e_scoped e =? 0); [reflexivity|]. destruct (e_scoped e =? 1); reflexivity.
Qed.
Lemma own_decls : forall k, Permutation (map decl_of (filter (is_enum_in k) PS ++ filter (is_class_in k) PS)) (filter (fun d => d_parent d =? k) (filter (fun d => known db (d_parent d)) (decls db))).
Proof.
  intros k. rewrite <- decls_prims, filter_map_comm. apply Permutation_map. rewrite filter_filter. apply split_perm.
  - intros p Hp. unfold is_enum_in, is_class_in, not_type. cbn. destruct (cp_parent p =? k); cbn; [|rewrite andb_false_r; reflexivity]. destruct (Z.eqb_spec (cp_type p) PT_Enum) as [E|E]; [rewrite E; reflexivity|].
    cbn. rewrite !andb_true_r. reflexivity.
  - intros p Hp. unfold is_enum_in, is_class_in. destruct (cp_type p =? PT_Enum); cbn; rewrite ?andb_false_r; reflexivity.
Qed.
Lemma own_declares : forall k l, path k l -> Forall2 (declares db) (map decl_of (filter (is_enum_in k) PS ++ filter (is_class_in k) PS))
  (map (under (map header (rev (map (fun x => UnscopeName (nm db x)) l))) false) (own_items PS k)).
Proof.
  intros k l H. apply (path_scope db Hok) in H. unfold own_items. rewrite !map_app, !map_map. apply Forall2_app; apply Forall2_map_both; intros p Hp; apply filter_In in Hp; destruct Hp as [Hp Hc].
  - unfold is_enum_in in Hc. apply andb_true_iff in Hc. destruct Hc as [C1 C2]. apply Z.eqb_eq in C1. eexists. eexists. cbn [d_parent decl_of d_name]. rewrite C1. split; [exact H|]. split; [apply unscope_short|].
    unfold under, decl_of. cbn. rewrite C2, app_nil_r. reflexivity.
  - unfold is_class_in in Hc. rewrite !andb_true_iff, !negb_true_iff in Hc. destruct Hc as [[C1 _] C2]. apply Z.eqb_eq in C1. eexists. eexists. cbn [d_parent decl_of d_name]. rewrite C1. split; [exact H|]. split; [apply unscope_short|].
    unfold under, decl_of. cbn. rewrite C2, app_nil_r. reflexivity.
Qed.
Lemma own_count_decl : forall j, j <> 0 -> known db j = true -> (own_count j PS <> 0 <-> exists d, In d (decls db) /\ d_parent d = j).
Proof.
  intros j Hj Hk. unfold own_count. split.
  - intros H. destruct (filter (fun p => cp_parent p =? j) PS) as [|p r] eqn:E; [exfalso; apply H; reflexivity|].
    assert (Hp : In p (filter (fun p => cp_parent p =? j) PS)) by (rewrite E; left; reflexivity). apply filter_In in Hp. destruct Hp as [P1 P2]. apply Z.eqb_eq in P2.
    assert (P3 : In (decl_of p) (map decl_of (filter not_type PS))).
    { apply in_map, filter_In. split; [exact P1|]. unfold not_type. unfold prims in P1. rewrite !in_app_iff, !in_map_iff in P1. destruct P1 as [[c [<- _]]|[[c [<- _]]|[c [<- _]]]].
      - cbn. destruct (c_is_class c); reflexivity.
      - cbn. destruct (e_scoped c =? 0); [|destruct (e_scoped c =? 1)]; reflexivity.
      - cbn in P2. congruence. }
    rewrite decls_prims in P3. apply filter_In in P3. exists (decl_of p). split; [apply P3|exact P2].
  - intros [d [D1 D2]] H. assert (P : In d (map decl_of (filter not_type PS))) by (rewrite decls_prims; apply filter_In; rewrite D2; auto).
    apply in_map_iff in P. destruct P as [p [<- P]]. apply filter_In in P. destruct P as [P _].
    assert (Q : In p (filter (fun p => cp_parent p =? j) PS)) by (apply filter_In; split; [exact P|]; cbn in D2; lia). destruct (filter (fun p => cp_parent p =? j) PS); [contradiction|]. rewrite zlen_cons in H. pose proof (zlen_nonneg _ l). lia.
Qed.

(* ---- inside a namespace ---- *)
Lemma within_trans : forall a b c, within db a b -> within db b c -> within db a c.
Proof. intros a b c H1 H2. induction H2; [exact H1|]. econstructor; eassumption. Qed.
Lemma in_kids_within : forall c k, In c (kids k) -> within db k c.
Proof.
  intros c k H. apply in_kids in H. destruct H as [H1 H2]. apply (in_K db Hok) in H1. destruct H1 as [ns [A <-]]. apply within_up; [exact A|]. rewrite <- (proj1 (ns_find db Hok ns A)), H2. constructor.
Qed.
Lemma tree_within : forall s j, rep kids s -> In j (tkeys s) -> within db (key s) j.
Proof.
  induction s as [k ts IH] using tree_rect'; intros j R Hj. inversion R as [? ? R1 R2]; subst. rewrite Forall_forall in IH, R2. cbn [key]. destruct Hj as [<-|Hj]; [constructor|].
  apply in_flat_map in Hj. destruct Hj as [c [C1 C2]]. apply (within_trans k (key c) j); [|apply (IH c C1 j); auto]. apply in_kids_within. rewrite R1. apply in_map. exact C1.
Qed.
Lemma within_tree : forall s j, rep kids s -> within db (key s) j -> In j (tkeys s).
Proof.
  intros s j R H. induction H as [|ns Hin _ IH]; [apply key_in|]. apply (rep_closed db s (n_hash (p_parent ns)) _ R IH). apply in_kids. split; [apply (in_K db Hok); eauto|apply (ns_find db Hok ns Hin)].
Qed.

(* ---- a tree whose edges are parent links ---- *)
Inductive wf : tree -> Prop := wf_T : forall k ts, Forall (fun t => In (key t) K /\ par (key t) = k) ts -> Forall wf ts -> wf (T k ts).
Lemma rep_wf : forall t, rep kids t -> wf t.
Proof.
  induction t as [k ts IH] using tree_rect'; intros R. inversion R as [? ? R1 R2]; subst. rewrite Forall_forall in IH, R2. constructor; apply Forall_forall; intros t Ht; [|apply IH; auto].
  apply in_kids. rewrite R1. apply in_map. exact Ht.
Qed.
Lemma pruned_wf : forall t t', pruned PS t t' -> wf t -> wf t'.
Proof.
  induction t as [k ts IH] using tree_rect'; intros t' H W. inversion H as [? ? us ts' H1 H2]; subst. inversion W as [? ? W1 W2]; subst. rewrite Forall_forall in IH, W1, W2.
  assert (HU : forall u, In u ts' -> exists c, In c ts /\ pruned PS c u).
  { intros u Hu. apply (Permutation_in _ (Permutation_sym H2)) in Hu. apply filter_In in Hu. apply (Forall2_In_r _ _ _ _ _ _ H1). tauto. }
  constructor; apply Forall_forall; intros u Hu; destruct (HU u Hu) as [c [C1 C2]]; [rewrite (pruned_key _ _ _ C2); apply W1, C1|apply (IH c C1 u C2), W2, C1].
Qed.
Lemma nodes_snd : forall t sc, map snd (nodes db sc t) = flat_map tkeys (subs t).
Proof.
  induction t as [k ts IH] using tree_rect'; intros sc. cbn [nodes subs]. rewrite Forall_forall in IH. rewrite map_flat_map. induction ts as [|t ts IHt]; [reflexivity|]. cbn [flat_map]. rewrite IHt by (intros; apply IH; right; assumption). f_equal. cbn [map snd].
  rewrite (IH t (or_introl eq_refl)). destruct t. reflexivity.
Qed.
Lemma nodes_path : forall t l, wf t -> path (key t) l -> forall s k, In (s, k) (nodes db (rev (map (fun x => UnscopeName (nm db x)) l)) t) ->
  exists l', path k (k :: l') /\ In k K /\ path (par k) l' /\ s = rev (map (fun x => UnscopeName (nm db x)) (k :: l')).
Proof.
  induction t as [h ts IH] using tree_rect'; intros l W P s k Hin. inversion W as [? ? W1 W2]; subst. rewrite Forall_forall in IH, W1, W2. cbn [nodes key] in *.
  apply in_flat_map in Hin. destruct Hin as [c [C1 Hin]]. destruct (W1 c C1) as [K1 K2]. assert (PC : path (key c) (key c :: l)) by (constructor; [exact K1|rewrite K2; exact P]). destruct Hin as [E|Hin].
  - injection E as <- <-. exists l. split; [exact PC|]. split; [exact K1|]. split; [rewrite K2; exact P|reflexivity].
  - apply (IH c C1 (key c :: l) (W2 c C1) PC s k). exact Hin.
Qed.
Definition dummy : prim := mk_prim noname noname.
Definition ns_of (k : Z) : prim := match find (fun ns => n_hash (p_name ns) =? k) (namespaces db) with Some ns => ns | None => dummy end.
Lemma ns_of_ok : forall k, In k K -> In (ns_of k) (namespaces db) /\ n_hash (p_name (ns_of k)) = k.
Proof.
  intros k H. apply (in_K db Hok) in H. destruct H as [ns [A B]]. unfold ns_of. destruct (find _ _) as [x|] eqn:E.
  - apply find_some in E. split; [apply E|]. apply Z.eqb_eq, E.
  - apply (find_none _ _ E) in A. lia.
Qed.
Lemma ns_unique : forall l a b, NoDup (map (fun ns => n_hash (p_name ns)) l) -> In a l -> In b l -> n_hash (p_name a) = n_hash (p_name b) -> a = b.
Proof.
  induction l as [|x l IH]; intros a b Hd Ha Hb E; [contradiction|]. cbn in Hd. inversion Hd as [|? ? D1 D2]; subst. destruct Ha as [->|Ha], Hb as [->|Hb].
  - reflexivity.
  - exfalso. apply D1. rewrite E. apply (in_map (fun ns => n_hash (p_name ns)) l b Hb).
  - exfalso. apply D1. rewrite <- E. apply (in_map (fun ns => n_hash (p_name ns)) l a Ha).
  - apply IH; assumption.
Qed.

Lemma fwd_ok : forall n t', let t0 := build db n 0 in (length K < n)%nat -> pruned PS t0 t' -> forward_declarations db (in_items db PS t').
Proof.
  intros n t' t0 Hn HP.
  assert (R0 : rep kids t0) by (apply (build_rep db Hok n 0 []); [constructor|cbn; lia]).
  assert (N0 : NoDup (tkeys t0)) by (apply (build_nodup db Hok n 0 []); constructor).
  assert (E0 : key t0 = 0) by apply build_key.
  assert (P0 : forall x, In x (tkeys t0) -> exists l, path x l).
  { intros x Hx. destruct (build_path db n 0 [] x (path_0 db) Hx) as [l' [P _]]. eauto. }
  assert (Et : key t' = 0) by (rewrite (pruned_key _ _ _ HP); exact E0).
  assert (W' : wf t') by (apply (pruned_wf t0 t' HP), rep_wf, R0).
  pose proof (pruned_nodup PS t0 t' HP N0) as N'.
  set (L := flat_map tkeys (subs t')).
  assert (NL : NoDup (0 :: L)). { destruct t' as [k ts]. cbn in Et. subst k. exact N'. }
  assert (HLK : forall k, In k L -> exists l, path k l /\ In k K).
  { intros k Hk. unfold L in Hk. rewrite <- (nodes_snd t' []) in Hk. apply in_map_iff in Hk. destruct Hk as [[s x] [<- Hin]].
    destruct (nodes_path t' [] W') with (s := s) (k := x) as [l' [P1 [P2 _]]]; [rewrite Et; constructor|exact Hin|]. cbn. eauto. }
  (* which are used *)
  assert (HU : forall h, h <> 0 -> (In h L <-> (exists sc, scope db h sc) /\ exists d, In d (decls db) /\ within db h (d_parent d))).
  { intros h Hh. unfold L. rewrite (pruned_live PS t0 t' h HP). split.
    - intros [c [s [C1 [C2 [C3 [j [J1 J2]]]]]]].
      assert (Hst : sub s t0) by (destruct t0; econstructor; eassumption). pose proof (sub_rep kids s t0 Hst R0) as Rs.
      assert (Pt : forall x, In x (tkeys s) -> exists l, path x l).
      { intros x Hx. apply P0, (sub_tkeys s t0 Hst), Hx. }
      split.
      + destruct (Pt h) as [l P]; [rewrite <- C3; apply key_in|]. eexists. apply (path_scope db Hok _ _ P).
      + destruct (Pt j J1) as [l P].
        assert (Hj : j <> 0).
        { intros ->. assert (In 0 (flat_map tkeys (subs t0))) by (apply in_flat_map; exists c; split; [exact C1|apply (sub_tkeys s c C2 0 J1)]). destruct t0 as [k0 ts0]. cbn in E0. subst k0. inversion N0; subst. contradiction. }
        apply (own_count_decl j Hj (path_known db l j P)) in J2. destruct J2 as [d [D1 D2]]. exists d. split; [exact D1|]. rewrite D2, <- C3. apply tree_within; assumption.
    - intros [[sc Hsc] [d [D1 D2]]]. apply (scope_path db Hok) in Hsc. destruct Hsc as [l P]. pose proof (path_in_tree db t0 l h R0 E0 P) as Hin.
      destruct t0 as [k0 ts0]. cbn in E0. subst k0. destruct Hin as [|Hin]; [congruence|]. apply in_flat_map in Hin. destruct Hin as [c [C1 Hin]]. destruct (tkeys_sub c h Hin) as [s [S1 S2]].
      exists c, s. split; [exact C1|]. split; [exact S1|]. split; [exact S2|]. exists (d_parent d).
      assert (Hst : sub s (T 0 ts0)) by (econstructor; eassumption). assert (J1 : In (d_parent d) (tkeys s)) by (apply within_tree; [apply (sub_rep kids s (T 0 ts0) Hst R0)|rewrite S2; exact D2]).
      split; [exact J1|]. apply own_count_decl.
      + intros E. inversion N0 as [|? ? X1 X2]; subst. apply X1. apply in_flat_map. exists c. split; [exact C1|]. rewrite <- E. apply (sub_tkeys s c S1 _ J1).
      + pose proof (sub_tkeys s _ Hst _ J1) as Y. destruct (P0 _ Y) as [l' P']. apply (path_known db _ _ P').
      + eauto. }
  set (reached := fun h => existsb (Z.eqb h) (tkeys t0)). set (used := fun h => existsb (Z.eqb h) L).
  assert (HR : forall h, reached h = true <-> exists sc, scope db h sc).
  { intros h. unfold reached. rewrite existsb_Zeqb. split.
    - intros Hx. destruct (P0 h Hx) as [l' P]. eexists. apply (path_scope db Hok _ _ P).
    - intros [sc Hsc]. apply (scope_path db Hok) in Hsc. destruct Hsc as [l P]. apply (path_in_tree db t0 l h R0 E0 P). }
  (* the declarations, by namespace *)
  pose proof (items_nodes db PS t' []) as HI. cbn [map] in HI. rewrite !under_nil, Et in HI.
  set (NN := nodes db [] t') in *.
  set (owns := own_items PS 0 ++ flat_map (fun x => map (under (map header (fst x)) false) (own_items PS (snd x))) NN).
  set (heads := map (fun x => mk_item (map header (removelast (fst x))) false (ns_header db (snd x))) NN).
  assert (HI2 : Permutation (in_items db PS t') (heads ++ owns)).
  { eapply perm_trans; [exact HI|]. eapply perm_trans; [apply Permutation_app_head; apply flat_map_cons_perm|]. fold heads. unfold owns. rewrite !app_assoc. apply Permutation_app_tail. apply Permutation_app_comm. }
  assert (HD : Forall2 (declares db) (flat_map (fun k => map decl_of (filter (is_enum_in k) PS ++ filter (is_class_in k) PS)) (0 :: L)) owns).
  { cbn [flat_map]. unfold owns. apply Forall2_app.
    - pose proof (own_declares 0 [] (path_0 db)) as X. cbn [map rev] in X. rewrite (under_nil (own_items PS 0)) in X. exact X.
    - unfold L. rewrite <- (nodes_snd t' []). fold NN. rewrite flat_map_concat_map, map_map, <- flat_map_concat_map. apply Forall2_flat_map. intros [s k] Hin. cbn [fst snd].
      destruct (nodes_path t' [] W') with (s := s) (k := k) as [l' [P1 [_ [_ ->]]]]; [rewrite Et; constructor|exact Hin|]. apply own_declares. exact P1. }
  assert (HO : Forall2 (opens db) (map ns_of L) heads).
  { unfold L. rewrite <- (nodes_snd t' []). fold NN. rewrite map_map. apply Forall2_map_both. intros [s k] Hin. cbn [fst snd].
    destruct (nodes_path t' [] W') with (s := s) (k := k) as [l' [P1 [P2 [P3 ->]]]]; [rewrite Et; constructor|exact Hin|]. destruct (ns_of_ok k P2) as [A B]. destruct (ns_find db Hok _ A) as [E1 E2]. rewrite B in E1, E2.
    eexists. exists (UnscopeName (nm db k)). split; [rewrite <- E1; apply (path_scope db Hok _ _ P3)|]. split; [rewrite <- E2; apply unscope_short|]. cbn [map rev]. rewrite removelast_snoc. reflexivity. }
  assert (PD : Permutation (flat_map (fun k => map decl_of (filter (is_enum_in k) PS ++ filter (is_class_in k) PS)) (0 :: L)) (filter (fun d => reached (d_parent d)) (decls db))).
  { eapply perm_trans; [apply perm_flat_map_ext; intros k _; apply own_decls|]. eapply perm_trans; [apply (group_perm decl d_parent _ (0 :: L) NL)|].
    rewrite filter_filter. erewrite filter_ext_In; [apply Permutation_refl|]. intros d Hd. apply eq_true_iff_eq. rewrite andb_true_iff, existsb_Zeqb, HR. split.
    - intros [_ [E|Hin]]; [rewrite <- E; eexists; constructor|]. destruct (HLK _ Hin) as [l [P _]]. eexists. apply (path_scope db Hok _ _ P).
    - intros Hsc. pose proof Hsc as [sc S1]. apply (scope_path db Hok) in S1. destruct S1 as [l P]. split; [apply (path_known db _ _ P)|]. destruct (Z.eq_dec (d_parent d) 0) as [->|N]; [left; reflexivity|right].
      apply HU; [exact N|]. split; [exact Hsc|]. exists d. split; [exact Hd|constructor]. }
  assert (PO : Permutation (map ns_of L) (filter (fun ns => used (n_hash (p_name ns))) (namespaces db))).
  { apply NoDup_Permutation.
    - apply (NoDup_map_inv (fun ns => n_hash (p_name ns))). rewrite map_map. rewrite (map_ext_in _ (fun k => k)); [rewrite map_id; inversion NL; assumption|]. intros k Hk. destruct (HLK k Hk) as [_ [_ HK]]. apply (ns_of_ok k HK).
    - apply NoDup_filter. destruct Hok as [H _]. apply (NoDup_map_inv (fun ns => n_hash (p_name ns))). exact H.
    - intros ns. rewrite in_map_iff, filter_In. unfold used. rewrite existsb_Zeqb. split.
      + intros [k [<- Hk]]. destruct (HLK k Hk) as [_ [_ HK]]. destruct (ns_of_ok k HK) as [A B]. rewrite B. auto.
      + intros [A B]. exists (n_hash (p_name ns)). split; [|exact B]. destruct (HLK _ B) as [_ [_ HK]]. destruct (ns_of_ok _ HK) as [C D]. destruct Hok as [H _]. apply (ns_unique (namespaces db)); auto. }
  destruct (Permutation_Forall2 PD HD) as [ds [D1 D2]]. destruct (Permutation_Forall2 PO HO) as [os [O1 O2]].
  exists reached, used, ds, os. split; [exact HR|]. split.
  { intros ns Hns. unfold used. rewrite existsb_Zeqb. apply HU. destruct Hok as [_ [H _]]. apply H in Hns. tauto. }
  split; [exact D2|]. split; [exact O2|]. eapply perm_trans; [exact HI2|]. apply Permutation_app; assumption.
Qed.
End Fwd.
