(* The tree of namespaces and removing the empty ones. *)
From Coq Require Import Permutation.
From Verif Require Import Base BaseProofs Text Maps HashModel FileUtilsModel DatabaseModel CodeGenModel CodeGenSpec CodeGenProofs.

(* ---- updating through an iterator ---- *)
Lemma m_find_update : forall T k (v : T) m k', m_find k' (m_update k v m) = if k =? k' then match m_find k m with Some _ => Some v | None => None end else m_find k' m.
Proof.
  induction m as [|[a w] m IH]; intros k'; cbn [m_update m_find]; [destruct (k =? k'); reflexivity|].
  destruct (Z.eqb_spec a k) as [->|N]; cbn [m_find].
  - destruct (Z.eqb_spec k k'); reflexivity.
  - rewrite IH. destruct (Z.eqb_spec a k') as [->|N']; [|reflexivity]. destruct (Z.eqb_spec k k'); [congruence|reflexivity].
Qed.
Lemma keys_update : forall T k (v : T) m, keys (m_update k v m) = keys m.
Proof. unfold keys. induction m as [|[a w] m IH]; cbn; [reflexivity|]. destruct (a =? k); cbn; [|rewrite IH]; reflexivity. Qed.
Lemma ssorted_NoDup : forall l, ssorted l -> NoDup l.
Proof. induction l as [|a l IH]; intros H; constructor; [intros Hin; apply H in Hin; lia|apply IH, H]. Qed.

(* ---- trees of keys ---- *)
Inductive tree := T (k : Z) (ts : list tree).
Fixpoint tree_rect' (P : tree -> Prop) (H : forall k ts, Forall P ts -> P (T k ts)) (t : tree) : P t :=
  match t with T k ts => H k ts ((fix go l : Forall P l := match l with [] => Forall_nil _ | t :: r => Forall_cons t (tree_rect' P H t) (go r) end) ts) end.
Definition key (t : tree) : Z := match t with T k _ => k end.
Definition subs (t : tree) : list tree := match t with T _ ts => ts end.
Fixpoint tkeys (t : tree) : list Z := match t with T k ts => k :: flat_map tkeys ts end.
Fixpoint depth (t : tree) : nat := match t with T _ ts => S (fold_right (fun t d => Nat.max (depth t) d) O ts) end.
Lemma depth_sub : forall k ts t, In t ts -> (depth t < depth (T k ts))%nat.
Proof.
  intros k ts t Hin. cbn [depth]. induction ts as [|u ts IH]; [contradiction|]. cbn [fold_right]. destruct Hin as [->|Hin]; [lia|]. specialize (IH Hin). lia.
Qed.
(* the tree that a table of children represents *)
Inductive rep (ch : Z -> list Z) : tree -> Prop :=
| rep_T : forall k ts, ch k = map key ts -> Forall (rep ch) ts -> rep ch (T k ts).
Lemma rep_ext : forall t ch ch', rep ch t -> (forall k, In k (tkeys t) -> ch' k = ch k) -> rep ch' t.
Proof.
  induction t as [k ts IH] using tree_rect'; intros ch ch' H HE. inversion H as [? ? H1 H2]; subst. constructor; [rewrite HE by (left; reflexivity); exact H1|].
  rewrite Forall_forall in *. intros t Ht. apply (IH t Ht ch); [apply H2, Ht|]. intros x Hx. apply HE. right. apply in_flat_map. exists t. auto.
Qed.
Lemma key_in : forall t, In (key t) (tkeys t).
Proof. intros [k ts]. left. reflexivity. Qed.

Section Heap.
Variable db : database.
Notation K := (keys (copy_namespaces db)).
Definition par (k : Z) : Z := match m_find k (copy_namespaces db) with Some x => nd_parent x | None => 0 end.
Definition nm (k : Z) : list Z := match m_find k (copy_namespaces db) with Some x => nd_name x | None => [] end.
Definition kids (h : Z) : list Z := filter (fun c => par c =? h) K.
Definition known (k : Z) : bool := (k =? 0) || existsb (Z.eqb k) K.
Definition is_class_in (k : Z) (p : cprim) : bool := (cp_parent p =? k) && negb (cp_type p =? PT_Type) && negb (cp_type p =? PT_Enum).
Definition is_enum_in (k : Z) (p : cprim) : bool := (cp_parent p =? k) && (cp_type p =? PT_Enum).
Definition is_type_in (k : Z) (p : cprim) : bool := (cp_parent p =? k) && (cp_type p =? PT_Type).
Definition own_count (k : Z) (ps : list cprim) : Z := zlen (filter (fun p => cp_parent p =? k) ps).
Definition the_node (ch : Z -> list Z) (ps : list cprim) (k : Z) : node :=
  mk_node (nm k) (par k) (ch k) (filter (is_type_in k) ps) (filter (is_class_in k) ps) (filter (is_enum_in k) ps) (own_count k ps).
(* what the map of namespaces holds *)
Definition heap (m : nsmap) (ch : Z -> list Z) (ps : list cprim) : Prop :=
  forall k, m_find k m = if known k then Some (the_node ch ps k) else None.

(* ---- building ---- *)
Definition node_of (ns : prim) : node := mk_node (n_text (p_name ns)) (n_hash (p_parent ns)) [] [] [] [] 0.
Lemma copy_fold : forall (l : list (Z * prim)) m, ssorted (keys m) ->
  NoDup (map (fun x => n_hash (p_name (snd x))) l) -> (forall x, In x l -> ~ In (n_hash (p_name (snd x))) (keys m)) ->
  let m' := fold_left (fun m x => m_set (n_hash (p_name (snd x))) (mk_node (n_text (p_name (snd x))) (n_hash (p_parent (snd x))) [] [] [] [] 0) m) l m in
  ssorted (keys m') /\ (forall k x, m_find k m' = Some x <-> m_find k m = Some x \/ exists ns, In ns (map snd l) /\ n_hash (p_name ns) = k /\ x = node_of ns).
Proof.
  induction l as [|[k0 ns] l IH]; intros m Hs Hd Hn; cbn [fold_left]; [split; [exact Hs|]; intros k x; cbn; split; [auto|]; intros [H|[n [[] _]]]; exact H|].
  cbn [map snd] in Hd. inversion Hd as [|? ? Hd1 Hd2]; subst.
  destruct (IH (m_set (n_hash (p_name ns)) (node_of ns) m)) as [H1 H2].
  - apply m_set_ssorted. exact Hs.
  - exact Hd2.
  - intros y Hy. rewrite m_set_keys. intros [E|Hin]; [apply Hd1; rewrite <- E; apply (in_map (fun x => n_hash (p_name (snd x))) l y Hy)|apply (Hn y (or_intror Hy) Hin)].
  - split; [exact H1|]. intros k x. cbn [snd]. fold (node_of ns). rewrite H2. rewrite m_find_set by exact Hs. cbn [map snd].
    assert (HN : m_find (n_hash (p_name ns)) m = None) by (apply m_find_none; apply (Hn (k0, ns)); left; reflexivity).
    destruct (Z.eqb_spec (n_hash (p_name ns)) k) as [<-|N].
    + split.
      * intros [E|[n [Hin [E1 E2]]]]; [right; exists ns; split; [left; reflexivity|]; split; [reflexivity|congruence]|]. right. exists n. split; [right; exact Hin|]. auto.
      * intros [E|[n [[<-|Hin] [E1 E2]]]]; [congruence|left; congruence|right; exists n; auto].
    + split.
      * intros [E|[n [Hin [E1 E2]]]]; [left; exact E|]. right. exists n. split; [right; exact Hin|]. auto.
      * intros [E|[n [[<-|Hin] [E1 E2]]]]; [left; exact E|congruence|right; exists n; auto].
Qed.
Hypothesis Hok : db_ok db.
Lemma copy_ok : ssorted K /\ (forall k x, m_find k (copy_namespaces db) = Some x <-> exists ns, In ns (namespaces db) /\ n_hash (p_name ns) = k /\ x = node_of ns).
Proof.
  destruct Hok as [H1 _]. unfold namespaces in H1. rewrite map_map in H1. destruct (copy_fold (m_namespaces db) [] I H1) as [S1 S2]; [intros x _ []|].
  split; [exact S1|]. intros k x. unfold copy_namespaces. rewrite S2. cbn. split; [intros [E|E]; [discriminate|exact E]|auto].
Qed.
Lemma in_K : forall k, In k K <-> exists ns, In ns (namespaces db) /\ n_hash (p_name ns) = k.
Proof.
  intros k. rewrite <- m_find_some_iff. split; [intros [v Hv]; apply copy_ok in Hv; destruct Hv as [ns [A [B _]]]; eauto|].
  intros [ns [A B]]. exists (node_of ns). apply copy_ok. eauto.
Qed.
Lemma ns_find : forall ns, In ns (namespaces db) -> par (n_hash (p_name ns)) = n_hash (p_parent ns) /\ nm (n_hash (p_name ns)) = n_text (p_name ns).
Proof.
  intros ns Hin. assert (E : m_find (n_hash (p_name ns)) (copy_namespaces db) = Some (node_of ns)) by (apply copy_ok; eauto). unfold par, nm. rewrite E. auto.
Qed.
Lemma zero_not_K : ~ In 0 K.
Proof. rewrite in_K. intros [ns [A B]]. destruct Hok as [_ [H _]]. apply H in A. tauto. Qed.
Lemma known_spec : forall k, known k = true <-> k = 0 \/ In k K.
Proof.
  intros k. unfold known. rewrite orb_true_iff, existsb_exists. split.
  - intros [H|[x [H1 H2]]]; [left; lia|right]. apply Z.eqb_eq in H2. subst. exact H1.
  - intros [->|H]; [left; reflexivity|right; exists k; split; [exact H|apply Z.eqb_refl]].
Qed.
Lemma known_is_namespace : forall k, known k = is_namespace db k.
Proof.
  intros k. unfold known, is_namespace. f_equal. apply eq_true_iff_eq. rewrite !existsb_exists. split.
  - intros [x [H1 H2]]. apply Z.eqb_eq in H2. subst x. apply in_K in H1. destruct H1 as [ns [A B]]. exists ns. split; [exact A|lia].
  - intros [ns [A B]]. exists k. split; [apply in_K; exists ns; split; [exact A|lia]|apply Z.eqb_refl].
Qed.
Definition bare (done : list Z) (k : Z) : node := mk_node (nm k) (par k) (filter (fun c => par c =? k) done) [] [] [] 0.
Lemma copy_bare : forall k, m_find k (copy_namespaces db) = if existsb (Z.eqb k) K then Some (bare [] k) else None.
Proof.
  intros k. destruct (existsb (Z.eqb k) K) eqn:E.
  - apply existsb_exists in E. destruct E as [x [H1 H2]]. apply Z.eqb_eq in H2. subst x. apply m_find_some_iff in H1. destruct H1 as [v Hv]. unfold bare, nm, par. rewrite Hv.
    apply copy_ok in Hv. destruct Hv as [ns [_ [_ ->]]]. reflexivity.
  - apply m_find_none. intros Hin. assert (existsb (Z.eqb k) K = true) by (apply existsb_exists; exists k; split; [exact Hin|apply Z.eqb_refl]). congruence.
Qed.
Lemma children_fold : forall todo done m, (forall c, In c todo -> In c K) -> keys m = K ->
  (forall k, m_find k m = if existsb (Z.eqb k) K then Some (bare done k) else None) ->
  let m' := fold_left add_to_parent todo m in
  keys m' = K /\ (forall k, m_find k m' = if existsb (Z.eqb k) K then Some (bare (done ++ todo) k) else None).
Proof.
  induction todo as [|c todo IH]; intros done m Hin HK Hm; cbn [fold_left]; [rewrite app_nil_r; auto|].
  replace (done ++ c :: todo) with ((done ++ [c]) ++ todo) by (rewrite <- app_assoc; reflexivity). apply IH; [intros x Hx; apply Hin; right; exact Hx| |].
  - unfold add_to_parent. destruct (m_find c m); [|exact HK]. destruct (m_find (nd_parent n) m); [rewrite keys_update|]; exact HK.
  - assert (Hc : existsb (Z.eqb c) K = true) by (apply existsb_exists; exists c; split; [apply Hin; left; reflexivity|apply Z.eqb_refl]).
    intros k. unfold add_to_parent. rewrite (Hm c), Hc. change (nd_parent (bare done c)) with (par c). rewrite (Hm (par c)).
    destruct (existsb (Z.eqb (par c)) K) eqn:Ep.
    + rewrite m_find_update, Hm, Hm, Ep. destruct (Z.eqb_spec (par c) k) as [<-|N].
      * rewrite Ep. unfold set_children, bare. cbn. rewrite filter_app. cbn. rewrite Z.eqb_refl. reflexivity.
      * destruct (existsb (Z.eqb k) K); [|reflexivity]. f_equal. unfold bare. rewrite filter_app. cbn. destruct (Z.eqb_spec (par c) k); [congruence|]. rewrite app_nil_r. reflexivity.
    + rewrite Hm. destruct (existsb (Z.eqb k) K) eqn:Ek; [|reflexivity]. f_equal. unfold bare. rewrite filter_app. cbn. destruct (Z.eqb_spec (par c) k) as [E|]; [congruence|].
      rewrite app_nil_r. reflexivity.
Qed.
Lemma filter_keys : forall T (f : T -> bool) (g : Z -> bool) (m : zmap T), NoDup (keys m) -> (forall k v, m_find k m = Some v -> f v = g k) ->
  map fst (filter (fun x => f (snd x)) m) = filter g (keys m).
Proof.
  induction m as [|[a v] m IH]; intros Hd H; [reflexivity|]. cbn [keys map fst] in Hd. inversion Hd as [|? ? D1 D2]; subst. cbn [filter keys map fst snd].
  assert (E : f v = g a) by (apply H; cbn; rewrite Z.eqb_refl; reflexivity). rewrite E.
  assert (R : map fst (filter (fun x => f (snd x)) m) = filter g (keys m)).
  { apply IH; [exact D2|]. intros k w Hw. apply H. cbn. destruct (Z.eqb_spec a k) as [->|]; [|exact Hw]. exfalso. apply D1. apply m_find_In in Hw. apply (in_map fst) in Hw. exact Hw. }
  destruct (g a); cbn [map fst]; unfold keys in R; rewrite R; reflexivity.
Qed.
Lemma BuildNamespaces_ok : heap (BuildNamespaces db) kids [].
Proof.
  unfold BuildNamespaces. destruct (children_fold K [] (copy_namespaces db)) as [H1 H2]; [auto|reflexivity|exact copy_bare|]. cbn [app] in *. set (m := fold_left add_to_parent K (copy_namespaces db)) in *.
  assert (Hs : ssorted (keys m)) by (rewrite H1; apply copy_ok).
  intros k. rewrite m_find_set by exact Hs. destruct (Z.eqb_spec 0 k) as [<-|N].
  - unfold known. cbn [Z.eqb orb]. f_equal. unfold the_node. cbn [filter]. unfold own_count. cbn [filter]. change (zlen (@nil cprim)) with 0.
    assert (E : m_find 0 (copy_namespaces db) = None) by (apply m_find_none; exact zero_not_K). unfold nm, par. rewrite E. f_equal.
    rewrite (filter_keys node (fun x => nd_parent x =? 0) (fun c => par c =? 0)); [rewrite H1; reflexivity|apply ssorted_NoDup; exact Hs|].
    intros k v Hv. rewrite H2 in Hv. destruct (existsb (Z.eqb k) K); [|discriminate]. injection Hv as <-. reflexivity.
  - rewrite H2. unfold known. replace (k =? 0) with false by lia. cbn [orb]. destruct (existsb (Z.eqb k) K); reflexivity.
Qed.

(* ---- contents ---- *)
Lemma zlen_app1 : forall A (l : list A) a, zlen (l ++ [a]) = zlen l + 1.
Proof. intros. unfold zlen. rewrite app_length. cbn. lia. Qed.
Definition class_prim (c : class) : cprim := mk_cprim (n_text (p_name (c_prim c))) (n_hash (p_name (c_prim c))) (n_hash (p_parent (c_prim c))) (if c_is_class c then PT_Class else PT_Struct).
Definition enum_prim (e : enum) : cprim := mk_cprim (n_text (p_name (e_prim e))) (n_hash (p_name (e_prim e))) (n_hash (p_parent (e_prim e)))
  (if e_scoped e =? 0 then PT_Enum else if e_scoped e =? 1 then PT_EnumClass else PT_EnumStruct).
Definition type_prim (t : type_) : cprim := mk_cprim (n_text (p_name (t_prim t))) (n_hash (p_name (t_prim t))) 0 PT_Type.
Definition push (x : node) (p : cprim) : node :=
  if cp_type p =? PT_Type then push_type x p else if cp_type p =? PT_Enum then push_enum x p else push_class x p.
Lemma push_ok : forall m ch ps p, heap m ch ps -> known (cp_parent p) = true ->
  heap (m_update (cp_parent p) (push (the_node ch ps (cp_parent p)) p) m) ch (ps ++ [p]).
Proof.
  intros m ch ps p H Hk k. rewrite m_find_update, !H, Hk. destruct (Z.eqb_spec (cp_parent p) k) as [<-|N].
  - rewrite Hk. f_equal. unfold the_node, own_count. rewrite !filter_app. cbn [filter].
    assert (E1 : is_type_in (cp_parent p) p = (cp_type p =? PT_Type)) by (unfold is_type_in; rewrite Z.eqb_refl; reflexivity).
    assert (E2 : is_enum_in (cp_parent p) p = (cp_type p =? PT_Enum)) by (unfold is_enum_in; rewrite Z.eqb_refl; reflexivity).
    assert (E3 : is_class_in (cp_parent p) p = negb (cp_type p =? PT_Type) && negb (cp_type p =? PT_Enum)) by (unfold is_class_in; rewrite Z.eqb_refl; reflexivity).
    rewrite E1, E2, E3, Z.eqb_refl, zlen_app1. unfold push.
    destruct (Z.eqb_spec (cp_type p) PT_Type) as [E|E]; [rewrite E; cbn; rewrite !app_nil_r; reflexivity|].
    destruct (cp_type p =? PT_Enum); cbn; rewrite !app_nil_r; reflexivity.
  - destruct (known k); [|reflexivity]. f_equal. unfold the_node, own_count. rewrite !filter_app. cbn [filter].
    assert (E0 : (cp_parent p =? k) = false) by lia.
    assert (E1 : is_type_in k p = false) by (unfold is_type_in; rewrite E0; reflexivity).
    assert (E2 : is_enum_in k p = false) by (unfold is_enum_in; rewrite E0; reflexivity).
    assert (E3 : is_class_in k p = false) by (unfold is_class_in; rewrite E0; reflexivity).
    rewrite E0, E1, E2, E3, !app_nil_r. reflexivity.
Qed.
Lemma add_class_ok : forall l m ch ps, heap m ch ps ->
  exists m', fold_left add_class l (m, ps) = (m', ps ++ map class_prim (filter (fun c => known (n_hash (p_parent (c_prim c)))) l)) /\
    heap m' ch (ps ++ map class_prim (filter (fun c => known (n_hash (p_parent (c_prim c)))) l)).
Proof.
  induction l as [|c l IH]; intros m ch ps H; cbn [fold_left filter]; [exists m; cbn; rewrite app_nil_r; auto|].
  unfold add_class at 2. cbn [fst snd]. rewrite H. destruct (known (n_hash (p_parent (c_prim c)))) eqn:E.
  - fold (class_prim c). pose proof (push_ok m ch ps (class_prim c) H E) as H1.
    replace (push (the_node ch ps (cp_parent (class_prim c))) (class_prim c)) with (push_class (the_node ch ps (n_hash (p_parent (c_prim c)))) (class_prim c)) in H1
      by (unfold push, class_prim; cbn; destruct (c_is_class c); reflexivity).
    destruct (IH _ ch _ H1) as [m' [A B]]. exists m'. cbn [map]. rewrite <- app_assoc in A, B. split; [exact A|exact B].
  - apply IH. exact H.
Qed.
Lemma add_enums_ok : forall l m ch ps, heap m ch ps -> (forall e, In e l -> 0 <= e_scoped e <= 2) ->
  exists m', add_enums l (m, ps) = Ok (m', ps ++ map enum_prim (filter (fun e => known (n_hash (p_parent (e_prim e)))) l)) /\
    heap m' ch (ps ++ map enum_prim (filter (fun e => known (n_hash (p_parent (e_prim e)))) l)).
Proof.
  induction l as [|e l IH]; intros m ch ps H Hs; cbn [add_enums filter]; [exists m; cbn; rewrite app_nil_r; auto|].
  assert (Hs' : forall e, In e l -> 0 <= e_scoped e <= 2) by (intros; apply Hs; right; assumption). specialize (Hs e (or_introl eq_refl)).
  unfold add_enum. cbn [fst snd]. rewrite H. destruct (known (n_hash (p_parent (e_prim e)))) eqn:E.
  - pose proof (push_ok m ch ps (enum_prim e) H E) as H1. unfold push, enum_prim in H1. cbn [cp_type cp_parent] in H1.
    cbn [map]. unfold enum_prim at 1 3. destruct (e_scoped e =? 0) eqn:E0; [|destruct (e_scoped e =? 1) eqn:E1; [|replace (e_scoped e =? 2) with true by lia]];
      cbn in H1; cbn [obind]; (destruct (IH _ ch _ H1 Hs') as [m' [A B]]; exists m'; rewrite <- app_assoc in A, B; split; [exact A|exact B]).
  - cbn [obind]. apply IH; assumption.
Qed.
Lemma add_types_ok : forall l m ch ps, heap m ch ps ->
  exists m', fold_left add_type l (m, ps) = (m', ps ++ map type_prim l) /\ heap m' ch (ps ++ map type_prim l).
Proof.
  induction l as [|t l IH]; intros m ch ps H; cbn [fold_left map]; [exists m; rewrite app_nil_r; auto|].
  unfold add_type at 2. cbn [fst snd]. rewrite H. change (known 0) with true. cbn iota.
  pose proof (push_ok m ch ps (type_prim t) H eq_refl) as H1. destruct (IH _ ch _ H1) as [m' [A B]]. exists m'. rewrite <- app_assoc in A, B. split; [exact A|exact B].
Qed.
Definition prims : list cprim :=
  map class_prim (filter (fun c => in_namespace db (c_prim c)) (map snd (m_classes db))) ++
  map enum_prim (filter (fun e => in_namespace db (e_prim e)) (map snd (m_enums db))) ++ map type_prim (map snd (m_types db)).
Lemma BuildNamespaceContents_ok : exists m, BuildNamespaceContents db (BuildNamespaces db) = Ok (m, prims) /\ heap m kids prims.
Proof.
  unfold BuildNamespaceContents. destruct (add_class_ok (map snd (m_classes db)) _ _ _ BuildNamespaces_ok) as [m1 [A1 B1]]. rewrite A1. cbn [app] in *.
  destruct (add_enums_ok (map snd (m_enums db)) _ _ _ B1) as [m2 [A2 B2]]; [intros e He; destruct Hok as [_ [_ [_ [H _]]]]; apply H in He; tauto|].
  rewrite A2. cbn [obind]. destruct (add_types_ok (map snd (m_types db)) _ _ _ B2) as [m3 [A3 B3]]. exists m3. rewrite A3.
  assert (E : forall A (f : A -> prim) l, filter (fun c => known (n_hash (p_parent (f c)))) l = filter (fun c => in_namespace db (f c)) l)
    by (intros; apply filter_ext; intros a; apply known_is_namespace).
  rewrite (E class c_prim), (E enum e_prim), <- app_assoc in *. split; [reflexivity|exact B3].
Qed.

(* ---- removing empty namespaces ---- *)
Variable ps : list cprim.
Definition keep (t : tree) : bool := match subs t with [] => negb (own_count (key t) ps =? 0) | _ => true end.
Inductive pruned : tree -> tree -> Prop :=
| pruned_T : forall k ts us ts', Forall2 pruned ts us -> Permutation (filter keep us) ts' -> pruned (T k ts) (T k ts').
Lemma pruned_key : forall t t', pruned t t' -> key t' = key t.
Proof. intros t t' H. inversion H; reflexivity. Qed.
Definition upd (ch : Z -> list Z) (k : Z) (l : list Z) : Z -> list Z := fun x => if x =? k then l else ch x.
Lemma heap_set_children : forall m ch k l, heap m ch ps -> known k = true -> heap (m_update k (set_children (the_node ch ps k) l) m) (upd ch k l) ps.
Proof.
  intros m ch k l H Hk x. rewrite m_find_update, !H, Hk. unfold upd, the_node. destruct (Z.eqb_spec k x) as [<-|N]; [rewrite Hk, Z.eqb_refl; reflexivity|].
  destruct (Z.eqb_spec x k); [congruence|reflexivity].
Qed.
Lemma swap_remove_last : forall a x, swap_remove (a ++ [x]) (length a) = a.
Proof.
  intros a x. unfold swap_remove. rewrite firstn_app, Nat.sub_diag, firstn_all, firstn_O, app_nil_r, skipn_all2 by (rewrite app_length; cbn; lia). apply removelast_snoc.
Qed.
Lemma swap_remove_mid : forall a x b y, swap_remove (a ++ x :: b ++ [y]) (length a) = a ++ y :: b.
Proof.
  intros a x b y. unfold swap_remove. replace (last (a ++ x :: b ++ [y]) 0) with y by (rewrite (app_assoc a (x :: b) [y] : a ++ x :: b ++ [y] = _); symmetry; apply last_last).
  rewrite firstn_app, Nat.sub_diag, firstn_all, firstn_O, app_nil_r.
  replace (skipn (S (length a)) (a ++ x :: b ++ [y])) with (b ++ [y]).
  2:{ rewrite skipn_app, skipn_all2 by lia. replace (S (length a) - length a)%nat with 1%nat by lia. reflexivity. }
  rewrite (app_assoc a (y :: b) [y] : a ++ y :: b ++ [y] = _). apply removelast_snoc.
Qed.
Lemma pruned_tkeys : forall t t' x, pruned t t' -> In x (tkeys t') -> In x (tkeys t).
Proof.
  induction t as [k ts IH] using tree_rect'; intros t' x H Hx. inversion H as [? ? us ts' H1 H2]; subst. cbn [tkeys] in *. destruct Hx as [->|Hx]; [left; reflexivity|]. right.
  apply in_flat_map in Hx. destruct Hx as [u [Hu Hx]]. apply (Permutation_in _ (Permutation_sym H2)) in Hu. apply filter_In in Hu. destruct Hu as [Hu _].
  apply in_flat_map. clear H H2. induction H1 as [|t u' ts us P _ IH2]; [contradiction|]. inversion IH as [|? ? I1 I2]; subst. destruct Hu as [->|Hu].
  - exists t. split; [left; reflexivity|]. apply (I1 u); assumption.
  - destruct (IH2 I2 Hu) as [v [A B]]. exists v. split; [right; exact A|exact B].
Qed.
Lemma NoDup_app_parts : forall A (a b : list A), NoDup (a ++ b) -> NoDup a /\ NoDup b /\ (forall x, In x a -> ~ In x b).
Proof.
  induction a as [|x a IH]; intros b H; cbn in *; [split; [constructor|]; split; [exact H|]; intros ? []|]. inversion H as [|? ? H1 H2]; subst. destruct (IH b H2) as [I1 [I2 I3]].
  split; [constructor; [intros Hin; apply H1, in_or_app; auto|exact I1]|]. split; [exact I2|]. intros y [->|Hy] Hb; [apply H1, in_or_app; auto|apply (I3 y Hy Hb)].
Qed.
Lemma NoDup_app_intro : forall A (a b : list A), NoDup a -> NoDup b -> (forall x, In x a -> ~ In x b) -> NoDup (a ++ b).
Proof.
  induction a as [|x a IH]; intros b Ha Hb H; [exact Hb|]. inversion Ha as [|? ? A1 A2]; subst. cbn. constructor.
  - intros Hin. apply in_app_or in Hin. destruct Hin as [Hin|Hin]; [tauto|]. apply (H x); [left; reflexivity|exact Hin].
  - apply IH; [exact A2|exact Hb|]. intros y Hy. apply H. right. exact Hy.
Qed.
Lemma forest_nodup : forall ts us, Forall2 (fun t u => incl (tkeys u) (tkeys t) /\ (NoDup (tkeys t) -> NoDup (tkeys u))) ts us ->
  NoDup (flat_map tkeys ts) -> NoDup (flat_map tkeys us) /\ incl (flat_map tkeys us) (flat_map tkeys ts).
Proof.
  intros ts us H. induction H as [|t u ts us [H1 H2] _ IH]; intros Hd; cbn [flat_map] in *; [split; [constructor|intros x []]|].
  destruct (NoDup_app_parts _ _ _ Hd) as [A [B C]]. destruct (IH B) as [I1 I2]. split.
  - apply NoDup_app_intro; [apply H2, A|exact I1|]. intros x Hx Hy. apply (C x); [apply H1, Hx|apply I2, Hy].
  - intros x Hx. apply in_app_or in Hx. apply in_or_app. destruct Hx as [Hx|Hx]; [left; apply H1, Hx|right; apply I2, Hx].
Qed.
Lemma filter_forest_nodup : forall (f : tree -> bool) us, NoDup (flat_map tkeys us) -> NoDup (flat_map tkeys (filter f us)).
Proof.
  induction us as [|u us IH]; intros Hd; [constructor|]. cbn [flat_map filter] in *. destruct (NoDup_app_parts _ _ _ Hd) as [A [B C]]. destruct (f u); [|apply IH, B]. cbn [flat_map].
  apply NoDup_app_intro; [exact A|apply IH, B|]. intros x Hx Hy. apply (C x Hx). apply in_flat_map in Hy. destruct Hy as [v [V1 V2]]. apply filter_In in V1. apply in_flat_map. exists v. tauto.
Qed.
Lemma Forall2_Forall_l : forall A B (P : A -> B -> Prop) (Q : A -> Prop) l l', Forall2 P l l' -> Forall Q l -> Forall2 (fun a b => P a b /\ Q a) l l'.
Proof. intros A B P Q l l' H. induction H; intros HQ; inversion HQ; subst; constructor; auto. Qed.
Lemma Forall2_weaken : forall A B (P Q : A -> B -> Prop) l l', (forall a b, P a b -> Q a b) -> Forall2 P l l' -> Forall2 Q l l'.
Proof. intros A B P Q l l' HPQ H. induction H; constructor; auto. Qed.
Lemma perm_filter : forall A (f : A -> bool) a b, Permutation a b -> Permutation (filter f a) (filter f b).
Proof.
  intros A f a b H. induction H; cbn; [constructor|destruct (f x); [apply perm_skip|]; assumption| |eapply perm_trans; eassumption].
  destruct (f x), (f y); try apply Permutation_refl. apply perm_swap.
Qed.
Lemma pruned_nodup : forall t t', pruned t t' -> NoDup (tkeys t) -> NoDup (tkeys t').
Proof.
  induction t as [k ts IH] using tree_rect'; intros t' H Hd. inversion H as [? ? us ts' H1 H2]; subst. cbn [tkeys] in *. inversion Hd as [|? ? D1 D2]; subst.
  destruct (forest_nodup ts us) as [N1 N2]; [|exact D2|].
  - apply (Forall2_weaken _ _ (fun a b => pruned a b /\ forall t', pruned a t' -> NoDup (tkeys a) -> NoDup (tkeys t'))); [|apply Forall2_Forall_l; assumption].
    intros a b [P1 P2]. split; [intros x Hx; apply (pruned_tkeys a b x P1 Hx)|apply P2, P1].
  - constructor.
    + intros Hin. apply D1. apply in_flat_map in Hin. destruct Hin as [v [V1 V2]]. apply (Permutation_in _ (Permutation_sym H2)) in V1. apply filter_In in V1. apply N2. apply in_flat_map. exists v. tauto.
    + apply (Permutation_NoDup (l := flat_map tkeys (filter keep us))); [apply Permutation_flat_map; exact H2|]. apply filter_forest_nodup. exact N1.
Qed.
Notation loop n ns := (fix loop (k i : nat) (m : nsmap) : outcome nsmap :=
             match k with
             | O => Ok m
             | S k =>
                 match m_find ns m with
                 | None => UB
                 | Some x =>
                     match nth_error (nd_children x) i with
                     | None => UB
                     | Some child =>
                         do m <- RemoveEmptyNamespaces n m child;
                         match m_find child m, m_find ns m with
                         | Some c, Some x =>
                             match nd_children c, nd_nb c =? 0 with
                             | [], true => loop k i (m_update ns (set_children x (swap_remove (nd_children x) i)) m)
                             | _, _ => loop k (S i) m
                             end
                         | _, _ => UB
                         end
                     end
                 end
             end).
Definition removes (n : nat) (t : tree) : Prop := forall m ch, heap m ch ps -> rep ch t -> NoDup (tkeys t) -> (forall k, In k (tkeys t) -> known k = true) ->
  exists m' ch' t', RemoveEmptyNamespaces n m (key t) = Ok m' /\ heap m' ch' ps /\ rep ch' t' /\ pruned t t' /\ (forall k, ~ In k (tkeys t) -> ch' k = ch k).
Lemma loop_ok : forall n ns us ds m ch, heap m ch ps -> known ns = true -> Forall (removes n) us -> ch ns = map key (ds ++ us) ->
  Forall (rep ch) ds -> Forall (rep ch) us -> NoDup (ns :: flat_map tkeys ds ++ flat_map tkeys us) -> (forall k, In k (flat_map tkeys us) -> known k = true) ->
  exists m' ch' us' res, loop n ns (length us) (length ds) m = Ok m' /\ heap m' ch' ps /\ Forall2 pruned us us' /\ Permutation (ds ++ filter keep us') res /\
    ch' ns = map key res /\ Forall (rep ch') res /\ (forall k, k <> ns -> ~ In k (flat_map tkeys us) -> ch' k = ch k).
Proof.
  intros n ns us. remember (length us) as c eqn:Ec. revert us Ec. induction c as [|c IH]; intros us Ec ds m ch Hh Hk Hr Hch Hd Hu Hnd Hkn.
  { destruct us; [|discriminate]. exists m, ch, [], ds. cbn [filter]. rewrite !app_nil_r in *. split; [reflexivity|]. split; [exact Hh|]. split; [constructor|]. auto. }
  destruct us as [|u us]; [discriminate|]. injection Ec as Ec. cbn [flat_map] in Hnd, Hkn.
  inversion Hr as [|? ? Hr1 Hr2]; subst. inversion Hu as [|? ? Hu1 Hu2]; subst. inversion Hnd as [|? ? Hns Hnd']; subst.
  destruct (NoDup_app_parts _ _ _ Hnd') as [Nd [Nu Ndu]]. destruct (NoDup_app_parts _ _ _ Nu) as [N1 [N2 N12]].
  destruct (Hr1 m ch Hh Hu1 N1 ltac:(intros; apply Hkn, in_or_app; auto)) as [m1 [ch1 [u' [R1 [R2 [R3 [R4 R5]]]]]]].
  assert (Hns_u : ~ In ns (tkeys u)) by (intros Hin; apply Hns, in_or_app; right; apply in_or_app; left; exact Hin).
  assert (Eds : Forall (rep ch1) ds).
  { rewrite Forall_forall in *. intros d Hd'. apply (rep_ext d ch); [apply Hd, Hd'|]. intros x Hx. apply R5. intros Hin. apply (Ndu x); [apply in_flat_map; eauto|apply in_or_app; left; exact Hin]. }
  assert (Eus : Forall (rep ch1) us).
  { rewrite Forall_forall in *. intros d Hd'. apply (rep_ext d ch); [apply Hu2, Hd'|]. intros x Hx. apply R5. intros Hin. apply (N12 x Hin). apply in_flat_map. eauto. }
  assert (Kcu : known (key u) = true) by (apply Hkn, in_or_app; left; apply key_in).
  rewrite (Hh ns), Hk. change (nd_children (the_node ch ps ns)) with (ch ns). rewrite Hch, map_app. cbn [map].
  rewrite nth_error_app2 by (rewrite map_length; lia). rewrite map_length, Nat.sub_diag. cbn [nth_error]. rewrite R1. cbn [obind].
  rewrite (R2 (key u)), Kcu, (R2 ns), Hk. change (nd_children (the_node ch1 ps (key u))) with (ch1 (key u)). change (nd_nb (the_node ch1 ps (key u))) with (own_count (key u) ps).
  assert (Ech1 : ch1 ns = map key ds ++ key u :: map key us) by (rewrite R5 by exact Hns_u; rewrite Hch, map_app; reflexivity).
  assert (Esub : ch1 (key u) = map key (subs u')) by (inversion R3 as [k0 ts0 E1 _]; subst; rewrite <- (pruned_key _ _ R4); exact E1).
  assert (Kkeep : keep u' = match ch1 (key u) with [] => negb (own_count (key u) ps =? 0) | _ => true end)
    by (unfold keep; rewrite Esub, (pruned_key _ _ R4); destruct (subs u'); reflexivity).
  assert (HK2 : (exists l, ch1 (key u) = l /\ keep u' = true) \/ (ch1 (key u) = [] /\ own_count (key u) ps =? 0 = true /\ keep u' = false)).
  { rewrite Kkeep. destruct (ch1 (key u)) as [|z l]; [destruct (own_count (key u) ps =? 0); [right; auto|left; eauto]|left; eauto]. }
  destruct HK2 as [[l [_ Ek]]|[E1 [E2 Ek]]].
  - (* kept *)
    assert (ES : forall T (a b : T), (match ch1 (key u), own_count (key u) ps =? 0 with [], true => a | _, _ => b end) = b).
    { intros T0 a b. rewrite Kkeep in Ek. destruct (ch1 (key u)); [|reflexivity]. destruct (own_count (key u) ps =? 0); [discriminate|reflexivity]. }
    rewrite ES. replace (S (length ds)) with (length (ds ++ [u'])) by (rewrite app_length; cbn; lia).
    destruct (IH us eq_refl (ds ++ [u']) m1 ch1 R2 Hk Hr2) as [m' [ch' [us' [res [L1 [L2 [L3 [L4 [L5 [L6 L7]]]]]]]]]].
    + rewrite Ech1, !map_app. cbn [map]. rewrite (pruned_key _ _ R4), <- app_assoc. reflexivity.
    + apply Forall_app. split; [exact Eds|]. constructor; [exact R3|constructor].
    + exact Eus.
    + rewrite flat_map_app. cbn [flat_map]. rewrite app_nil_r, <- app_assoc. inversion Hnd as [|? ? X1 X2]; subst. constructor.
      * intros Hin. apply X1. apply in_app_or in Hin. apply in_or_app. destruct Hin as [Hin|Hin]; [left; exact Hin|right]. apply in_app_or in Hin. apply in_or_app. destruct Hin as [Hin|Hin]; [left; apply (pruned_tkeys _ _ _ R4 Hin)|right; exact Hin].
      * apply NoDup_app_intro; [exact Nd|apply NoDup_app_intro; [apply (pruned_nodup _ _ R4 N1)|exact N2|]|].
        -- intros x Hx. apply N12. apply (pruned_tkeys _ _ _ R4 Hx).
        -- intros x Hx Hin. apply (Ndu x Hx). apply in_app_or in Hin. apply in_or_app. destruct Hin as [Hin|Hin]; [left; apply (pruned_tkeys _ _ _ R4 Hin)|right; exact Hin].
    + intros k Hin. apply Hkn, in_or_app. right. exact Hin.
    + exists m', ch', (u' :: us'), res. split; [exact L1|]. split; [exact L2|]. split; [constructor; assumption|]. cbn [filter]. rewrite Ek. rewrite <- app_assoc in L4. split; [exact L4|].
      split; [exact L5|]. split; [exact L6|]. intros k K1 K2. rewrite L7; [apply R5; intros Hin; apply K2, in_or_app; left; exact Hin|exact K1|intros Hin; apply K2, in_or_app; right; exact Hin].
  - (* dropped *)
    rewrite E1, E2. change (nd_children (the_node ch1 ps ns)) with (ch1 ns). rewrite Ech1. replace (length ds) with (length (map key ds)) by apply map_length.
    assert (HP : exists us2, Permutation us2 us /\ swap_remove (map key ds ++ key u :: map key us) (length (map key ds)) = map key ds ++ map key us2).
    { destruct us as [|y us _] using rev_ind; [exists []; split; [constructor|rewrite app_nil_r; apply swap_remove_last]|].
      exists (y :: us). split; [apply Permutation_cons_append|]. rewrite map_app. apply swap_remove_mid. }
    destruct HP as [us2 [P1 P2]]. rewrite P2. rewrite (map_length key ds).
    destruct (IH us2 ltac:(symmetry; apply Permutation_length; exact P1) ds _ _ (heap_set_children m1 ch1 ns (map key ds ++ map key us2) R2 Hk) Hk) as [m' [ch' [us' [res [L1 [L2 [L3 [L4 [L5 [L6 L7]]]]]]]]]].
    + rewrite Forall_forall in *. intros x Hx. apply Hr2. apply (Permutation_in _ P1 Hx).
    + unfold upd. rewrite Z.eqb_refl, map_app. reflexivity.
    + rewrite Forall_forall in *. intros d Hd'. apply (rep_ext d ch1); [apply Eds, Hd'|]. intros x Hx. unfold upd. destruct (Z.eqb_spec x ns) as [->|]; [|reflexivity]. exfalso. apply Hns, in_or_app. left. apply in_flat_map. eauto.
    + rewrite Forall_forall in *. intros d Hd'. apply (Permutation_in _ P1) in Hd'. apply (rep_ext d ch1); [apply Eus, Hd'|]. intros x Hx. unfold upd. destruct (Z.eqb_spec x ns) as [->|]; [|reflexivity].
      exfalso. apply Hns, in_or_app. right. apply in_or_app. right. apply in_flat_map. eauto.
    + assert (P3 : Permutation (flat_map tkeys us2) (flat_map tkeys us)) by (apply Permutation_flat_map; exact P1). constructor.
      * intros Hin. apply Hns. apply in_app_or in Hin. apply in_or_app. destruct Hin as [Hin|Hin]; [left; exact Hin|right; apply in_or_app; right; apply (Permutation_in _ P3 Hin)].
      * apply NoDup_app_intro; [exact Nd|apply (Permutation_NoDup (Permutation_sym P3) N2)|]. intros x Hx Hin. apply (Ndu x Hx). apply in_or_app. right. apply (Permutation_in _ P3 Hin).
    + intros k Hin. apply Hkn, in_or_app. right. apply (Permutation_in _ (Permutation_flat_map tkeys P1) Hin).
    + destruct (Permutation_Forall2 P1 L3) as [us3 [Q1 Q2]]. exists m', ch', (u' :: us3), res. split; [exact L1|]. split; [exact L2|]. split; [constructor; assumption|]. cbn [filter]. rewrite Ek.
      split; [|split; [exact L5|split; [exact L6|]]].
      * eapply perm_trans; [|exact L4]. apply Permutation_app_head. apply perm_filter. symmetry. exact Q1.
      * intros k K1 K2. rewrite L7; [unfold upd; destruct (Z.eqb_spec k ns); [congruence|]; apply R5; intros Hin; apply K2, in_or_app; left; exact Hin|exact K1|].
        intros Hin. apply K2, in_or_app. right. apply (Permutation_in _ (Permutation_flat_map tkeys P1) Hin).
Qed.
Lemma RemoveEmpty_ok : forall n t, (depth t <= n)%nat -> removes n t.
Proof.
  induction n as [|n IH]; intros [ns ts] Hd; [cbn in Hd; lia|]. intros m ch Hh Hr Hnd Hkn. inversion Hr as [? ? R1 R2]; subst. cbn [key]. cbn [tkeys] in *.
  assert (Hk : known ns = true) by (apply Hkn; left; reflexivity).
  destruct (loop_ok n ns ts [] m ch Hh Hk) as [m' [ch' [us' [res [L1 [L2 [L3 [L4 [L5 [L6 L7]]]]]]]]]].
  - apply Forall_forall. intros t Ht. apply IH. pose proof (depth_sub ns ts t Ht). lia.
  - exact R1.
  - constructor.
  - exact R2.
  - exact Hnd.
  - intros k Hin. apply Hkn. right. exact Hin.
  - exists m', ch', (T ns res). split.
    { cbn [RemoveEmptyNamespaces]. rewrite (Hh ns), Hk. change (nd_children (the_node ch ps ns)) with (ch ns). rewrite R1, map_length. exact L1. }
    split; [exact L2|]. split; [constructor; assumption|]. split; [econstructor; eassumption|]. intros k Hin. apply L7; [intros ->; apply Hin; left; reflexivity|intros Hin'; apply Hin; right; exact Hin'].
Qed.
End Heap.
