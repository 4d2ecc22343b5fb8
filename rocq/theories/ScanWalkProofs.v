From Verif Require Import Base BaseProofs Text HashModel Maps FileUtilsModel FileUtilsSpec DatabaseModel AttrModel ScanModel ScanSpec ScanTypeProofs ScanParseProofs ScanAttrProofs.
Local Open Scope string_scope.
Local Open Scope list_scope.
Local Open Scope Z_scope.

Lemma decl_ind2 : forall P : decl -> Prop,
  (forall h l, Forall P l -> P (D_namespace h l)) -> (forall h r l, Forall P l -> P (D_record h r l)) ->
  (forall h k, P (D_leaf h k)) -> P D_unnamed -> forall d, P d.
Proof.
  intros P H1 H2 H3 H4. fix IH 1. intros d. destruct d as [h l|h r l|h k|].
  - apply H1. induction l as [|d l IHl]; constructor; [apply IH|exact IHl].
  - apply H2. induction l as [|d l IHl]; constructor; [apply IH|exact IHl].
  - apply H3.
  - exact H4.
Qed.

Section Unit.
Variable Es : env -> Prop.
Hypothesis Hcoh : coherent Es.
Variable E : env.
Hypothesis HE : Es E.
Notation inv := (inv Es). Notation track := (track Es). Notation post := (post Es).

Lemma uses_type_spec : forall q n e op c t, sized q n e -> shape e op c t -> forall k, uses_type q k <-> spec_of t = Some k.
Proof.
  intros q n e op c t H1 H2 k. split.
  - intros [n' [e' [op' [c' [t' [U1 [U2 U3]]]]]]]. apply sized_spec in H1. apply sized_spec in U1. assert (e' = e) as -> by congruence.
    apply shape_spec in H2. apply shape_spec in U2. destruct H2 as [q2 [H2 H2']], U2 as [q2' [U2 U2']]. congruence.
  - intros H. exists n, e, op, c, t. auto.
Qed.
Lemma uses_base_spec : forall b c t, stands (b_type b) c t -> forall k, uses_base b k <-> spec_of t = Some k.
Proof.
  intros b c t H k. split.
  - intros [c' [t' [U1 U2]]]. apply stands_update in H. apply stands_update in U1. congruence.
  - intros U. exists c, t. auto.
Qed.
Lemma used_exists : forall (uses : Z -> Prop) t raw nm, (forall k, uses k <-> spec_of t = Some k) -> spells E t raw nm ->
  exists us, used E uses us.
Proof.
  intros uses t raw nm H Hs. inversion Hs as [t' raw' G1 G2|t' i raw' nm' G1 G2]; subst.
  - exists []. constructor. intros k Hk. apply H in Hk. congruence.
  - exists [Instance_ nm]. econstructor; [apply H; exact G1|exact G2].
Qed.
Lemma described_used : forall q i, described E q i -> exists us, used E (uses_type q) us.
Proof.
  intros q i H. inversion H as [q' n e op c t raw nm H1 H2 H3 H4 H5]; subst. eapply used_exists; [|exact H4]. eapply uses_type_spec; eassumption.
Qed.
Lemma based_used : forall b n, based E [b] [n] -> exists us, used E (uses_base b) us.
Proof.
  intros b n H. inversion H as [|b' c t a raw nm r bs H1 H2 H3 H4 H5 H6]; subst. eapply used_exists; [|exact H5]. eapply uses_base_spec; eassumption.
Qed.
Lemma track_used : forall (uses : Z -> Prop) us evs d d', used E uses us -> (forall k nm, uses k -> instance E k nm -> recorded_instance d' nm) ->
  track evs d d' -> track (us ++ evs) d d'.
Proof.
  intros uses us evs d d' Hu Hr T. destruct Hu as [Hn|k nm Hk Hi]; [exact T|]. destruct T as [T1 [T2 [T3 [T4 [T5 T6]]]]].
  split; [exact T1|]. split; [exact T2|]. split; [exact T3|]. split.
  - intros e He. destruct (T4 _ He) as [He'|[b [dv [E1 E2]]]]; [auto|]. right. exists b, dv. split; [exact E1|]. destruct E2 as [E2|E2]; [auto|right; right; exact E2].
  - split; [intros b n [Hin|Hin]; [discriminate Hin|auto]|]. intros n [Hin|Hin]; [|auto]. assert (n = nm) as -> by congruence. eapply Hr; eassumption.
Qed.

(* ---- fields ---- *)
Lemma MakeField_ok : forall fuel db q nm owner index r db', inv db -> MakeField fuel E db q nm owner index = Ok (r, db') ->
  match r with
  | Good f => exists evs, made E q nm owner index f evs /\ track evs db db'
  | Bad _ => unsupported E q /\ post db db'
  end.
Proof.
  intros fuel db q nm owner index r db' Hi H. unfold MakeField in H.
  apply obind_ok in H. destruct H as [[x d1] [H1 H]]. cbn [fst snd] in H.
  destruct (GetParameterInfo_ok Es E _ (parse_cts_ok Es Hcoh E HE fuel) _ _ _ _ Hi H1) as [P Q]. destruct x as [i|s].
  2:{ assert (r = Bad s /\ db' = d1) as [-> ->] by (split; congruence). split; [exact Q|exact P]. }
  destruct Q as [Q1 Q2].
  apply obind_ok in H. destruct H as [[t d2] [H2 H]]. cbn [fst snd] in H. destruct (post_db_name Es _ _ _ _ (track_inv _ _ _ _ P) H2) as [-> [P2 _]].
  apply obind_ok in H. destruct H as [[n d3] [H3 H]]. cbn [fst snd] in H. destruct (post_db_name Es _ _ _ _ (track_inv _ _ _ _ P2) H3) as [-> [P3 _]].
  apply obind_ok in H. destruct H as [[p d4] [H4 H]]. cbn [fst snd] in H. destruct (post_db_name Es _ _ _ _ (track_inv _ _ _ _ P3) H4) as [-> [P4 _]].
  pose proof (post_trans _ _ _ _ _ P (post_trans _ _ _ _ _ P2 (post_trans _ _ _ _ _ P3 P4))) as P14.
  destruct (described_used _ _ Q1) as [us Hus].
  assert (Hm : forall evs d', track evs d4 d' -> track (us ++ evs) db d').
  { intros evs d' T. eapply track_used; [exact Hus| |exact (post_trans _ _ _ _ _ P14 T)].
    intros k u Hk Hu. eapply grow_instance; [exact T|]. eapply grow_instance; [exact P4|]. eapply grow_instance; [exact P3|].
    eapply grow_instance; [exact P2|]. eapply Q2; eassumption. }
  pose proof (made_field E q nm owner index i us Q1 Hus) as Hmade. unfold prim_of in Hmade.
  destruct (pi_count i =? 0).
  - assert (r = Good (mk_field (mk_prim (name_of nm) (name_of owner)) (name_of (pi_type i)) (pi_qual i) index 0) /\ db' = d4) as [-> ->] by (split; congruence).
    exists (us ++ []). split; [exact Hmade|]. apply Hm. apply post_refl. exact (track_inv _ _ _ _ P4).
  - apply obind_ok in H. destruct H as [[c d5] [H5 H]]. cbn [fst snd] in H. destruct (post_db_name Es _ _ _ _ (track_inv _ _ _ _ P4) H5) as [-> [P5 _]].
    apply obind_ok in H. destruct H as [m [H6 H]]. unfold db_add_unique in H6. apply obind_ok in H6. destruct H6 as [[] [_ H6]].
    rewrite name_of_hash in H6.
    assert (r = Good (mk_field (mk_prim (name_of nm) (name_of owner)) (name_of (pi_type i)) (pi_qual i) index 0)) as -> by congruence.
    eexists. split; [exact Hmade|]. apply Hm. eapply post_trans; [exact P5|].
    assert (db' = note (Array_ (owner ++ str "::" ++ nm) (pi_count i)) d5) as ->.
    { cbn [note]. assert (db' = set_containers m d5) as -> by congruence. f_equal. symmetry. injection H6 as <-. reflexivity. }
    apply track_note; [exact I|exact (track_inv _ _ _ _ P5)].
Qed.
Lemma make_params_ok : forall fuel l db owner index r db', inv db -> make_params fuel E db owner index l = Ok (r, db') ->
  exists evs, params E owner index l (match r with Good fs => Some fs | Bad _ => None end) evs /\ track evs db db'.
Proof.
  induction l as [|[nm q] l IH]; intros db owner index r db' Hi H; cbn [make_params] in H.
  - assert (r = Good [] /\ db' = db) as [-> ->] by (split; congruence). exists []. split; [constructor|apply post_refl; exact Hi].
  - apply obind_ok in H. destruct H as [[x d1] [H1 H]]. cbn [fst snd] in H. fold (param_name nm index) in H1.
    pose proof (MakeField_ok _ _ _ _ _ _ _ _ Hi H1) as Q. destruct x as [f|s].
    + destruct Q as [ev [Q1 P]]. apply obind_ok in H. destruct H as [[y d2] [H2 H]]. cbn [fst snd] in H.
      destruct (IH _ _ _ _ _ (track_inv _ _ _ _ P) H2) as [evs [R1 P2]]. destruct y as [fs|s].
      * assert (r = Good (f :: fs) /\ db' = d2) as [-> ->] by (split; congruence). exists (ev ++ evs).
        split; [econstructor; eassumption|exact (track_trans _ _ _ _ _ _ P P2)].
      * assert (r = Bad s /\ db' = d2) as [-> ->] by (split; congruence). exists (ev ++ evs).
        split; [eapply ps_stop; eassumption|exact (track_trans _ _ _ _ _ _ P P2)].
    + destruct Q as [Q P]. assert (r = Bad s /\ db' = d1) as [-> ->] by (split; congruence). exists []. split; [constructor; exact Q|exact P].
Qed.
Lemma add_field_ok : forall f d d', inv d -> add_field f d = Ok d' -> track [Field_ f] d d'.
Proof.
  intros f d d' Hi H. unfold add_field in H. apply obind_ok in H. destruct H as [m [H1 H]]. apply db_add_ok in H1. destruct H1 as [-> _].
  assert (d' = note (Field_ f) d) as -> by (cbn [note]; congruence). apply track_note; [exact I|exact Hi].
Qed.
Lemma add_fields_ok : forall l d d', inv d -> add_fields l d = Ok d' -> track (map Field_ l) d d'.
Proof.
  induction l as [|f l IH]; intros d d' Hi H; cbn [add_fields] in H.
  - assert (d' = d) as -> by congruence. apply post_refl. exact Hi.
  - apply obind_ok in H. destruct H as [d1 [H1 H]]. pose proof (add_field_ok _ _ _ Hi H1) as P.
    exact (track_trans _ _ _ _ _ _ P (IH _ _ (track_inv _ _ _ _ P) H)).
Qed.
(* recording something under a name, with both its names looked up *)
Lemma named_ok : forall nm parent d n d1 p d2, inv d -> db_name d nm = Ok (n, d1) -> db_name d1 parent = Ok (p, d2) ->
  n = name_of nm /\ p = name_of parent /\ post d d2.
Proof.
  intros nm parent d n d1 p d2 Hi H1 H2. destruct (post_db_name Es _ _ _ _ Hi H1) as [-> [P1 _]].
  destruct (post_db_name Es _ _ _ _ (track_inv _ _ _ _ P1) H2) as [-> [P2 _]]. split; [reflexivity|]. split; [reflexivity|]. exact (post_trans _ _ _ _ _ P1 P2).
Qed.
Definition keeps (evs : list event) (s s' : st) : Prop := st_allow s' = st_allow s /\ track evs (st_db s) (st_db s').
Lemma print_bad_keeps : forall evs b t d s, track evs (st_db s) d -> keeps evs s (print_bad b t (set_db d s)).
Proof. intros evs b t d s H. unfold print_bad. destruct b; split; try reflexivity; exact H. Qed.
Lemma MakeFunction_ok : forall fuel f nm parent this s s', inv (st_db s) -> MakeFunction fuel E f nm parent this s = Ok s' ->
  exists evs, function_events E f nm parent this evs /\ keeps evs s s'.
Proof.
  intros fuel f nm parent this s s' Hi H. unfold MakeFunction in H. destruct (f_first f) eqn:Ef; cbn [negb] in H.
  2:{ assert (s' = s) as -> by congruence. exists []. split; [constructor; exact Ef|]. split; [reflexivity|apply post_refl; exact Hi]. }
  apply obind_ok in H. destruct H as [[r d1] [H1 H]]. cbn [fst snd] in H. pose proof (MakeField_ok _ _ _ _ _ _ _ _ Hi H1) as Q.
  destruct r as [ret|b].
  2:{ destruct Q as [Q P]. injection H as <-. exists []. split; [apply fe_return; assumption|]. apply print_bad_keeps. exact P. }
  destruct Q as [ev [Q P]]. apply obind_ok in H. destruct H as [[ps d2] [H2 H]]. cbn [fst snd] in H.
  destruct (make_params_ok _ _ _ _ _ _ _ (track_inv _ _ _ _ P) H2) as [evs [R P2]]. destruct ps as [ps|b].
  2:{ injection H as <-. exists (ev ++ evs). split; [eapply fe_param; eassumption|]. apply print_bad_keeps. exact (track_trans _ _ _ _ _ _ P P2). }
  apply obind_ok in H. destruct H as [uid [Hu H]].
  apply obind_ok in H. destruct H as [[n d3] [H3 H]]. cbn [fst snd] in H.
  apply obind_ok in H. destruct H as [[p d4] [H4 H]]. cbn [fst snd] in H.
  destruct (named_ok _ _ _ _ _ _ _ (track_inv _ _ _ _ P2) H3 H4) as [-> [-> P4]].
  apply obind_ok in H. destruct H as [m [H5 H]]. apply db_add_ok in H5. destruct H5 as [-> _].
  change (set_functions (insert_named (name_of nm) (mk_func (mk_prim (name_of nm) (name_of parent)) uid 0) (m_functions d4)) d4)
    with (note (Function_ (mk_func (prim_of nm parent) uid 0)) d4) in H.
  pose proof (track_note Es (Function_ (mk_func (prim_of nm parent) uid 0)) d4 I (track_inv _ _ _ _ P4)) as P5.
  apply obind_ok in H. destruct H as [d6 [H6 H]].
  assert (P6 : track (if list_eqb (n_text (f_type ret)) (str "void") then [] else [Field_ (set_uid uid ret)]) (note (Function_ (mk_func (prim_of nm parent) uid 0)) d4) d6).
  { destruct (list_eqb (n_text (f_type ret)) (str "void")).
    - assert (d6 = note (Function_ (mk_func (prim_of nm parent) uid 0)) d4) as -> by congruence. apply post_refl. exact (track_inv _ _ _ _ P5).
    - apply add_field_ok in H6; [exact H6|exact (track_inv _ _ _ _ P5)]. }
  apply obind_ok in H. destruct H as [d7 [H7 H]]. injection H as <-.
  pose proof (add_fields_ok _ _ _ (track_inv _ _ _ _ P6) H7) as P7. rewrite map_map in P7.
  eexists. split; [eapply fe_all; eassumption|]. split; [reflexivity|]. cbn [st_db set_db].
  refine (track_trans _ _ _ _ _ _ P (track_trans _ _ _ _ _ _ P2 (post_trans _ _ _ _ _ P4 _))).
  exact (track_trans _ _ _ _ _ _ P5 (track_trans _ _ _ _ _ _ P6 P7)).
Qed.

(* ---- leaves ---- *)
Lemma add_constants_ok : forall nm parent l d d', inv d -> add_constants nm parent l d = Ok d' -> track (map (constant nm parent) l) d d'.
Proof.
  induction l as [|[c v] l IH]; intros d d' Hi H; cbn [add_constants] in H.
  - assert (d' = d) as -> by congruence. apply post_refl. exact Hi.
  - apply obind_ok in H. destruct H as [[n d1] [H1 H]]. cbn [fst snd] in H.
    apply obind_ok in H. destruct H as [[p d2] [H2 H]]. cbn [fst snd] in H. destruct (named_ok _ _ _ _ _ _ _ Hi H1 H2) as [-> [-> P]].
    apply obind_ok in H. destruct H as [m [H3 H]]. apply db_add_ok in H3. destruct H3 as [-> _].
    pose proof (track_note Es (constant nm parent (c, v)) d2 I (track_inv _ _ _ _ P)) as P2.
    exact (post_trans _ _ _ _ _ P (track_trans _ _ _ _ _ _ P2 (IH _ _ (track_inv _ _ _ _ P2) H))).
Qed.
Lemma first_prim_ok : forall T (m : zmap T) nm r, first_prim m nm = Ok r -> r = m_find (thash nm) m.
Proof. intros T m nm r H. unfold first_prim in H. apply obind_ok in H. destruct H as [h [H1 H]]. apply hash_thash in H1. congruence. Qed.
Lemma insert_new_known : forall T n (v w : T) m, m_find (n_hash n) m = Some w -> insert_new n v m = m.
Proof. intros T n v w m H. unfold insert_new, known. rewrite H. reflexivity. Qed.
Lemma insert_new_none : forall T n (v : T) m, m_find (n_hash n) m = None -> insert_new n v m = insert_named n v m.
Proof. intros T n v m H. unfold insert_new, known. rewrite H. reflexivity. Qed.
Lemma set_templates_same : forall d, set_templates (m_templates d) d = d. Proof. intros []; reflexivity. Qed.
Lemma set_namespaces_same : forall d, set_namespaces (m_namespaces d) d = d. Proof. intros []; reflexivity. Qed.
Lemma set_classes_same : forall d, set_classes (m_classes d) d = d. Proof. intros []; reflexivity. Qed.
Lemma post_blank : forall d d', post d d' -> blank d' = blank d.
Proof. intros d d' [_ [H _]]. exact H. Qed.
Lemma blank_templates : forall d d', blank d' = blank d -> m_templates d' = m_templates d.
Proof. intros d d' H. exact (f_equal m_templates H). Qed.
Lemma blank_namespaces : forall d d', blank d' = blank d -> m_namespaces d' = m_namespaces d.
Proof. intros d d' H. exact (f_equal m_namespaces H). Qed.
Lemma blank_classes : forall d d', blank d' = blank d -> m_classes d' = m_classes d.
Proof. intros d d' H. exact (f_equal m_classes H). Qed.
Lemma add_leaf_ok : forall fuel k nm parent layout s s', inv (st_db s) -> add_leaf fuel E k nm parent layout s = Ok s' ->
  exists evs, leaf_events E nm parent layout k evs /\ keeps evs s s'.
Proof.
  intros fuel k nm parent layout s s' Hi H. destruct k as [scoped consts|f|op inst this f|anon n bits q|k fwd|]; cbn [add_leaf] in H.
  - unfold AddEnumDecl in H. apply obind_ok in H. destruct H as [[n d1] [H1 H]]. cbn [fst snd] in H.
    apply obind_ok in H. destruct H as [[p d2] [H2 H]]. cbn [fst snd] in H. destruct (named_ok _ _ _ _ _ _ _ Hi H1 H2) as [-> [-> P]].
    apply obind_ok in H. destruct H as [m [H3 H]]. apply db_add_ok in H3. destruct H3 as [-> _].
    apply obind_ok in H. destruct H as [d4 [H4 H]]. injection H as <-.
    pose proof (track_note Es (Enum_ (mk_enum (prim_of nm parent) 4 scoped)) d2 I (track_inv _ _ _ _ P)) as P2.
    eexists. split; [constructor|]. split; [reflexivity|]. cbn [st_db set_db].
    exact (post_trans _ _ _ _ _ P (track_trans _ _ _ _ _ _ P2 (add_constants_ok _ _ _ _ _ (track_inv _ _ _ _ P2) H4))).
  - destruct (MakeFunction_ok _ _ _ _ _ _ _ Hi H) as [evs [H1 H2]]. exists evs. split; [constructor; exact H1|exact H2].
  - unfold AddMethodDecl in H. destruct op.
    { injection H as <-. exists []. split; [constructor|]. split; [reflexivity|apply post_refl; exact Hi]. }
    destruct inst.
    + apply obind_ok in H. destruct H as [[t d1] [H1 H]]. cbn [fst snd] in H. pose proof (MakeField_ok _ _ _ _ _ _ _ _ Hi H1) as Q.
      destruct t as [t|b].
      * destruct Q as [ev [Q P]]. destruct (MakeFunction_ok _ _ _ _ _ _ _ (track_inv _ _ _ _ P : inv (st_db (set_db d1 s))) H) as [evs [G1 [G2 G3]]].
        exists (ev ++ evs). split; [econstructor; eassumption|]. split; [exact G2|exact (track_trans _ _ _ _ _ _ P G3)].
      * destruct Q as [Q P]. injection H as <-. exists []. split; [apply le_bad_this; exact Q|]. apply print_bad_keeps. exact P.
    + destruct (MakeFunction_ok _ _ _ _ _ _ _ Hi H) as [evs [H1 H2]]. exists evs. split; [apply le_static; exact H1|exact H2].
  - unfold AddFieldDecl in H. destruct anon.
    { injection H as <-. exists []. split; [constructor|]. split; [reflexivity|apply post_refl; exact Hi]. }
    destruct layout; cbn [negb] in H; [|discriminate H].
    apply obind_ok in H. destruct H as [[x d1] [H1 H]]. cbn [fst snd] in H. pose proof (MakeField_ok _ _ _ _ _ _ _ _ Hi H1) as Q.
    destruct x as [f|b].
    + destruct Q as [ev [Q P]]. apply obind_ok in H. destruct H as [d2 [H2 H]]. injection H as <-.
      exists (ev ++ [Field_ f]). split; [apply le_field; [reflexivity|exact Q]|]. split; [reflexivity|].
      exact (track_trans _ _ _ _ _ _ P (add_field_ok _ _ _ (track_inv _ _ _ _ P) H2)).
    + destruct Q as [Q P]. injection H as <-. exists []. split; [apply le_bad_field; exact Q|]. apply print_bad_keeps. exact P.
  - unfold AddClassTemplateDecl in H. apply obind_ok in H. destruct H as [found [H1 H]]. apply first_prim_ok in H1.
    assert (Hk : m_find (n_hash (name_of nm)) (m_templates (st_db s)) = found) by (rewrite name_of_hash; congruence).
    destruct found as [w|].
    + injection H as <-. destruct (Z.le_gt_cases k 4) as [Hle|Hgt].
      * exists [Template_ (prim_of nm parent)]. split; [constructor; exact Hle|]. split; [reflexivity|].
        pose proof (track_note Es (Template_ (prim_of nm parent)) (st_db s) I Hi) as P. cbn [note] in P.
        rewrite (insert_new_known _ _ _ _ _ Hk), set_templates_same in P. exact P.
      * exists []. split; [apply le_big_template; exact Hgt|]. split; [reflexivity|apply post_refl; exact Hi].
    + unfold MAX_NB_ARGS in H. destruct (Z.ltb_spec 4 k) as [Hgt|Hle].
      * injection H as <-. exists []. split; [apply le_big_template; exact Hgt|]. split; [reflexivity|apply post_refl; exact Hi].
      * apply obind_ok in H. destruct H as [[n d1] [H2 H]]. cbn [fst snd] in H.
        apply obind_ok in H. destruct H as [[p d2] [H3 H]]. cbn [fst snd] in H. destruct (named_ok _ _ _ _ _ _ _ Hi H2 H3) as [-> [-> P]].
        apply obind_ok in H. destruct H as [m [H4 H]]. apply db_add_ok in H4. destruct H4 as [-> _]. injection H as <-.
        exists [Template_ (prim_of nm parent)]. split; [constructor; exact Hle|]. split; [reflexivity|]. cbn [st_db set_db].
        pose proof (track_note Es (Template_ (prim_of nm parent)) d2 I (track_inv _ _ _ _ P)) as P2. cbn [note] in P2.
        rewrite <- (blank_templates _ _ (post_blank _ _ P)) in Hk. rewrite (insert_new_none _ _ _ _ Hk) in P2. exact (post_trans _ _ _ _ _ P P2).
  - injection H as <-. exists []. split; [constructor|]. split; [reflexivity|apply post_refl; exact Hi].
Qed.
Lemma AddNamespaceDecl_ok : forall nm parent s s', inv (st_db s) -> AddNamespaceDecl nm parent s = Ok s' ->
  keeps [Namespace_ (prim_of nm parent)] s s'.
Proof.
  intros nm parent s s' Hi H. unfold AddNamespaceDecl in H. apply obind_ok in H. destruct H as [found [H1 H]]. apply first_prim_ok in H1.
  assert (Hk : m_find (n_hash (name_of nm)) (m_namespaces (st_db s)) = found) by (rewrite name_of_hash; congruence).
  destruct found as [w|].
  - injection H as <-. split; [reflexivity|].
    pose proof (track_note Es (Namespace_ (prim_of nm parent)) (st_db s) I Hi) as P. cbn [note p_name prim_of] in P.
    rewrite (insert_new_known _ _ _ _ _ Hk), set_namespaces_same in P. exact P.
  - apply obind_ok in H. destruct H as [[n d1] [H2 H]]. cbn [fst snd] in H.
    apply obind_ok in H. destruct H as [[p d2] [H3 H]]. cbn [fst snd] in H. destruct (named_ok _ _ _ _ _ _ _ Hi H2 H3) as [-> [-> P]].
    apply obind_ok in H. destruct H as [m [H4 H]]. apply db_add_ok in H4. destruct H4 as [-> _]. injection H as <-.
    split; [reflexivity|]. cbn [st_db set_db].
    pose proof (track_note Es (Namespace_ (prim_of nm parent)) d2 I (track_inv _ _ _ _ P)) as P2. cbn [note] in P2.
    rewrite <- (blank_namespaces _ _ (post_blank _ _ P)) in Hk. rewrite (insert_new_none _ _ _ _ Hk) in P2. exact (post_trans _ _ _ _ _ P P2).
Qed.

(* ---- classes ---- *)
Lemma track_twice : forall ev d d', track [ev; ev] d d' -> note ev (note ev (blank d)) = note ev (blank d) -> track [ev] d d'.
Proof.
  intros ev d d' [H1 [H2 [H3 [H4 [H5 H6]]]]] Hn. split; [exact H1|]. split; [rewrite H2; exact Hn|]. split; [exact H3|]. split; [|split].
  - intros e He. destruct (H4 _ He) as [He'|[b [dv [E1 [E2|E2]]]]]; [auto|right; exists b, dv; auto|]. right. exists b, dv. split; [exact E1|]. right.
    destruct E2 as [E2|E2]; [left; exact E2|exact E2].
  - intros b n [Hin|[]]. apply H5. left. exact Hin.
  - intros n [Hin|[]]. apply H6. left. exact Hin.
Qed.
Lemma class_bases_ok : forall fuel l db nm r db', inv db -> class_bases fuel E db (name_of nm) l = Ok (r, db') ->
  exists evs, derives E nm l (match r with Good _ => true | Bad _ => false end) evs /\ track evs db db'.
Proof.
  induction l as [|b l IH]; intros db nm r db' Hi H; cbn [class_bases] in H.
  - assert (r = Good tt /\ db' = db) as [-> ->] by (split; congruence). exists []. split; [constructor|apply post_refl; exact Hi].
  - apply obind_ok in H. destruct H as [[x d1] [H1 H]]. cbn [fst snd] in H.
    pose proof (ParseBaseClass_ok Es E _ (parse_cts_ok Es Hcoh E HE fuel) _ _ _ _ _ Hi H1) as Q. destruct x as [n|s].
    + destruct Q as [n0 [-> [Q1 [Q2 P1]]]]. apply obind_ok in H. destruct H as [z [H2 H]].
      destruct (inherit_ok Es _ _ _ _ (track_inv _ _ _ _ P1) H2) as [P2 E2].
      destruct (IH _ _ _ _ (track_inv _ _ _ _ P2) H) as [evs [R P3]].
      destruct (based_used _ _ Q1) as [us Hus].
      exists (us ++ Derived_ nm n0 :: evs). split; [econstructor; eassumption|].
      change (us ++ Derived_ nm n0 :: evs) with (us ++ ([Derived_ nm n0] ++ evs)). 
      eapply track_used; [exact Hus| |].
      * intros k u Hk Hu. eapply grow_instance; [exact P3|]. eapply grow_instance; [exact P2|]. eapply Q2; eassumption.
      * eapply track_trans; [|exact P3]. apply track_twice; [|reflexivity]. exact (track_trans _ _ _ _ _ _ P1 P2).
    + destruct Q as [P Q]. assert (r = Bad s /\ db' = d1) as [-> ->] by (split; congruence). exists []. split; [constructor; exact Q|exact P].
Qed.
Lemma AddClassDecl_ok : forall sf asked fuel h r parent s s1 o, inv (st_db s) -> AddClassDecl fuel E r (h_name h) parent s = Ok (s1, o) ->
  exists evs0, keeps evs0 s s1 /\
  match o with
  | None => forall allow layout l, inside sf E asked allow parent layout (D_record h r l) evs0
  | Some scope => forall allow layout l evs, walks sf E asked allow scope true l evs ->
      inside sf E asked allow parent layout (D_record h r l) (evs0 ++ evs)
  end.
Proof.
  intros sf asked fuel h r parent s s1 o Hi H. unfold AddClassDecl in H.
  destruct (r_def r) eqn:Ed; cbn [negb andb] in H.
  - destruct (r_vbases r) eqn:Ev.
    { assert (s1 = warn (h_name h) s /\ o = None) as [-> ->] by (split; congruence). exists []. split; [split; [reflexivity|apply post_refl; exact Hi]|].
      intros. apply in_virtual; assumption. }
    apply obind_ok in H. destruct H as [[n d1] [H1 H]]. cbn [fst snd] in H. destruct (post_db_name Es _ _ _ _ Hi H1) as [-> [P1 _]].
    apply obind_ok in H. destruct H as [[b d2] [H2 H]]. cbn [fst snd] in H.
    destruct (class_bases_ok _ _ _ _ _ _ (track_inv _ _ _ _ P1) H2) as [bs [R T2]]. pose proof (post_trans _ _ _ _ _ P1 T2) as T12.
    destruct b as [[]|sl].
    2:{ assert (s1 = print_bad sl (h_name h) (set_db d2 s) /\ o = None) as [-> ->] by (split; congruence). exists bs.
        split; [apply print_bad_keeps; exact T12|]. intros. eapply in_bad_bases; eassumption. }
    destruct (r_anon r) eqn:Ea.
    { assert (s1 = set_db d2 s /\ o = Some parent) as [-> ->] by (split; congruence). exists bs. split; [split; [reflexivity|exact T12]|].
      intros. eapply in_anonymous; eassumption. }
    apply obind_ok in H. destruct H as [found [H3 H]]. apply first_prim_ok in H3.
    apply obind_ok in H. destruct H as [d3 [H4 H]].
    assert (D3 : exists d0, post d2 d0 /\ d3 = set_classes (insert_new (name_of (h_name h))
       (mk_class (prim_of (h_name h) parent) FORWARD_DECL_SIZE (r_class r)) (m_classes d0)) d0).
    { assert (Hk : m_find (n_hash (name_of (h_name h))) (m_classes d2) = found) by (rewrite name_of_hash; congruence).
      destruct found as [w|].
      - exists d2. split; [apply post_refl; exact (track_inv _ _ _ _ T2)|]. rewrite (insert_new_known _ _ _ _ _ Hk), set_classes_same. congruence.
      - apply obind_ok in H4. destruct H4 as [[n d5] [H5 H4]]. cbn [fst snd] in H4.
        apply obind_ok in H4. destruct H4 as [[p d6] [H6 H4]]. cbn [fst snd] in H4.
        destruct (named_ok _ _ _ _ _ _ _ (track_inv _ _ _ _ T2) H5 H6) as [-> [-> P]].
        apply obind_ok in H4. destruct H4 as [m [H7 H4]]. apply db_add_ok in H7. destruct H7 as [-> _].
        exists d6. split; [exact P|]. rewrite <- (blank_classes _ _ (post_blank _ _ P)) in Hk. rewrite (insert_new_none _ _ _ _ Hk). unfold prim_of. congruence. }
    destruct D3 as [d0 [P0 ->]]. apply obind_ok in H. destruct H as [hh [H5 H]]. apply hash_thash in H5. subst hh.
    cbn [m_classes set_classes] in H.
    set (m0 := insert_new (name_of (h_name h)) (mk_class (prim_of (h_name h) parent) FORWARD_DECL_SIZE (r_class r)) (m_classes d0)) in *.
    destruct (m_find (thash (h_name h)) m0) as [c|] eqn:Ec; [|discriminate H].
    set (ev := Class_ (prim_of (h_name h) parent) (r_class r) (Some (u32 (r_size r)))).
    assert (En : note ev d0 = set_classes (m_update (thash (h_name h)) (mk_class (c_prim c) (u32 (r_size r)) (c_is_class c)) m0) (set_classes m0 d0)).
    { cbn [note ev p_name prim_of]. fold m0. unfold sized_class. rewrite name_of_hash, Ec. reflexivity. }
    rewrite <- En in H. assert (s1 = set_db (note ev d0) s /\ o = Some (h_name h)) as [-> ->] by (split; congruence).
    exists (bs ++ [ev]). split.
    + split; [reflexivity|]. cbn [st_db set_db]. refine (track_trans _ _ _ _ _ _ T12 (post_trans _ _ _ _ _ P0 _)).
      apply track_note; [exact I|exact (track_inv _ _ _ _ P0)].
    + intros allow layout l evs Hw. rewrite <- app_assoc. eapply in_class; eassumption.
  - destruct (r_free r) eqn:Ef; cbn [negb] in H.
    2:{ assert (s1 = s /\ o = None) as [-> ->] by (split; congruence). exists []. split; [split; [reflexivity|apply post_refl; exact Hi]|].
        intros. apply in_repeated; assumption. }
    apply obind_ok in H. destruct H as [[n d1] [H1 H]]. cbn [fst snd] in H. destruct (post_db_name Es _ _ _ _ Hi H1) as [-> [P1 _]].
    cbn [obind fst snd] in H.
    destruct (r_anon r) eqn:Ea.
    { assert (s1 = set_db d1 s /\ o = Some parent) as [-> ->] by (split; congruence). exists []. split; [split; [reflexivity|exact P1]|].
      intros. eapply in_forward_anonymous; eassumption. }
    apply obind_ok in H. destruct H as [found [H3 H]]. apply first_prim_ok in H3.
    apply obind_ok in H. destruct H as [d3 [H4 H]].
    assert (D3 : exists d0, post d1 d0 /\ d3 = set_classes (insert_new (name_of (h_name h))
       (mk_class (prim_of (h_name h) parent) FORWARD_DECL_SIZE (r_class r)) (m_classes d0)) d0).
    { assert (Hk : m_find (n_hash (name_of (h_name h))) (m_classes d1) = found) by (rewrite name_of_hash; congruence).
      destruct found as [w|].
      - exists d1. split; [apply post_refl; exact (track_inv _ _ _ _ P1)|]. rewrite (insert_new_known _ _ _ _ _ Hk), set_classes_same. congruence.
      - apply obind_ok in H4. destruct H4 as [[n d5] [H5 H4]]. cbn [fst snd] in H4.
        apply obind_ok in H4. destruct H4 as [[p d6] [H6 H4]]. cbn [fst snd] in H4.
        destruct (named_ok _ _ _ _ _ _ _ (track_inv _ _ _ _ P1) H5 H6) as [-> [-> P]].
        apply obind_ok in H4. destruct H4 as [m [H7 H4]]. apply db_add_ok in H7. destruct H7 as [-> _].
        exists d6. split; [exact P|]. rewrite <- (blank_classes _ _ (post_blank _ _ P)) in Hk. rewrite (insert_new_none _ _ _ _ Hk). unfold prim_of. congruence. }
    destruct D3 as [d0 [P0 ->]].
    set (ev := Class_ (prim_of (h_name h) parent) (r_class r) None).
    match type of H with Ok (set_db ?x s, None) = _ => change x with (note ev d0) in H end.
    assert (s1 = set_db (note ev d0) s /\ o = None) as [-> ->] by (split; congruence). exists [ev]. split.
    + split; [reflexivity|]. cbn [st_db set_db]. refine (post_trans _ _ _ _ _ P1 (post_trans _ _ _ _ _ P0 _)).
      apply track_note; [exact I|exact (track_inv _ _ _ _ P0)].
    + intros. apply in_forward; assumption.
Qed.

(* ---- the walk ---- *)
Section Walk.
Variables (fuel : nat) (sf : list Z -> Z) (sp : specs) (asked : list (list Z)).
Hypothesis Hsp : gathered asked sp.
Notation AddDecl := (AddDecl fuel sf E sp).
Fixpoint contained (l : list decl) (scope : list Z) (layout : bool) (s : st) {struct l} : outcome st :=
  match l with
  | [] => Ok s
  | c :: r => do s' <- AddDecl c scope layout s; contained r scope layout s'
  end.
Definition run (d : decl) (h : hdr) (s : st) (body : st -> outcome st) : outcome st :=
  if h_invalid h then Ok s else
  do x <- ParseDeclAttributes sf sp d h (st_allow s) (st_db s);
  let s1 := set_db (snd x) s in
  match fst x with
  | PAR_NoReflect => Ok s1
  | PAR_Reflect => do s2 <- body (set_allow true s1); Ok (set_allow (st_allow s) s2)
  | PAR_ReflectPartial => body s1
  | PAR_Normal => if st_allow s1 then body s1 else Ok s1
  end.
Lemma AddDecl_eq : forall d parent layout s, AddDecl d parent layout s =
  match d with
  | D_namespace h l => run d h s (fun s => do s' <- AddNamespaceDecl (h_name h) parent s; contained l (h_name h) false s')
  | D_record h r l => run d h s (fun s =>
      do x <- AddClassDecl fuel E r (h_name h) parent s;
      match snd x with None => Ok (fst x) | Some scope => contained l scope true (fst x) end)
  | D_leaf h k => run d h s (add_leaf fuel E k (h_name h) parent layout)
  | D_unnamed => Ok s
  end.
Proof.
  intros d parent layout s. destruct d; reflexivity.
Qed.
Definition walk_ok (d : decl) : Prop := forall parent layout s s', inv (st_db s) -> AddDecl d parent layout s = Ok s' ->
  exists evs, walk sf E asked (st_allow s) parent layout d evs /\ keeps evs s s'.
Lemma keeps_inv : forall evs s s', keeps evs s s' -> inv (st_db s').
Proof. intros evs s s' [_ H]. exact (track_inv _ _ _ _ H). Qed.
Lemma keeps_trans : forall e1 e2 a b c, keeps e1 a b -> keeps e2 b c -> keeps (e1 ++ e2) a c.
Proof. intros e1 e2 a b c [H1 H2] [G1 G2]. split; [congruence|exact (track_trans _ _ _ _ _ _ H2 G2)]. Qed.
Lemma contained_ok : forall l, Forall walk_ok l -> forall scope layout s s', inv (st_db s) -> contained l scope layout s = Ok s' ->
  exists evs, walks sf E asked (st_allow s) scope layout l evs /\ keeps evs s s'.
Proof.
  intros l Hl. induction Hl as [|d l Hd Hl IH]; intros scope layout s s' Hi H; cbn [contained] in H.
  - injection H as <-. exists []. split; [constructor|]. split; [reflexivity|apply post_refl; exact Hi].
  - apply obind_ok in H. destruct H as [s1 [H1 H]]. destruct (Hd _ _ _ _ Hi H1) as [ev [W1 K1]].
    destruct (IH _ _ _ _ (keeps_inv _ _ _ K1) H) as [evs [W2 K2]]. rewrite (proj1 K1) in W2. exists (ev ++ evs).
    split; [constructor; assumption|exact (keeps_trans _ _ _ _ _ K1 K2)].
Qed.
Lemma run_ok : forall d h parent layout body s s', header d = Some h -> inv (st_db s) -> run d h s body = Ok s' ->
  (forall s1 s2, inv (st_db s1) -> body s1 = Ok s2 -> exists evs, inside sf E asked (st_allow s1) parent layout d evs /\ keeps evs s1 s2) ->
  exists evs, walk sf E asked (st_allow s) parent layout d evs /\ keeps evs s s'.
Proof.
  intros d h parent layout body s s' Hh Hi H Hb. unfold run in H. destruct (h_invalid h) eqn:Ei.
  { injection H as <-. exists []. split; [eapply wk_invalid; eassumption|]. split; [reflexivity|apply post_refl; exact Hi]. }
  apply obind_ok in H. destruct H as [[r d1] [H1 H]]. cbn [fst snd] in H.
  destruct (ParseDeclAttributes_ok Es _ _ _ Hsp _ _ _ _ _ _ Hi H1) as [l [A1 [A2 T]]].
  pose proof (track_inv _ _ _ _ T) as Hi1.
  assert (Hleft : selects (st_allow s) (mark_of r) = false -> s' = set_db d1 s ->
    exists evs, walk sf E asked (st_allow s) parent layout d evs /\ keeps evs s s').
  { intros Hs ->. eexists. split; [eapply wk_left; try eassumption; [reflexivity|rewrite <- A2; exact Hs]|]. split; [reflexivity|exact T]. }
  assert (Htaken : forall s1 s2, selects (st_allow s) (mark_of r) = true -> st_allow s1 = passes_on (st_allow s) (mark_of r) -> st_db s1 = d1 ->
    body s1 = Ok s2 -> st_db s' = st_db s2 -> st_allow s' = st_allow s -> exists evs, walk sf E asked (st_allow s) parent layout d evs /\ keeps evs s s').
  { intros s1 s2 Hs Ha Hd H2 E1 E2. assert (Hi' : inv (st_db s1)) by (rewrite Hd; exact Hi1). destruct (Hb _ _ Hi' H2) as [evs [I1 [I2 I3]]].
    rewrite Ha, A2 in I1. rewrite Hd in I3. eexists. split; [eapply wk_taken; try eassumption; [reflexivity|rewrite <- A2; exact Hs]|].
    split; [exact E2|]. rewrite E1. exact (track_trans _ _ _ _ _ _ T I3). }
  destruct r.
  - cbn [st_allow set_db] in H.
    assert (D : (st_allow s = true /\ body (set_db d1 s) = Ok s') \/ (st_allow s = false /\ s' = set_db d1 s)).
    { clear - H. destruct (st_allow s); [left; auto|right; split; [reflexivity|congruence]]. }
    destruct D as [[Ea H']|[Ea H']].
    + eapply (Htaken (set_db d1 s) s'); try reflexivity; try assumption.
      destruct (Hb (set_db d1 s) s' Hi1 H') as [evs [_ [K _]]]. exact K.
    + apply Hleft; [exact Ea|exact H'].
  - apply obind_ok in H. destruct H as [s2 [H2 H]]. injection H as <-. eapply (Htaken (set_allow true (set_db d1 s)) s2); try reflexivity. exact H2.
  - eapply (Htaken (set_db d1 s) s'); try reflexivity; try assumption. destruct (Hb (set_db d1 s) s' Hi1 H) as [evs [_ [K _]]]. exact K.
  - apply Hleft; [reflexivity|congruence].
Qed.
Lemma AddDecl_ok : forall d, walk_ok d.
Proof.
  apply decl_ind2.
  - intros h l Hl parent layout s s' Hi H. rewrite AddDecl_eq in H. eapply run_ok; [reflexivity|exact Hi|exact H|].
    intros s1 s2 Hi1 H2. apply obind_ok in H2. destruct H2 as [s3 [H3 H2]]. pose proof (AddNamespaceDecl_ok _ _ _ _ Hi1 H3) as K1.
    destruct (contained_ok _ Hl _ _ _ _ (keeps_inv _ _ _ K1) H2) as [evs [W K2]]. rewrite (proj1 K1) in W.
    eexists. split; [constructor; exact W|exact (keeps_trans _ _ _ _ _ K1 K2)].
  - intros h r l Hl parent layout s s' Hi H. rewrite AddDecl_eq in H. eapply run_ok; [reflexivity|exact Hi|exact H|].
    intros s1 s2 Hi1 H2. apply obind_ok in H2. destruct H2 as [[s3 o] [H3 H2]]. cbn [fst snd] in H2.
    destruct (AddClassDecl_ok sf asked _ _ _ _ _ _ _ Hi1 H3) as [evs0 [K1 Q]]. destruct o as [scope|].
    + destruct (contained_ok _ Hl _ _ _ _ (keeps_inv _ _ _ K1) H2) as [evs [W K2]]. rewrite (proj1 K1) in W.
      eexists. split; [apply Q; exact W|exact (keeps_trans _ _ _ _ _ K1 K2)].
    + injection H2 as <-. exists evs0. split; [apply Q|exact K1].
  - intros h k parent layout s s' Hi H. rewrite AddDecl_eq in H. eapply run_ok; [reflexivity|exact Hi|exact H|].
    intros s1 s2 Hi1 H2. destruct (add_leaf_ok _ _ _ _ _ _ _ Hi1 H2) as [evs [L K]]. exists evs. split; [constructor; exact L|exact K].
  - intros parent layout s s' Hi H. rewrite AddDecl_eq in H. injection H as <-. exists []. split; [constructor|].
    split; [reflexivity|apply post_refl; exact Hi].
Qed.
Lemma walk_tu_ok : forall l s s', inv (st_db s) -> walk_tu fuel sf E sp (map (fun d => fst (GetReflectionSpec d)) l) s = Ok s' ->
  exists evs, walks sf E asked (st_allow s) [] false (filter looked_at l) evs /\ keeps evs s s'.
Proof.
  induction l as [|d l IH]; intros s s' Hi H; cbn [walk_tu filter map] in *.
  - injection H as <-. exists []. split; [constructor|]. split; [reflexivity|apply post_refl; exact Hi].
  - apply obind_ok in H. destruct H as [s1 [H1 H]].
    assert (D : (looked_at d = true /\ AddDecl d [] false s = Ok s1) \/ (looked_at d = false /\ s1 = s)).
    { unfold GetReflectionSpec in H1. destruct (is_internal d) eqn:Ei; cbn [fst] in H1.
      - right. destruct d as [h0 l0| | |]; try discriminate Ei. cbn [is_internal] in Ei. cbn [looked_at]. rewrite Ei. split; [reflexivity|].
        cbn [set_invalid top_level] in H1. rewrite AddDecl_eq in H1. unfold run in H1. cbn [h_invalid] in H1. congruence.
      - destruct d as [h0 l0|h0 r0 l0|h0 k0|]; cbn [top_level looked_at is_internal] in *.
        + left. rewrite Ei. auto.
        + left. auto.
        + destruct k0; cbn in H1 |- *; ((left; split; [reflexivity|exact H1]) || (right; split; [reflexivity|congruence])).
        + right. split; [reflexivity|congruence]. }
    destruct D as [[D1 D2]|[D1 ->]]; rewrite D1.
    + destruct (AddDecl_ok _ _ _ _ _ Hi D2) as [ev [W1 K1]]. destruct (IH _ _ (keeps_inv _ _ _ K1) H) as [evs [W2 K2]]. rewrite (proj1 K1) in W2.
      exists (ev ++ evs). split; [constructor; assumption|exact (keeps_trans _ _ _ _ _ K1 K2)].
    + apply IH; assumption.
Qed.
End Walk.
End Unit.
