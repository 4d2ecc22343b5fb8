From Verif Require Import Base BaseProofs Text HashModel Maps FileUtilsModel FileUtilsSpec DatabaseModel TextDbModel AttrModel ScanModel ScanSpec ScanTypeProofs ScanParseProofs.
Local Open Scope string_scope.
Local Open Scope list_scope.
Local Open Scope Z_scope.

(* the attributes of an annotation do not depend on the names already there *)
Definition within (m0 m : zmap name) : Prop := nwf m0 /\ nwf m /\ forall h n, m_find h m0 = Some n -> m_find h m = Some n.
Lemma GetName_within : forall m0 m t n m', within m0 m -> GetName m (Some t) = Ok (n, m') ->
  exists m0', GetName m0 (Some t) = Ok (n, m0') /\ within m0' m'.
Proof.
  intros m0 m t n m' [H0 [H1 H2]] H. pose proof (GetName_spec _ _ _ _ H1 H) as [Hn Hm'].
  assert (G : exists n0 m0', GetName m0 (Some t) = Ok (n0, m0') /\ (forall h x, m_find h m0' = Some x -> m_find h m' = Some x)).
  { unfold GetName in *. destruct (HashNameString (t ++ [0]) 0) as [h| | |] eqn:Eh; cbn [obind] in *; try discriminate H.
    destruct (h =? 0) eqn:Ez; [assert (m' = m) as -> by congruence; eauto|].
    destruct (m_find h m0) as [x|] eqn:E0.
    - rewrite (H2 _ _ E0) in H. destruct (list_eqb (n_text x) t); cbn [assert obind] in *; [|discriminate H].
      assert (m' = m) as -> by congruence. eauto.
    - exists (mk_name h t), (m_set h (mk_name h t) m0). split; [reflexivity|]. intros h' x Hx.
      rewrite m_find_set in Hx by exact (proj1 H0).
      destruct (m_find h m) as [y|] eqn:E1.
      + destruct (list_eqb (n_text y) t) eqn:El; cbn [assert obind] in H; [|discriminate H]. assert (m' = m) as -> by congruence.
        destruct (Z.eqb_spec h h') as [<-|Hne]; [|apply H2; exact Hx]. rewrite E1. apply list_eqb_eq in El.
        destruct (proj2 H1 _ _ E1) as [Hy _]. rewrite El in Hy. congruence.
      + assert (m' = m_set h (mk_name h t) m) as -> by congruence. rewrite m_find_set by exact (proj1 H1).
        destruct (h =? h'); [exact Hx|apply H2; exact Hx]. }
  destruct G as [n0 [m0' [G1 G2]]]. pose proof (GetName_spec _ _ _ _ H0 G1) as [Hn0 Hm0]. exists m0'.
  split; [congruence|]. split; [exact Hm0|]. split; assumption.
Qed.
Lemma AddAttribute_within : forall sf m0 m a v r, within m0 m -> AddAttribute sf m a v = Ok r ->
  match r with
  | None => AddAttribute sf m0 a v = Ok None
  | Some (x, m') => exists m0', AddAttribute sf m0 a v = Ok (Some (x, m0')) /\ within m0' m'
  end.
Proof.
  intros sf m0 m a v r Hw H. unfold AddAttribute in *.
  assert (K : forall (g : name -> attr) r, (do n <- GetName m (Some (GetText a)); Ok (Some (g (fst n), snd n))) = Ok r ->
    match r with None => (do n <- GetName m0 (Some (GetText a)); Ok (Some (g (fst n), snd n))) = Ok None
    | Some (x, m') => exists m0', (do n <- GetName m0 (Some (GetText a)); Ok (Some (g (fst n), snd n))) = Ok (Some (x, m0')) /\ within m0' m' end).
  { intros g r0 H0. apply obind_ok in H0. destruct H0 as [[n m1] [H1 H2]]. cbn [fst snd] in H2.
    destruct (GetName_within _ _ _ _ _ Hw H1) as [m0' [G1 G2]]. assert (r0 = Some (g n, m1)) as -> by congruence.
    exists m0'. rewrite G1. split; [reflexivity|exact G2]. }
  destruct v as [t|]; [|apply (K FlagAttr); exact H].
  destruct (tk_type t); try (injection H as <-; reflexivity).
  - destruct (atoi (GetText t)) as [v| | |]; cbn [obind] in *; try discriminate H. apply (K (fun n => IntAttr n v)). exact H.
  - destruct (hex_value (GetText t)) as [v| | |]; cbn [obind] in *; try discriminate H. apply (K (fun n => IntAttr n v)). exact H.
  - apply (K (fun n => FloatAttr n (sf (GetText t)))). exact H.
  - apply obind_ok in H. destruct H as [[n m1] [H1 H]]. cbn [fst snd] in H. apply obind_ok in H. destruct H as [[w m2] [H2 H]]. cbn [fst snd] in H.
    destruct (GetName_within _ _ _ _ _ Hw H1) as [m01 [G1 G2]]. destruct (GetName_within _ _ _ _ _ G2 H2) as [m02 [G3 G4]].
    assert (r = Some (PrimAttr n w, m2)) as -> by congruence. exists m02. rewrite G1. cbn [obind fst snd]. rewrite G3. split; [reflexivity|exact G4].
  - apply (K (fun n => TextAttr n (GetText t))). exact H.
Qed.
Lemma AttributeDef_within : forall sf m0 m tk pos r, within m0 m -> AttributeDef sf m tk pos = Ok r ->
  match r with
  | None => AttributeDef sf m0 tk pos = Ok None
  | Some (x, m', p) => exists m0', AttributeDef sf m0 tk pos = Ok (Some (x, m0', p)) /\ within m0' m'
  end.
Proof.
  intros sf m0 m tk pos r Hw H. unfold AttributeDef in *.
  destruct (ExpectNext tk pos TOKEN_SYMBOL) as [[o p]| | |]; cbn [obind fst snd] in *; try discriminate H.
  destruct o as [an|]; [|injection H as <-; reflexivity].
  destruct (CheckNext tk p TOKEN_EQUALS) as [[o2 p2]| | |]; cbn [obind fst snd] in *; try discriminate H.
  destruct o2 as [eq|].
  - destruct (zlen tk <=? p2); [injection H as <-; reflexivity|].
    destruct (rd tk p2) as [v| | |]; cbn [obind] in *; try discriminate H.
    apply obind_ok in H. destruct H as [a [H1 H]]. apply (AddAttribute_within _ _ _ _ _ _ Hw) in H1. destruct a as [[x m']|].
    + destruct H1 as [m0' [G1 G2]]. rewrite G1. cbn [obind]. assert (r = Some (x, m', p2 + 1)) as -> by congruence. eauto.
    + rewrite H1. cbn [obind]. assert (r = None) as -> by congruence. reflexivity.
  - apply obind_ok in H. destruct H as [a [H1 H]]. apply (AddAttribute_within _ _ _ _ _ _ Hw) in H1. destruct a as [[x m']|].
    + destruct H1 as [m0' [G1 G2]]. rewrite G1. cbn [obind]. assert (r = Some (x, m', p2)) as -> by congruence. eauto.
    + rewrite H1. cbn [obind]. assert (r = None) as -> by congruence. reflexivity.
Qed.
Lemma parser_loop_within : forall fuel sf m0 m tk pos l m', within m0 m -> parser_loop fuel sf m tk pos = Ok (l, m') ->
  exists m0', parser_loop fuel sf m0 tk pos = Ok (l, m0') /\ within m0' m'.
Proof.
  induction fuel as [|fuel IH]; intros sf m0 m tk pos l m' Hw H; cbn [parser_loop] in *; [discriminate H|].
  apply obind_ok in H. destruct H as [d [H1 H]]. apply (AttributeDef_within _ _ _ _ _ _ Hw) in H1. destruct d as [[[a m1] p]|].
  - destruct H1 as [m01 [G1 G2]]. rewrite G1. cbn [obind].
    destruct (p <? zlen tk).
    + destruct (rd tk p) as [t| | |]; cbn [obind] in *; try discriminate H. destruct (ttype_eqb (tk_type t) TOKEN_COMMA).
      * apply obind_ok in H. destruct H as [[l2 m2] [H2 H]]. cbn [fst snd] in H. destruct (IH _ _ _ _ _ _ _ G2 H2) as [m02 [G3 G4]].
        rewrite G3. cbn [obind fst snd]. assert (l = a :: l2 /\ m' = m2) as [-> ->] by (split; congruence). eauto.
      * assert (l = [a] /\ m' = m1) as [-> ->] by (split; congruence). eauto.
    + assert (l = [a] /\ m' = m1) as [-> ->] by (split; congruence). eauto.
  - rewrite H1. cbn [obind]. assert (l = [] /\ m' = m) as [-> ->] by (split; congruence). eauto.
Qed.
Lemma ParseAttributes_within : forall sf m0 m text l m', within m0 m -> ParseAttributes sf m text = Ok (l, m') ->
  exists m0', ParseAttributes sf m0 text = Ok (l, m0') /\ within m0' m'.
Proof.
  intros sf m0 m text l m' Hw H. unfold ParseAttributes in *. destruct (Lexer text) as [tk| | |]; cbn [obind] in *; try discriminate H.
  unfold Parser in *. destruct tk as [|t tk]; [assert (l = [] /\ m' = m) as [-> ->] by (split; congruence); eauto|].
  eapply parser_loop_within; eassumption.
Qed.
Lemma within_nil : forall m, nwf m -> within [] m.
Proof. intros m H. split; [exact nwf_nil|]. split; [exact H|]. intros h n H0. discriminate H0. Qed.
Lemma strip_spec : forall text, (text = str "attr:" ++ strip_attr text) \/ (text = strip_attr text /\ forall r, text <> str "attr:" ++ r).
Proof.
  intros text. unfold strip_attr. destruct (is_prefix (str "attr:") text) eqn:E.
  - apply is_prefix_spec in E. destruct E as [r ->]. left. reflexivity.
  - right. split; [reflexivity|]. intros r ->. rewrite is_prefix_app in E. discriminate E.
Qed.
Lemma annotation_fun : forall sf t l l', annotation sf t l -> annotation sf t l' -> l = l'.
Proof.
  intros sf t l l' [a [n [H1 H2]]] [b [n' [G1 G2]]]. assert (a = b); [|subst; congruence].
  destruct H1 as [H1|[H1 H1']], G1 as [G1|[G1 G1']].
  - rewrite H1 in G1. apply app_inv_head in G1. exact G1.
  - exfalso. eapply G1'. exact H1.
  - exfalso. eapply H1'. exact G1.
  - congruence.
Qed.
Lemma annotations_fun : forall sf ts l, annotations sf ts l -> forall l', annotations sf ts l' -> l = l'.
Proof.
  intros sf ts l H. induction H as [|t l r ls H1 H2 IH]; intros l' H'; inversion H' as [|t' l2 r' ls2 G1 G2]; subst; [reflexivity|].
  rewrite (annotation_fun _ _ _ _ H1 G1), (IH _ G2). reflexivity.
Qed.
Lemma parse_annots_ok : forall sf ts m l m', nwf m -> parse_annots sf m ts = Ok (l, m') -> annotations sf ts l /\ nwf m'.
Proof.
  induction ts as [|t ts IH]; intros m l m' Hm H; cbn [parse_annots] in H.
  - assert (l = [] /\ m' = m) as [-> ->] by (split; congruence). split; [constructor|exact Hm].
  - apply obind_ok in H. destruct H as [[l1 m1] [H1 H]]. cbn [fst snd] in H. apply obind_ok in H. destruct H as [[l2 m2] [H2 H]]. cbn [fst snd] in H.
    destruct (ParseAttributes_within _ _ _ _ _ _ (within_nil _ Hm) H1) as [m0 [G1 G2]].
    destruct (IH _ _ _ (proj1 (proj2 G2)) H2) as [I1 I2].
    assert (l = l1 ++ l2 /\ m' = m2) as [-> ->] by (split; congruence). split; [|exact I2]. constructor; [|exact I1].
    exists (strip_attr t), m0. split; [apply strip_spec|exact G1].
Qed.

(* recording changes only the tables events speak of *)
Lemma note_blank : forall ev d, blank (note ev d) = note ev (blank d).
Proof. intros [o a|p|p c s|p|e|c|f|f|nm c|nm z|nm [[? ?] ?]|nm|b c] d; try reflexivity. destruct a; reflexivity. Qed.
Lemma note_others : forall ev d, m_names (note ev d) = m_names d /\ m_template_types (note ev d) = m_template_types d /\ m_inherits (note ev d) = m_inherits d.
Proof. intros [o a|p|p c s|p|e|c|f|f|nm c|nm z|nm [[? ?] ?]|nm|b c] d; try (repeat split; reflexivity). destruct a; repeat split; reflexivity. Qed.

Section Attrs.
Variable Es : env -> Prop.
Notation inv := (inv Es). Notation track := (track Es). Notation post := (post Es).
Definition plain (ev : event) : Prop := match ev with Instance_ _ | Derived_ _ _ => False | _ => True end.
Lemma track_note : forall ev d, plain ev -> inv d -> track [ev] d (note ev d).
Proof.
  intros ev d Hp [H1 H2]. destruct (note_others ev d) as [E1 [E2 E3]]. split; [split; [rewrite E1; exact H1|]|].
  { refine (tt_ok_same Es d _ E2 _ H2). intros k. rewrite E3. auto. }
  split; [apply note_blank|]. split; [apply grows_refl; assumption|]. split; [intros e; rewrite E3; auto|].
  split; [intros b n [->|[]]|intros n [->|[]]]; destruct Hp.
Qed.
Lemma add_attr_in_ok : forall T eqb n (v : T) m m', add_attr_in eqb n v m = Ok m' -> m' = insert_attr eqb n v m.
Proof.
  intros T eqb n v m m' H. unfold add_attr_in in H. unfold insert_attr. destruct (m_find (n_hash n) m) as [w|].
  - destruct (eqb w v); [congruence|]. apply db_add_ok in H. exact (proj1 H).
  - apply db_add_ok in H. exact (proj1 H).
Qed.
Lemma add_attr_ok : forall p a d d', add_attr (name_of p) a d = Ok d' -> d' = note (Attribute_ p a) d.
Proof.
  intros p a d d' H. destruct a; cbn [add_attr] in H; apply obind_ok in H; destruct H as [m [H1 H2]]; apply add_attr_in_ok in H1;
    cbn [note note_attr]; congruence.
Qed.
Lemma add_attrs_ok : forall p l d d', inv d -> add_attrs p l d = Ok d' -> track (map (Attribute_ p) l) d d'.
Proof.
  induction l as [|a l IH]; intros d d' Hi H; cbn [add_attrs] in H.
  - assert (d' = d) as -> by congruence. apply post_refl. exact Hi.
  - apply obind_ok in H. destruct H as [[n d1] [H1 H]]. cbn [fst snd] in H. destruct (post_db_name Es _ _ _ _ Hi H1) as [-> [P1 _]].
    apply obind_ok in H. destruct H as [d2 [H2 H]]. apply add_attr_ok in H2. subst d2.
    pose proof (track_note (Attribute_ p a) d1 I (track_inv _ _ _ _ P1)) as P2.
    pose proof (IH _ _ (track_inv _ _ _ _ P2) H) as P3.
    exact (post_trans _ _ _ _ _ P1 (track_trans _ _ _ _ _ _ P2 P3)).
Qed.
Definition mark_of (r : presult_attr) : mark :=
  match r with PAR_Normal => Unmarked | PAR_Reflect => Full | PAR_ReflectPartial => Part | PAR_NoReflect => Never end.
Lemma is_forward_eq : forall d, is_forward d = forward d.
Proof. intros [h l|h r l|h k|]; try reflexivity. Qed.
Definition type_of (m : mark) : spec_type := match m with Full => RST_Full | Part => RST_Partial | _ => RST_None end.
Definition gathered (asked : list (list Z)) (sp : specs) : Prop := forall nm, GetSpec sp nm = type_of (spec_mark asked nm).
Lemma spec_mark_cases : forall asked nm, spec_mark asked nm = Unmarked \/ spec_mark asked nm = Full \/ spec_mark asked nm = Part.
Proof.
  induction asked as [|a asked IH]; intros nm; cbn [spec_mark]; [auto|]. destruct (list_eqb a (str "full-" ++ nm)); [auto|].
  destruct (list_eqb a (str "part-" ++ nm)); [auto|apply IH].
Qed.
Lemma ParseDeclAttributes_ok : forall sf asked sp, gathered asked sp -> forall d h allow db r db', inv db -> ParseDeclAttributes sf sp d h allow db = Ok (r, db') ->
  exists l, annotations sf (h_annots h) l /\ mark_of r = final_mark (forward d) (own_mark asked (h_name h) l) /\
    track (map (Attribute_ (h_name h)) (kept_attributes allow (own_mark asked (h_name h) l) l)) db db'.
Proof.
  intros sf asked sp Hsp d h allow db r db' Hi H. unfold ParseDeclAttributes in H.
  apply obind_ok in H. destruct H as [[l m] [H1 H]]. destruct (parse_annots_ok _ _ _ _ _ (proj1 Hi) H1) as [A1 A2]. cbn [fst snd] in H.
  apply obind_ok in H. destruct H as [h1 [E1 H]]. apply hash_thash in E1. subst h1.
  apply obind_ok in H. destruct H as [h2 [E2 H]]. apply hash_thash in E2. subst h2.
  apply obind_ok in H. destruct H as [h3 [E3 H]]. apply hash_thash in E3. subst h3.
  match type of H with (do db' <- (if allow || negb (is_noreflect ?x) then _ else _); _) = _ => set (res := x) in * end.
  assert (Er : mark_of res = own_mark asked (h_name h) l).
  { unfold res, own_mark. rewrite (Hsp (h_name h)).
    destruct l as [|a l]; [destruct (spec_mark_cases asked (h_name h)) as [-> |[-> | ->]]; reflexivity|]. unfold is_named.
    destruct (n_hash (attr_name a) =? thash (str "reflect")); [reflexivity|].
    destruct (n_hash (attr_name a) =? thash (str "reflect_part")); [reflexivity|].
    destruct (n_hash (attr_name a) =? thash (str "noreflect")); [reflexivity|]. destruct (spec_mark_cases asked (h_name h)) as [-> |[-> | ->]]; reflexivity. }
  clearbody res. exists l. split; [exact A1|]. rewrite <- Er.
  pose proof (post_names Es db m Hi A2) as Pn.
  apply obind_ok in H. destruct H as [db2 [H2 H]]. assert (db' = db2) as -> by congruence.
  assert (r = (if is_forward d then PAR_ReflectPartial else res)) as -> by congruence. rewrite is_forward_eq.
  split; [destruct (forward d); reflexivity|].
  assert (G : forall l', add_attrs (h_name h) l' (set_names m db) = Ok db2 -> track (map (Attribute_ (h_name h)) l') db db2).
  { intros l' Hl. exact (post_trans _ _ _ _ _ Pn (add_attrs_ok _ _ _ _ (track_inv _ _ _ _ Pn) Hl)). }
  destruct res; cbn [is_noreflect is_normal negb mark_of kept_attributes] in *; rewrite ?orb_true_r, ?orb_false_r in H2; try (apply G; exact H2).
  destruct allow; [apply G; exact H2|]. assert (db2 = set_names m db) as -> by congruence. exact Pn.
Qed.
End Attrs.
