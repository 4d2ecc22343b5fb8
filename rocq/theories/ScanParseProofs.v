From Verif Require Import Base BaseProofs Text HashModel Maps FileUtilsModel FileUtilsSpec DatabaseModel AttrModel ScanModel ScanSpec ScanTypeProofs.
Local Open Scope string_scope.
Local Open Scope list_scope.
Local Open Scope Z_scope.

Scheme described_m := Minimality for described Sort Prop
with spells_m := Minimality for spells Sort Prop
with instance_m := Minimality for instance Sort Prop
with arguments_m := Minimality for arguments Sort Prop
with based_m := Minimality for based Sort Prop.
Combined Scheme support_ind from described_m, spells_m, instance_m, arguments_m, based_m.

(* descriptions are unique *)
Lemma support_fun : forall E,
  (forall q i, described E q i -> forall i', described E q i' -> i = i') /\
  (forall t raw nm, spells E t raw nm -> forall nm', spells E t raw nm' -> nm = nm') /\
  (forall i nm, instance E i nm -> forall nm', instance E i nm' -> nm = nm') /\
  (forall l is, arguments E l is -> forall is', arguments E l is' -> is = is') /\
  (forall l bs, based E l bs -> forall bs', based E l bs' -> bs = bs').
Proof.
  intros E. apply support_ind.
  - intros q n e op c t raw nm H1 H2 H3 _ IH H4 i' H'. inversion H' as [q' n' e' op' c' t' raw' nm' G1 G2 G3 G4 G5]; subst.
    apply sized_spec in H1. apply sized_spec in G1. assert (n' = n /\ e' = e) as [-> ->] by (split; congruence).
    apply shape_spec in H2. apply shape_spec in G2. destruct H2 as [q2 [H2 H2']], G2 as [q2' [G2 G2']].
    assert (op' = op /\ q2' = q2) as [-> ->] by (split; congruence). assert (c' = c /\ t' = t) as [-> ->] by (split; congruence).
    apply IH in G4. subst raw'. rewrite (tidied_fun _ _ _ H4 G5). reflexivity.
  - intros t raw H1 H2 nm' H'. inversion H'; subst; congruence.
  - intros t i raw nm H1 _ IH nm' H'. inversion H' as [t' r' G1 G2|t' i' r' nm'' G1 G2]; subst; [congruence|].
    assert (i' = i) as -> by congruence. apply IH. exact G2.
  - intros i infos bs H1 _ IH1 _ IH2 nm' H'. inversion H' as [i' infos' bs' G1 G2 G3]; subst.
    rewrite (IH1 _ G2). reflexivity.
  - intros is' H'. inversion H'. reflexivity.
  - intros q i r is _ IH1 H1 H2 _ IH2 is' H'. inversion H' as [|q' i' r' is'' G1 G2 G3 G4]; subst.
    rewrite (IH1 _ G1), (IH2 _ G4). reflexivity.
  - intros bs' H'. inversion H'. reflexivity.
  - intros b c t a raw nm r bs H1 H2 H3 H4 _ IH1 _ IH2 bs' H'. inversion H' as [|b' c' t' a' raw' nm' r' bs'' G1 G2 G3 G4 G5 G6]; subst.
    apply stands_update in H1. apply stands_update in G1. assert (c' = c /\ t' = t) as [-> ->] by (split; congruence).
    pose proof (removed_fun _ _ _ H3 _ G3) as Ea. subst a'. pose proof (removed_fun _ _ _ H4 _ G4) as Er. subst raw'.
    rewrite (IH1 _ G5), (IH2 _ G6). reflexivity.
Qed.

Section Parse.
Variable Es : env -> Prop.
Hypothesis Hcoh : coherent Es.

Definition inv (d : database) : Prop := nwf (m_names d) /\ template_types_ok Es d.
Definition grows (d d' : database) : Prop :=
  (forall k, In k (keys (m_template_types d)) -> In k (keys (m_template_types d'))) /\
  (forall k, In k (keys (m_inherits d)) -> In k (keys (m_inherits d'))).
(* d' is d with the events evs recorded, and names, template types and inheritance to go with them *)
Definition track (evs : list event) (d d' : database) : Prop :=
  inv d' /\ blank d' = noted evs (blank d) /\ grows d d' /\
  (forall e, In e (m_inherits d') -> In e (m_inherits d) \/
     exists base derived, e = inherits_entry base derived /\ (instance_base Es base derived \/ In (Derived_ derived base) evs)) /\
  (forall base derived, In (Derived_ derived base) evs -> recorded_base d' base derived) /\
  (forall nm, In (Instance_ nm) evs -> recorded_instance d' nm).
Definition post := track [].
Lemma track_grows : forall evs d d', track evs d d' -> grows d d'.
Proof. intros evs d d' [_ [_ [H _]]]. exact H. Qed.
Lemma track_inv : forall evs d d', track evs d d' -> inv d'.
Proof. intros evs d d' [H _]. exact H. Qed.
Lemma grow_instance : forall evs d d' nm, track evs d d' -> recorded_instance d nm -> recorded_instance d' nm.
Proof. intros evs d d' nm H. apply (proj1 (track_grows _ _ _ H)). Qed.
Lemma grow_base : forall evs d d' b n, track evs d d' -> recorded_base d b n -> recorded_base d' b n.
Proof. intros evs d d' b n H. apply (proj2 (track_grows _ _ _ H)). Qed.
Lemma grows_refl : forall d d', m_template_types d' = m_template_types d -> m_inherits d' = m_inherits d -> grows d d'.
Proof. intros d d' H1 H2. split; intros k; [rewrite H1|rewrite H2]; auto. Qed.
Lemma post_refl : forall d, inv d -> post d d.
Proof.
  intros d H. split; [exact H|]. split; [reflexivity|]. split; [apply grows_refl; reflexivity|].
  split; [auto|]. split; [intros b n []|intros n []].
Qed.
Lemma track_trans : forall e1 e2 a b c, track e1 a b -> track e2 b c -> track (e1 ++ e2) a c.
Proof.
  intros e1 e2 a b c H G. pose proof H as [H1 [H2 [[H3 H3'] [H4 [H5 H6]]]]]. pose proof G as [G1 [G2 [[G3 G3'] [G4 [G5 G6]]]]].
  split; [exact G1|]. split; [unfold noted in *; rewrite fold_left_app; congruence|]. split; [split; auto|]. split.
  - intros e He. destruct (G4 _ He) as [He'|[bs [dv [E1 E2]]]].
    + destruct (H4 _ He') as [He''|[bs [dv [E1 E2]]]]; [auto|]. right. exists bs, dv. rewrite in_app_iff. tauto.
    + right. exists bs, dv. rewrite in_app_iff. tauto.
  - split.
    + intros bs dv Hin. apply in_app_or in Hin. destruct Hin as [Hin|Hin]; [|auto]. eapply grow_base; [exact G|]. auto.
    + intros nm Hin. apply in_app_or in Hin. destruct Hin as [Hin|Hin]; [|auto]. eapply grow_instance; [exact G|]. auto.
Qed.
Lemma post_trans : forall evs a b c, post a b -> track evs b c -> track evs a c.
Proof. intros evs a b c H G. exact (track_trans [] evs _ _ _ H G). Qed.
Lemma trans_post : forall evs a b c, track evs a b -> post b c -> track evs a c.
Proof. intros evs a b c H G. rewrite <- (app_nil_r evs). exact (track_trans _ _ _ _ _ H G). Qed.
Lemma tt_ok_same : forall d d', m_template_types d' = m_template_types d -> (forall k, In k (keys (m_inherits d)) -> In k (keys (m_inherits d'))) ->
  template_types_ok Es d -> template_types_ok Es d'.
Proof.
  intros d d' H1 H2 H k tt Hin. rewrite H1 in Hin. destruct (H _ _ Hin) as [E [i [nm [G1 [G2 [G3 [G4 [G5 G6]]]]]]]].
  exists E, i, nm. repeat split; try assumption.
  - intros j u Hj Hu. unfold recorded_instance. rewrite H1. eapply G5; eassumption.
  - intros b n Hb Hn. apply H2. eapply G6; eassumption.
Qed.
Lemma post_names : forall d m, inv d -> nwf m -> post d (set_names m d).
Proof.
  intros d m [H1 H2] Hm. split; [split; [exact Hm|eapply tt_ok_same; [reflexivity|auto|exact H2]]|]. split; [reflexivity|].
  split; [apply grows_refl; reflexivity|]. split; [auto|]. split; [intros b n []|intros n []].
Qed.
Lemma post_db_name : forall d t n d', inv d -> db_name d t = Ok (n, d') -> n = name_of t /\ post d d' /\ m_template_types d' = m_template_types d.
Proof.
  intros d t n d' H E. destruct (db_name_spec _ _ _ _ (proj1 H) E) as [H1 [H2 H3]]. split; [exact H1|].
  rewrite H3. split; [apply post_names; assumption|reflexivity].
Qed.
Lemma inherit_ok : forall d base derived z, inv d -> AddTypeInheritance (m_names d) (m_inherits d) (name_of derived) (name_of base) = Ok z ->
  track [Derived_ derived base] d (set_inherits (snd z) (set_names (fst z) d)) /\ m_template_types (set_inherits (snd z) (set_names (fst z) d)) = m_template_types d.
Proof.
  intros d base derived z Hi H. unfold AddTypeInheritance in H. apply obind_ok in H. destruct H as [[n m] [H1 H2]]. cbn [fst snd] in H2.
  destruct (GetName_spec _ _ _ _ (proj1 Hi) H1) as [-> Hm]. fold (inherits_text base derived) in H2. rewrite name_of_hash in H2.
  destruct z as [m' inh]. assert (m' = m) as -> by congruence.
  assert (inh = m_set (fst (inherits_entry base derived)) (snd (inherits_entry base derived)) (m_inherits d)) as -> by (cbn [inherits_entry fst snd]; congruence).
  cbn [fst snd]. split; [|reflexivity]. split; [split; [exact Hm|]|].
  { refine (tt_ok_same d _ _ _ (proj2 Hi)); [reflexivity|]. intros k Hk. cbn [m_inherits set_inherits]. apply m_set_keys. auto. }
  split; [reflexivity|]. split; [split; [intros k Hk; exact Hk|]|].
  { intros k Hk. cbn [m_inherits set_inherits]. apply m_set_keys. auto. }
  split.
  { intros e He. cbn [m_inherits set_inherits] in He. apply m_set_In in He. destruct He as [->|He]; [|auto]. right.
    exists base, derived. split; [reflexivity|]. right. left. reflexivity. }
  split; [|intros nm [Hin|[]]; discriminate Hin].
  intros b n [Hin|[]]. assert (b = base /\ n = derived) as [-> ->] by (split; congruence).
  unfold recorded_base. cbn [m_inherits set_inherits]. apply m_set_keys. left. reflexivity.
Qed.

Section OneUnit.
Variable E : env.
Hypothesis HE : Es E.
Definition mentioned (d : database) (t : ty) : Prop := forall k nm, spec_of t = Some k -> instance E k nm -> recorded_instance d nm.
Definition mentioned_type (d : database) (q : qt) : Prop := forall k nm, uses_type q k -> instance E k nm -> recorded_instance d nm.
Definition mentioned_base (d : database) (b : base) : Prop := forall k nm, uses_base b k -> instance E k nm -> recorded_instance d nm.

Variable pcts : database -> Z -> outcome (presult (list Z) * database).
Hypothesis Hp : forall db i r db', inv db -> pcts db i = Ok (r, db') -> post db db' /\
  match r with Good u => instance E i u /\ recorded_instance db' u | Bad _ => forall u, ~ instance E i u end.

Lemma parse_spec_type_ok : forall db t raw r db', inv db -> parse_spec_type pcts db t raw = Ok (r, db') -> post db db' /\
  match r with Good nm => spells E t raw nm /\ mentioned db' t | Bad _ => forall nm, ~ spells E t raw nm end.
Proof.
  intros db t raw r db' Hi H. unfold parse_spec_type in H.
  assert (D : (exists i, spec_of t = Some i /\ pcts db i = Ok (r, db')) \/ (alias_of_plain t = true /\ spec_of t = None /\ r = Bad true /\ db' = db) \/
    (spec_of t = None /\ alias_of_plain t = false /\ r = Good raw /\ db' = db)).
  { destruct t as [p|p|p rd|p rd|q|q|q|n q|]; try (right; right; repeat split; congruence); destruct rd as [| |i];
      try (right; right; repeat split; congruence).
    - left. exists i. auto.
    - right. left. repeat split; congruence.
    - left. exists i. auto. }
  destruct D as [[i [D1 D2]]|[[D1 [D2 [-> ->]]]|[D1 [D2 [-> ->]]]]].
  - destruct (Hp _ _ _ _ Hi D2) as [P Q]. split; [exact P|]. destruct r as [u|s].
    + destruct Q as [Q1 Q2]. split; [eapply sp_instance; eassumption|].
      intros k nm Hk Hn. assert (k = i) as -> by congruence.
      destruct (support_fun E) as [_ [_ [F _]]]. rewrite (F _ _ Hn _ Q1). exact Q2.
    + intros nm H0. inversion H0 as [t0 raw0 G1 G2|t0 i0 raw0 nm0 G1 G2]; subst; [congruence|].
      assert (i0 = i) as -> by congruence. eapply Q. exact G2.
  - split; [apply post_refl; exact Hi|]. intros nm H0. inversion H0; subst; congruence.
  - split; [apply post_refl; exact Hi|]. split; [constructor; assumption|]. intros k nm Hk. congruence.
Qed.
Lemma element_info_ok : forall db n e r db', inv db -> element_info pcts db n e = Ok (r, db') -> post db db' /\
  match r with
  | Good i => pi_count i = n /\ exists op c t raw, shape e op c t /\ nameable t /\ spells E t (printed t) raw /\ tidied raw (pi_type i) /\
                pi_qual i = mk_qual op c /\ mentioned db' t
  | Bad _ => forall op c t raw nm, ~ (shape e op c t /\ nameable t /\ spells E t (printed t) raw /\ tidied raw nm)
  end.
Proof.
  intros db n e r db' Hi H. unfold element_info in H.
  assert (Es0 : exists op q2, shape_of e = (op, q2)) by (destruct (shape_of e) as [op q2]; eauto).
  destruct Es0 as [op [q2 Esh]].
  assert (H' : (let 'Q is_const t := update q2 in
     match t with
     | T_builtin _ | T_enum _ | T_record _ _ | T_tspec _ _ =>
      do x <- parse_spec_type pcts db t (printed t);
      match fst x with
      | Bad s => Ok (Bad s, snd x)
      | Good nm => do nm' <- tidy nm; Ok (Good (mk_pinfo nm' (mk_qual op is_const) n), snd x)
      end
     | _ => Ok (Bad false, db)
     end) = Ok (r, db')).
  { unfold shape_of in Esh. destruct (update e) as [c0 t0]. destruct t0; injection Esh as <- <-; exact H. }
  clear H. destruct (update q2) as [c t] eqn:Eu.
  assert (Hsh : forall op' c' t', shape e op' c' t' -> op' = op /\ c' = c /\ t' = t).
  { intros op' c' t' Hs. apply shape_spec in Hs. destruct Hs as [q2' [G1 G2]]. assert (op' = op /\ q2' = q2) as [-> ->] by (split; congruence).
    rewrite Eu in G2. repeat split; congruence. }
  assert (Hsh0 : shape e op c t) by (apply shape_spec; eauto).
  assert (D : (nameable t /\ (do x <- parse_spec_type pcts db t (printed t);
      match fst x with
      | Bad s => Ok (Bad s, snd x)
      | Good nm => do nm' <- tidy nm; Ok (Good (mk_pinfo nm' (mk_qual op c) n), snd x)
      end) = Ok (r, db')) \/ (~ nameable t /\ r = Bad false /\ db' = db)).
  { destruct t; try (left; split; [exact I|exact H']); right; (split; [intros []|split; congruence]). }
  destruct D as [[D1 D2]|[D1 [-> ->]]].
  - apply obind_ok in D2. destruct D2 as [[x db1] [D2 D3]]. cbn [fst snd] in D3.
    destruct (parse_spec_type_ok _ _ _ _ _ Hi D2) as [P Q]. destruct x as [nm|s].
    + apply obind_ok in D3. destruct D3 as [nm' [D3 D4]]. assert (r = Good (mk_pinfo nm' (mk_qual op c) n)) as -> by congruence.
      assert (db' = db1) as -> by congruence. split; [exact P|]. cbn [pi_count pi_type pi_qual]. split; [reflexivity|].
      destruct Q as [Q1 Q2]. exists op, c, t, nm. repeat split; try assumption. apply tidy_spec. exact D3.
    + assert (r = Bad s) as -> by congruence. assert (db' = db1) as -> by congruence. split; [exact P|].
      intros op' c' t' raw nm [G1 [G2 [G3 G4]]]. apply Hsh in G1. destruct G1 as [-> [-> ->]]. eapply Q. exact G3.
  - split; [apply post_refl; exact Hi|]. intros op' c' t' raw nm [G1 [G2 [G3 G4]]]. apply Hsh in G1. destruct G1 as [-> [-> ->]]. contradiction.
Qed.
Lemma GetParameterInfo_ok : forall db q r db', inv db -> GetParameterInfo pcts db q = Ok (r, db') -> post db db' /\
  match r with Good i => described E q i /\ mentioned_type db' q | Bad _ => forall i, ~ described E q i end.
Proof.
  intros db q r db' Hi H.
  assert (D : (exists n e, sized_of q = Some (n, e) /\ element_info pcts db n e = Ok (r, db')) \/ (sized_of q = None /\ r = Bad false /\ db' = db)).
  { destruct q as [c t]. destruct t; cbn [GetParameterInfo] in H; cbn [sized_of]; try (left; do 2 eexists; split; [reflexivity|exact H]).
    destruct (UINT_MAX <? n); [right; repeat split; congruence|left; do 2 eexists; split; [reflexivity|exact H]]. }
  destruct D as [[n [e [D1 D2]]]|[D1 [-> ->]]].
  - destruct (element_info_ok _ _ _ _ _ Hi D2) as [P Q]. split; [exact P|]. destruct r as [i|s].
    + destruct Q as [Q1 [op [c [t [raw [Q2 [Q3 [Q4 [Q5 [Q6 Q7]]]]]]]]]]. split.
      * destruct i as [ty qu n']. cbn in *. subst n' qu. econstructor; [apply sized_spec; exact D1|eassumption..].
      * intros k nm [n' [e' [op' [c' [t' [U1 [U2 U3]]]]]]] Hk. apply sized_spec in U1. assert (n' = n /\ e' = e) as [-> ->] by (split; congruence).
        assert (t' = t) as ->.
        { apply shape_spec in U2. apply shape_spec in Q2. destruct U2 as [q2 [U2 U2']], Q2 as [q2' [Q2 Q2']]. congruence. }
        eapply Q7; eassumption.
    + intros i H0. inversion H0 as [q' n' e' op c t raw nm G1 G2 G3 G4 G5]; subst. apply sized_spec in G1. assert (n' = n /\ e' = e) as [-> ->] by (split; congruence).
      eapply Q. eauto.
  - split; [apply post_refl; exact Hi|]. intros i H0. inversion H0 as [q' n' e' op c t raw nm G1 G2 G3 G4 G5]; subst.
    apply sized_spec in G1. congruence.
Qed.
Lemma based_one : forall b n l bs, based E [b] [n] -> based E l bs -> based E (b :: l) (n :: bs).
Proof. intros b n l bs H Hl. inversion H; subst. econstructor; eassumption. Qed.
Lemma based_split : forall b l bs, based E (b :: l) bs -> exists n bs', bs = n :: bs' /\ based E [b] [n] /\ based E l bs'.
Proof.
  intros b l bs H. inversion H as [|b' c t a raw nm r bs' G1 G2 G3 G4 G5 G6]; subst. exists nm, bs'. split; [reflexivity|].
  split; [|exact G6]. econstructor; try eassumption. constructor.
Qed.
Lemma ParseBaseClass_ok : forall db derived b r db', inv db -> ParseBaseClass pcts db (name_of derived) b = Ok (r, db') ->
  match r with
  | Good n => exists nm, n = name_of nm /\ based E [b] [nm] /\ mentioned_base db' b /\ track [Derived_ derived nm] db db'
  | Bad _ => post db db' /\ forall n, ~ based E [b] [n]
  end.
Proof.
  intros db derived b r db' Hi H. unfold ParseBaseClass in H. destruct (update (b_type b)) as [c t] eqn:Eu.
  apply obind_ok in H. destruct H as [a [Ha H]]. apply Remove_spec in Ha; [|discriminate].
  apply obind_ok in H. destruct H as [raw [Hr H]]. apply Remove_spec in Hr; [|discriminate].
  assert (Hst : stands (b_type b) c t) by (apply stands_update; exact Eu).
  assert (Inv : forall n, based E [b] [n] -> b_virtual b = false /\ spells E t raw n).
  { intros n H0. inversion H0 as [|b' c' t' a' raw' nm' r' bs' G1 G2 G3 G4 G5 G6]; subst.
    apply stands_update in G1. assert (c' = c /\ t' = t) as [-> ->] by (split; congruence).
    pose proof (removed_fun _ _ _ Ha _ G3) as <-. pose proof (removed_fun _ _ _ Hr _ G4) as <-. auto. }
  destruct (b_virtual b) eqn:Ev.
  - assert (r = Bad false /\ db' = db) as [-> ->] by (split; congruence). split; [apply post_refl; exact Hi|].
    intros n H0. apply Inv in H0. destruct H0 as [H0 _]. congruence.
  - apply obind_ok in H. destruct H as [[x db1] [H1 H]]. cbn [fst snd] in H.
    destruct (parse_spec_type_ok _ _ _ _ _ Hi H1) as [P Q]. destruct x as [nm|s].
    + apply obind_ok in H. destruct H as [[n db2] [H2 H]]. cbn [fst snd] in H. destruct (post_db_name _ _ _ _ (track_inv _ _ _ P) H2) as [-> [P2 P2']].
      apply obind_ok in H. destruct H as [z [H3 H]]. destruct (inherit_ok _ _ _ _ (track_inv _ _ _ P2) H3) as [P3 P3'].
      assert (r = Good (name_of nm) /\ db' = set_inherits (snd z) (set_names (fst z) db2)) as [-> ->] by (split; congruence).
      exists nm. split; [reflexivity|]. destruct Q as [Q1 Q2]. split.
      { econstructor; try eassumption. constructor. }
      split; [|eapply post_trans; [exact P|eapply post_trans; [exact P2|exact P3]]].
      intros k u [c' [t' [U1 U2]]] Hk. apply stands_update in U1. assert (t' = t) as -> by congruence.
      eapply grow_instance; [exact P3|]. eapply grow_instance; [exact P2|]. eapply Q2; eassumption.
    + assert (r = Bad s /\ db' = db1) as [-> ->] by (split; congruence). split; [exact P|].
      intros n H0. apply Inv in H0. destruct H0 as [_ H0]. eapply Q. exact H0.
Qed.
Lemma parse_bases_ok : forall l db derived r db', inv db -> parse_bases pcts db (name_of derived) l = Ok (r, db') ->
  exists bs0, track (map (Derived_ derived) bs0) db db' /\ (forall n, In n bs0 -> exists b, In b l /\ based E [b] [n]) /\
  match r with
  | Good ns => based E l bs0 /\ ns = map name_of bs0 /\ forall b, In b l -> mentioned_base db' b
  | Bad _ => forall bs, ~ based E l bs
  end.
Proof.
  induction l as [|b l IH]; intros db derived r db' Hi H; cbn [parse_bases] in H.
  - assert (r = Good [] /\ db' = db) as [-> ->] by (split; congruence). exists []. split; [apply post_refl; exact Hi|].
    split; [intros n []|]. split; [constructor|]. split; [reflexivity|]. intros b [].
  - apply obind_ok in H. destruct H as [[x db1] [H1 H]]. cbn [fst snd] in H.
    pose proof (ParseBaseClass_ok _ _ _ _ _ Hi H1) as Q. destruct x as [n|s].
    + destruct Q as [nm [-> [Q1 [Q3 P]]]]. apply obind_ok in H. destruct H as [[y db2] [H2 H]]. cbn [fst snd] in H.
      destruct (IH _ _ _ _ (track_inv _ _ _ P) H2) as [bs0 [P2 [Q5 Q2]]].
      assert (T : track (map (Derived_ derived) (nm :: bs0)) db db2) by exact (track_trans _ _ _ _ _ P P2).
      assert (T' : forall n, In n (nm :: bs0) -> exists b', In b' (b :: l) /\ based E [b'] [n]).
      { intros n [<-|Hn]; [exists b; split; [left; reflexivity|exact Q1]|]. destruct (Q5 _ Hn) as [b' [Hb Hb']]. exists b'. split; [right; exact Hb|exact Hb']. }
      exists (nm :: bs0). destruct y as [ns|s].
      * assert (r = Good (name_of nm :: ns) /\ db' = db2) as [-> ->] by (split; congruence).
        split; [exact T|]. split; [exact T'|]. destruct Q2 as [Q2 [-> Q4]]. split; [apply based_one; assumption|]. split; [reflexivity|].
        intros b' [<-|Hb]; [|apply Q4; exact Hb]. intros k u Hk Hu. eapply grow_instance; [exact P2|]. eapply Q3; eassumption.
      * assert (r = Bad s /\ db' = db2) as [-> ->] by (split; congruence). split; [exact T|]. split; [exact T'|].
        intros bs H0. apply based_split in H0. destruct H0 as [n [bs' [_ [_ H0]]]]. eapply Q2. exact H0.
    + destruct Q as [P Q]. assert (r = Bad s /\ db' = db1) as [-> ->] by (split; congruence). exists []. split; [exact P|]. split; [intros n []|].
      intros bs H0. apply based_split in H0. destruct H0 as [n [bs' [_ [H0 _]]]]. eapply Q. exact H0.
Qed.
(* the text of the arguments as it is put together *)
Fixpoint targs_text (first : bool) (l : list pinfo) : list Z :=
  match l with [] => [] | i :: r => (if first then [] else str ",") ++ arg_text i ++ targs_text false r end.
Lemma targs_joined : forall l, targs_text true l = joined_by_comma (map arg_text l).
Proof.
  intros l. destruct l as [|i l]; [reflexivity|]. cbn [targs_text map app].
  revert i. induction l as [|j l IH]; intros i; [cbn [targs_text map joined_by_comma]; rewrite app_nil_r; reflexivity|].
  cbn [targs_text map]. change (joined_by_comma (arg_text i :: arg_text j :: map arg_text l)) with (arg_text i ++ str "," ++ joined_by_comma (arg_text j :: map arg_text l)).
  rewrite <- IH. reflexivity.
Qed.
Lemma arg_text_code : forall i, arg_text i = pi_type i ++ (if qop_eqb (q_op (pi_qual i)) POINTER then str "*" else []).
Proof. intros i. unfold arg_text. destruct (q_op (pi_qual i)); reflexivity. Qed.
Lemma parse_targs_ok : forall l db first r db', inv db -> parse_targs pcts db first l = Ok (r, db') -> post db db' /\
  match r with
  | Good (is, t) => arguments E l is /\ t = targs_text first is /\ forall q, In (TA_type q) l -> mentioned_type db' q
  | Bad _ => forall is, ~ arguments E l is
  end.
Proof.
  induction l as [|[q|] l IH]; intros db first r db' Hi H; cbn [parse_targs] in H.
  - assert (r = Good ([], []) /\ db' = db) as [-> ->] by (split; congruence). split; [apply post_refl; exact Hi|].
    split; [constructor|]. split; [reflexivity|]. intros q [].
  - apply obind_ok in H. destruct H as [[x db1] [H1 H]]. cbn [fst snd] in H.
    destruct (GetParameterInfo_ok _ _ _ _ Hi H1) as [P Q]. destruct x as [i|s].
    + destruct Q as [Q1 Q3].
      assert (Hun : forall is, arguments E (TA_type q :: l) is -> q_op (pi_qual i) <> REFERENCE /\ pi_count i = 0 /\ exists is', arguments E l is').
      { intros is H0. inversion H0 as [|q' i' r' is' G1 G2 G3 G4]; subst. destruct (support_fun E) as [F _].
        assert (i' = i) as -> by (eapply F; eassumption). eauto. }
      destruct (qop_eqb (q_op (pi_qual i)) REFERENCE) eqn:Er.
      { assert (r = Bad false /\ db' = db1) as [-> ->] by (split; congruence). split; [exact P|]. intros is H0. apply Hun in H0.
        destruct H0 as [H0 _]. apply H0. destruct (q_op (pi_qual i)); try discriminate Er. reflexivity. }
      destruct (Z.eqb_spec (pi_count i) 0) as [Ec|Ec]; cbn [negb] in H.
      2:{ assert (r = Bad false /\ db' = db1) as [-> ->] by (split; congruence). split; [exact P|]. intros is H0. apply Hun in H0.
        destruct H0 as [_ [H0 _]]. contradiction. }
      apply obind_ok in H. destruct H as [[y db2] [H2 H]]. cbn [fst snd] in H.
      destruct (IH _ _ _ _ (track_inv _ _ _ P) H2) as [P2 Q2]. destruct y as [[is t]|s].
      * assert (r = Good (i :: is, (if first then [] else str ",") ++ pi_type i ++
                                   (if qop_eqb (q_op (pi_qual i)) POINTER then str "*" else []) ++ t) /\ db' = db2) as [-> ->] by (split; congruence).
        split; [exact (post_trans _ _ _ _ P P2)|]. destruct Q2 as [Q4 [-> Q5]]. split.
        { constructor; try assumption. intros H0. rewrite H0 in Er. discriminate Er. }
        split; [cbn [targs_text]; rewrite arg_text_code, <- app_assoc; reflexivity|].
        intros q' [Hq|Hq]; [|apply Q5; exact Hq]. assert (q' = q) as -> by congruence.
        intros k u Hk Hu. eapply grow_instance; [exact P2|]. eapply Q3; eassumption.
      * assert (r = Bad s /\ db' = db2) as [-> ->] by (split; congruence). split; [exact (post_trans _ _ _ _ P P2)|].
        intros is H0. apply Hun in H0. destruct H0 as [_ [_ [is' H0]]]. eapply Q2. exact H0.
    + assert (r = Bad s /\ db' = db1) as [-> ->] by (split; congruence). split; [exact P|].
      intros is H0. inversion H0; subst. eapply Q. eassumption.
  - assert (r = Bad false /\ db' = db) as [-> ->] by (split; congruence). split; [apply post_refl; exact Hi|].
    intros is H0. inversion H0.
Qed.
End OneUnit.

Lemma get_type_names_ok : forall l db ns db', inv db -> get_type_names db l = Ok (ns, db') ->
  ns = map (fun i => name_of (pi_type i)) l /\ post db db' /\ m_template_types db' = m_template_types db.
Proof.
  induction l as [|i l IH]; intros db ns db' Hi H; cbn [get_type_names] in H.
  - assert (ns = [] /\ db' = db) as [-> ->] by (split; congruence). split; [reflexivity|]. split; [apply post_refl; exact Hi|reflexivity].
  - apply obind_ok in H. destruct H as [[n db1] [H1 H]]. cbn [fst snd] in H. destruct (post_db_name _ _ _ _ Hi H1) as [-> [P E1]].
    apply obind_ok in H. destruct H as [[ns2 db2] [H2 H]]. cbn [fst snd] in H. destruct (IH _ _ _ (track_inv _ _ _ P) H2) as [-> [P2 E2]].
    assert (ns = name_of (pi_type i) :: map (fun i => name_of (pi_type i)) l /\ db' = db2) as [-> ->] by (split; congruence).
    split; [reflexivity|]. split; [exact (post_trans _ _ _ _ P P2)|congruence].
Qed.
Lemma db_add_ok : forall T n (v : T) m m', db_add n v m = Ok m' -> m' = insert_named n v m /\ n_hash n <> 0.
Proof.
  intros T n v m m' H. unfold db_add in H. apply obind_ok in H. destruct H as [u [H1 H2]]. unfold insert_named. split; [congruence|].
  destruct (Z.eqb_spec (n_hash n) 0); [discriminate H1|assumption].
Qed.
(* ParseTemplateSpecialisation *)
Lemma absorb : forall l derived d d', track (map (Derived_ derived) l) d d' -> (forall n, In n l -> instance_base Es n derived) ->
  post d d'.
Proof.
  intros l derived d d' [H1 [H2 [H3 [H4 [H5 H6]]]]] Hl. split; [exact H1|]. split.
  { rewrite H2. clear. unfold noted. cbn [fold_left]. generalize (blank d) as x. induction l as [|n l IH]; intros x; [reflexivity|]. cbn [map fold_left note]. apply IH. }
  split; [exact H3|]. split; [|split; [intros b n []|intros n []]].
  intros e He. destruct (H4 _ He) as [He'|[b [dv [E1 [E2|E2]]]]]; [auto|right; exists b, dv; auto|].
  right. exists b, dv. split; [exact E1|]. left. apply in_map_iff in E2. destruct E2 as [n [E2 E3]].
  assert (dv = derived /\ b = n) as [-> ->] by (split; congruence). auto.
Qed.
Lemma parse_cts_ok : forall E, Es E -> forall fuel db i r db', inv db -> parse_cts fuel E db i = Ok (r, db') -> post db db' /\
  match r with Good u => instance E i u /\ recorded_instance db' u | Bad _ => forall u, ~ instance E i u end.
Proof.
  intros E HE. induction fuel as [|fuel IH]; intros db i r db' Hi H; cbn [parse_cts] in H; [discriminate H|].
  apply obind_ok in H. destruct H as [[pn db1] [H1 H]]. cbn [fst snd] in H. destruct (post_db_name _ _ _ _ Hi H1) as [-> [P1 _]].
  unfold MAX_NB_ARGS in H. destruct (Z.leb_spec 4 (zlen (s_args (E i)))) as [Hl|Hl].
  { assert (r = Bad false /\ db' = db1) as [-> ->] by (split; congruence). split; [exact P1|]. intros u Hu. inversion Hu; subst. lia. }
  apply obind_ok in H. destruct H as [[a db2] [H2 H]]. cbn [fst snd] in H.
  destruct (parse_targs_ok E (parse_cts fuel E) IH _ _ _ _ _ (track_inv _ _ _ P1) H2) as [P2 Q2].
  pose proof (post_trans _ _ _ _ P1 P2) as P12.
  destruct a as [[infos text]|s].
  2:{ assert (r = Bad s /\ db' = db2) as [-> ->] by (split; congruence). split; [exact P12|]. intros u Hu. inversion Hu; subst. eapply Q2. eassumption. }
  destruct Q2 as [Qa [Qt Qm]].
  assert (Et : s_template (E i) ++ str "<" ++ text ++ str ">" = instance_name (E i) infos).
  { unfold instance_name. rewrite Qt, targs_joined. reflexivity. }
  rewrite Et in H. clear Et. set (u := instance_name (E i) infos) in *.
  assert (Hl3 : zlen (s_args (E i)) <= 3) by lia.
  apply obind_ok in H. destruct H as [found [H3 H]]. unfold first_prim in H3. apply obind_ok in H3. destruct H3 as [h [H3 H3']].
  apply hash_thash in H3. subst h. assert (found = m_find (thash u) (m_template_types db2)) as -> by congruence. clear H3'.
  destruct (m_find (thash u) (m_template_types db2)) as [tt0|] eqn:Ef.
  - assert (r = Good u /\ db' = db2) as [-> ->] by (split; congruence). split; [exact P12|].
    apply m_find_In in Ef. split.
    + destruct (proj2 (track_inv _ _ _ P12) _ _ Ef) as [E' [j [nm [HE' [_ [Hj [Hnm _]]]]]]].
      destruct (Hcoh _ _ _ _ _ _ HE HE' Hl3 Qa Hj Hnm) as [bs Hb]. econstructor; eassumption.
    + apply keys_In. eauto.
  - apply obind_ok in H. destruct H as [[tn db3] [H4 H]]. cbn [fst snd] in H. destruct (post_db_name _ _ _ _ (track_inv _ _ _ P12) H4) as [-> [P3 E3]].
    apply obind_ok in H. destruct H as [[b db4] [H5 H]]. cbn [fst snd] in H.
    destruct (parse_bases_ok E (parse_cts fuel E) IH _ _ _ _ _ (track_inv _ _ _ P3) H5) as [bs0 [T4 [Q4' Q4]]].
    assert (P4 : post db3 db4).
    { eapply absorb; [exact T4|]. intros n Hn. destruct (Q4' _ Hn) as [b' [Hb1 Hb2]]. exists E, i, infos, b'. repeat split; assumption. }
    pose proof (post_trans _ _ _ _ P12 (post_trans _ _ _ _ P3 P4)) as P14.
    destruct b as [ns|s].
    2:{ assert (r = Bad s /\ db' = db4) as [-> ->] by (split; congruence). split; [exact P14|]. intros u' Hu. inversion Hu; subst. eapply Q4. eassumption. }
    destruct Q4 as [Hb [_ Qb]].
    apply obind_ok in H. destruct H as [[tns db5] [H6 H]]. cbn [fst snd] in H. destruct (get_type_names_ok _ _ _ _ (track_inv _ _ _ P4) H6) as [-> [P5 E5]].
    apply obind_ok in H. destruct H as [m [H7 H]]. destruct (db_add_ok _ _ _ _ _ H7) as [-> Hz]. clear H7.
    assert (Er : r = Good u) by congruence. subst r.
    pose proof (post_trans _ _ _ _ P14 P5) as P15.
    assert (Hinst : instance E i u) by (econstructor; eassumption).
    match type of H with Ok (_, set_template_types (insert_named _ ?tt _) _) = _ => set (tt1 := tt) in * end.
    assert (Ed : db' = set_template_types (insert_named (name_of u) tt1 (m_template_types db5)) db5) by congruence. clear H. subst db'.
    unfold insert_named. rewrite name_of_hash. set (db6 := set_template_types (mm_insert (thash u) tt1 (m_template_types db5)) db5).
    assert (Hgrow : grows db5 db6).
    { split; intros k Hk; [|exact Hk]. cbn [m_template_types set_template_types db6]. apply mm_insert_keys. right. exact Hk. }
    assert (Hrec : recorded_instance db6 u).
    { unfold recorded_instance. cbn [m_template_types set_template_types db6]. apply mm_insert_keys. left. reflexivity. }
    split; [|split; [exact Hinst|exact Hrec]]. eapply post_trans; [exact P15|].
    split; [|split; [reflexivity|split; [exact Hgrow|split; [auto|split; [intros b n []|intros n []]]]]].
    split; [exact (proj1 (track_inv _ _ _ P15))|]. intros k tt Hin. cbn [m_template_types set_template_types db6] in Hin.
    apply mm_insert_In in Hin. destruct Hin as [Hin|Hin]; [assert (k = thash u) as -> by congruence; assert (tt = tt1) as -> by congruence; clear Hin|].
    + exists E, i, u. split; [exact HE|]. split.
      { exists infos, bs0. repeat split; assumption. }
      split; [exact Hinst|]. split; [reflexivity|]. split.
      * intros j nm Hj Hnm. apply Hgrow, (grow_instance _ _ _ _ P5). destruct Hj as [[q [Hq Hj]]|[b [Hb' Hj]]].
        { apply (grow_instance _ _ _ _ P4), (grow_instance _ _ _ _ P3). eapply Qm; eassumption. }
        eapply Qb; eassumption.
      * intros b n Hb' Hn. apply Hgrow, (grow_base _ _ _ _ _ P5). destruct T4 as [_ [_ [_ [_ [T5 _]]]]]. apply T5.
        apply in_map_iff. exists n. split; [reflexivity|].
        clear - Hb Hb' Hn. revert Hb Hb'. generalize (s_bases (E i)) as l. intros l Hl. revert l Hl. induction bs0 as [|n0 bs0 IHb]; intros l Hl Hin.
        { inversion Hl; subst. destruct Hin. }
        destruct l as [|b0 l]; [destruct Hin|]. apply (based_split E) in Hl. destruct Hl as [n1 [bs' [Eq [Hl1 Hl2]]]].
        assert (n1 = n0 /\ bs' = bs0) as [-> ->] by (split; congruence). destruct Hin as [->|Hin]; [|right; eapply IHb; eassumption].
        left. destruct (support_fun E) as [_ [_ [_ [_ F]]]]. pose proof (F _ _ Hl1 _ Hn). congruence.
    + destruct (proj2 (track_inv _ _ _ P15) _ _ Hin) as [E' [j [nm [G1 [G2 [G3 [G4 [G5 G6]]]]]]]]. exists E', j, nm.
      split; [exact G1|]. split; [exact G2|]. split; [exact G3|]. split; [exact G4|]. split.
      * intros j' u' Hj Hu. apply Hgrow. eapply G5; eassumption.
      * intros b n Hb1 Hb2. apply Hgrow. eapply G6; eassumption.
Qed.
End Parse.
