(* C75-C84: what a scan of C++ declarations records. The declarations are what Clang hands over (ScanModel.v); what they
   are meant to give is said in ScanSpec.v. *)
From Verif Require Import Base BaseProofs Text HashModel Maps FileUtilsModel FileUtilsSpec DatabaseModel AttrModel ScanModel ScanSpec
  ScanTypeProofs ScanParseProofs ScanAttrProofs ScanWalkProofs ScanRunProofs ScanFunProofs ScanTableProofs ScanGroupProofs ScanTermProofs ScanWitness.
Local Open Scope string_scope.
Local Open Scope list_scope.
Local Open Scope Z_scope.

(* ---- C75 ---- *)
(* The tables a scan ends with are those of its declarations, in source order, and nothing else. *)
Theorem C75_scan_records : forall fuel sf tus d w, coherent (units tus) -> scan fuel sf tus = Ok (d, w) ->
  exists evs, run_events sf [] tus evs /\ blank d = noted evs db_empty.
Proof. intros fuel sf tus d w Hc H. destruct (scan_ok _ _ _ _ _ Hc H) as [evs [H1 [_ [H2 _]]]]. exists evs. split; [exact H1|exact H2]. Qed.
Print Assumptions C75_scan_records.
(* the declarations of a translation unit leave one way of recording them *)
Theorem C75_one_way : forall sf E asked tu evs evs', unit_events sf E asked tu evs -> unit_events sf E asked tu evs' -> evs = evs'.
Proof. exact unit_events_fun. Qed.
Print Assumptions C75_one_way.

(* ---- C76 ---- *)
Lemma scan_tables : forall fuel sf tus d w, coherent (units tus) -> scan fuel sf tus = Ok (d, w) ->
  exists evs, run_events sf [] tus evs /\ track (units tus) evs db_empty d /\ blank d = noted evs db_empty.
Proof. intros fuel sf tus d w Hc H. destruct (scan_ok _ _ _ _ _ Hc H) as [evs [H1 H2]]. exists evs. split; [exact H1|]. split; [exact H2|]. exact (proj1 (proj2 H2)). Qed.
Lemma multi_iff : forall T (P : database -> zmap T) pick (key : T -> name) mk,
  (forall ev d, P (note ev d) = match pick ev with Some (n, v) => insert_named n v (P d) | None => P d end) ->
  P db_empty = [] -> (forall d, P (blank d) = P d) ->
  (forall ev n v, pick ev = Some (n, v) <-> ev = mk v /\ n = key v) -> (forall v, walked (mk v) = true) ->
  forall fuel sf tus d w, coherent (units tus) -> scan fuel sf tus = Ok (d, w) ->
  forall k v, In (k, v) (P d) <-> k = n_hash (key v) /\ given sf tus (mk v).
Proof.
  intros T P pick key mk Hs H0 Hb Hp Hw fuel sf tus d w Hc H k v. destruct (scan_tables _ _ _ _ _ Hc H) as [evs [H1 [_ H2]]].
  rewrite <- (run_events_given _ _ _ H1 (mk v) (Hw v)). rewrite <- Hb, H2, <- m_range_In.
  destruct (multi_noted T P pick Hs evs db_empty) as [_ Hr]; [rewrite H0; constructor|]. rewrite Hr, H0. cbn [m_range filter map app].
  rewrite of_key_In. split.
  - intros [n [Hn <-]]. apply picked_In in Hn. destruct Hn as [ev [He Hpk]]. apply Hp in Hpk. destruct Hpk as [-> ->]. split; [reflexivity|exact He].
  - intros [-> He]. exists (key v). split; [|reflexivity]. apply picked_In. exists (mk v). split; [exact He|]. apply Hp. split; reflexivity.
Qed.
Ltac pick_tac := intros [o [ | | | | ]|p|p c s|p|e|c|f|f|nm c|nm z|nm [[? ?] ?]|nm|b c] n0 v0; cbn;
  (split; [intros Hx; first [discriminate Hx | injection Hx as <- <-; split; reflexivity] | intros [Hx ->]; first [discriminate Hx | injection Hx as ->; reflexivity]]).
(* A field is in the database exactly when a declaration that is looked at and reflected gives it; so for functions,
   enums and their constants. *)
Theorem C76_recorded_iff_declared : forall fuel sf tus d w, coherent (units tus) -> scan fuel sf tus = Ok (d, w) ->
  (forall k f, In (k, f) (m_fields d) <-> k = n_hash (p_name (f_prim f)) /\ given sf tus (Field_ f)) /\
  (forall k f, In (k, f) (m_functions d) <-> k = n_hash (p_name (fn_prim f)) /\ given sf tus (Function_ f)) /\
  (forall k e, In (k, e) (m_enums d) <-> k = n_hash (p_name (e_prim e)) /\ given sf tus (Enum_ e)) /\
  (forall k c, In (k, c) (m_enum_consts d) <-> k = n_hash (p_name (ec_prim c)) /\ given sf tus (Const_ c)).
Proof.
  intros fuel sf tus d w Hc H. split; [|split; [|split]].
  - apply (multi_iff _ m_fields a_field (fun f => p_name (f_prim f)) Field_ field_step eq_refl (fun _ => eq_refl)) with (fuel := fuel) (w := w); [pick_tac|reflexivity|exact Hc|exact H].
  - apply (multi_iff _ m_functions a_function (fun f => p_name (fn_prim f)) Function_ function_step eq_refl (fun _ => eq_refl)) with (fuel := fuel) (w := w); [pick_tac|reflexivity|exact Hc|exact H].
  - apply (multi_iff _ m_enums an_enum (fun f => p_name (e_prim f)) Enum_ enum_step eq_refl (fun _ => eq_refl)) with (fuel := fuel) (w := w); [pick_tac|reflexivity|exact Hc|exact H].
  - apply (multi_iff _ m_enum_consts a_constant (fun f => p_name (ec_prim f)) Const_ const_step eq_refl (fun _ => eq_refl)) with (fuel := fuel) (w := w); [pick_tac|reflexivity|exact Hc|exact H].
Qed.
Print Assumptions C76_recorded_iff_declared.

(* ---- C77 ---- *)
Lemma multi_order : forall T (P : database -> zmap T) pick,
  (forall ev d, P (note ev d) = match pick ev with Some (n, v) => insert_named n v (P d) | None => P d end) ->
  P db_empty = [] -> forall evs h, m_range h (P (noted evs db_empty)) = named h pick evs.
Proof.
  intros T P pick Hs H0 evs h. destruct (multi_noted T P pick Hs evs db_empty) as [_ Hr]; [rewrite H0; constructor|]. rewrite Hr, H0, of_key_named. reflexivity.
Qed.
Lemma once_first : forall T (P : database -> zmap T) pick,
  (forall ev d, P (note ev d) = match pick ev with Some (n, v) => insert_new n v (P d) | None => P d end) ->
  P db_empty = [] -> forall evs h, m_range h (P (noted evs db_empty)) = firstn 1 (named h pick evs).
Proof.
  intros T P pick Hs H0 evs h. destruct (once_noted T P pick Hs evs db_empty) as [_ Hr]; [rewrite H0; constructor|]. rewrite Hr, H0, of_key_named. reflexivity.
Qed.
(* Looking a name up gives everything declared under it, in source order and as often as declared: overloads, parameters
   and fields of the same name, enums, constants; and each builtin type once for every source scanned. *)
Theorem C77_source_order : forall fuel sf tus d w, coherent (units tus) -> scan fuel sf tus = Ok (d, w) ->
  exists evs, run_events sf [] tus evs /\ forall h,
    m_range h (m_functions d) = named h a_function evs /\ m_range h (m_fields d) = named h a_field evs /\
    m_range h (m_enums d) = named h an_enum evs /\ m_range h (m_enum_consts d) = named h a_constant evs /\
    m_range h (m_types d) = named h a_type evs.
Proof.
  intros fuel sf tus d w Hc H. destruct (scan_tables _ _ _ _ _ Hc H) as [evs [H1 [_ H2]]]. exists evs. split; [exact H1|]. intros h.
  change (m_functions d) with (m_functions (blank d)). change (m_fields d) with (m_fields (blank d)). change (m_enums d) with (m_enums (blank d)).
  change (m_enum_consts d) with (m_enum_consts (blank d)). change (m_types d) with (m_types (blank d)). rewrite H2.
  split; [|split; [|split; [|split]]].
  - apply (multi_order _ m_functions a_function function_step eq_refl).
  - apply (multi_order _ m_fields a_field field_step eq_refl).
  - apply (multi_order _ m_enums an_enum enum_step eq_refl).
  - apply (multi_order _ m_enum_consts a_constant const_step eq_refl).
  - apply (multi_order _ m_types a_type type_step eq_refl).
Qed.
Print Assumptions C77_source_order.

(* ---- C78 ---- *)
(* A namespace or class template is there once, in the scope of its first declaration. A class is there once, in the scope
   and with the kind of its first declaration, and with the size of its last definition, or the size that marks a forward
   declaration if there is none. *)
Theorem C78_declared_once : forall fuel sf tus d w, coherent (units tus) -> scan fuel sf tus = Ok (d, w) ->
  exists evs, run_events sf [] tus evs /\ forall h,
    m_range h (m_namespaces d) = firstn 1 (named h a_namespace evs) /\ m_range h (m_templates d) = firstn 1 (named h a_template evs) /\
    m_range h (m_classes d) = class_of (class_events h evs).
Proof.
  intros fuel sf tus d w Hc H. destruct (scan_tables _ _ _ _ _ Hc H) as [evs [H1 [_ H2]]]. exists evs. split; [exact H1|]. intros h.
  change (m_namespaces d) with (m_namespaces (blank d)). change (m_templates d) with (m_templates (blank d)). change (m_classes d) with (m_classes (blank d)). rewrite H2.
  split; [|split].
  - apply (once_first _ m_namespaces a_namespace namespace_step eq_refl).
  - apply (once_first _ m_templates a_template template_step eq_refl).
  - apply classes_are.
Qed.
Print Assumptions C78_declared_once.
Lemma once_iff : forall T h (pick : event -> option (name * T)) evs, (exists v, In v (firstn 1 (named h pick evs))) <-> exists ev n v, In ev evs /\ pick ev = Some (n, v) /\ n_hash n = h.
Proof.
  intros T h pick evs. assert (E : (exists v, In v (firstn 1 (named h pick evs))) <-> exists v, In v (named h pick evs)).
  { destruct (named h pick evs) as [|v l]; split; intros [x Hx]; try (destruct Hx; fail); exists v; left; reflexivity. }
  rewrite E. unfold named. split.
  - intros [v Hv]. apply in_flat_map in Hv. destruct Hv as [ev [H1 H2]]. destruct (pick ev) as [[n w]|] eqn:Ep; [|destruct H2]. destruct (Z.eqb_spec (n_hash n) h) as [<-|]; [|destruct H2].
    exists ev, n, w. auto.
  - intros [ev [n [v [H1 [H2 <-]]]]]. exists v. apply in_flat_map. exists ev. split; [exact H1|]. rewrite H2, Z.eqb_refl. left. reflexivity.
Qed.
(* and they are there when, and only when, some declaration that is looked at and reflected gives them *)
Theorem C78_recorded_iff_declared : forall fuel sf tus d w, coherent (units tus) -> scan fuel sf tus = Ok (d, w) -> forall h,
  (In h (keys (m_namespaces d)) <-> exists p, given sf tus (Namespace_ p) /\ n_hash (p_name p) = h) /\
  (In h (keys (m_templates d)) <-> exists p, given sf tus (Template_ p) /\ n_hash (p_name p) = h) /\
  (In h (keys (m_classes d)) <-> exists p c size, given sf tus (Class_ p c size) /\ n_hash (p_name p) = h).
Proof.
  intros fuel sf tus d w Hc H h. destruct (C78_declared_once _ _ _ _ _ Hc H) as [evs [H1 H2]]. destruct (H2 h) as [N1 [N2 N3]].
  assert (K : forall T (m : zmap T), In h (keys m) <-> exists v, In v (m_range h m)).
  { intros T m. unfold keys. rewrite in_map_iff. split.
    - intros [[k v] [Ek Hin]]. cbn in Ek. subst k. exists v. apply m_range_In. exact Hin.
    - intros [v Hv]. apply m_range_In in Hv. exists (h, v). split; [reflexivity|exact Hv]. }
  rewrite !K, N1, N2, N3, !once_iff. split; [|split].
  - split.
    + intros [ev [n [v [I1 [I2 I3]]]]]. destruct ev; cbn in I2; try discriminate I2. injection I2 as <- <-. exists p. rewrite <- (run_events_given _ _ _ H1) by reflexivity. auto.
    + intros [p [I1 I2]]. rewrite <- (run_events_given _ _ _ H1) in I1 by reflexivity. exists (Namespace_ p), (p_name p), p. auto.
  - split.
    + intros [ev [n [v [I1 [I2 I3]]]]]. destruct ev; cbn in I2; try discriminate I2. injection I2 as <- <-. exists p. rewrite <- (run_events_given _ _ _ H1) by reflexivity. auto.
    + intros [p [I1 I2]]. rewrite <- (run_events_given _ _ _ H1) in I1 by reflexivity. exists (Template_ p), (p_name p), p. auto.
  - assert (C : (exists v, In v (class_of (class_events h evs))) <-> exists e, In e (class_events h evs)).
    { unfold class_of. destruct (class_events h evs) as [|[[p c] s] l]; split; intros [x Hx]; try (destruct Hx; fail); eexists; left; reflexivity. }
    rewrite C. unfold class_events. split.
    + intros [[[p c] s] He]. apply in_flat_map in He. destruct He as [ev [I1 I2]]. destruct ev as [ | |p' c' s'| | | | | | | | | | ]; try (destruct I2; fail).
      destruct (Z.eqb_spec (n_hash (p_name p')) h) as [Eh|]; [|destruct I2]. exists p', c', s'. rewrite <- (run_events_given _ _ _ H1) by reflexivity. auto.
    + intros [p [c [s [I1 I2]]]]. rewrite <- (run_events_given _ _ _ H1) in I1 by reflexivity. exists (p, c, s). apply in_flat_map. exists (Class_ p c s). split; [exact I1|].
      cbn. apply Z.eqb_eq in I2. rewrite I2. left. reflexivity.
Qed.
Print Assumptions C78_recorded_iff_declared.

(* ---- C79 ---- *)
(* Arrays and containers: the container a name has is the one requested for it, if there is one, and otherwise the array
   declared first under that name; there is no other. *)
Theorem C79_containers : forall fuel sf tus d w, coherent (units tus) -> scan fuel sf tus = Ok (d, w) ->
  exists evs, run_events sf [] tus evs /\ forall h,
    m_find h (m_containers d) = match rev (named h a_container evs) with c :: _ => Some c | [] => hd_error (named h an_array evs) end.
Proof.
  intros fuel sf tus d w Hc H. destruct (scan_tables _ _ _ _ _ Hc H) as [evs [H1 [_ H2]]]. exists evs. split; [exact H1|]. intros h.
  change (m_containers d) with (m_containers (blank d)). rewrite H2. apply containers_are.
Qed.
Print Assumptions C79_containers.
(* the containers requested: the last request for each counts, wherever in the run it was made *)
Theorem C79_requested : forall sf tus evs nm c, run_events sf [] tus evs ->
  (In (Container_ nm c) evs <-> exists l1 a l2, requests tus = l1 ++ a :: l2 /\ container_request a (nm, c) /\ forall a' c', In a' l2 -> ~ container_request a' (nm, c')).
Proof.
  intros sf tus evs nm c H. pose proof (run_events_In _ _ _ _ H (Container_ nm c)) as I. rewrite I. clear I. cbn [app]. split.
  - intros [X|[[_ [t [_ X]]]|[cs [x [C1 [C2 C3]]]]]].
    + exfalso. destruct X as [b [E [tu [a [_ [al [p [l [dd [_ G]]]]]]]]]]. apply gives_walked in G. discriminate G.
    + discriminate X.
    + destruct x as [nm' c']. cbn [fst snd] in C3. assert (nm' = nm /\ c' = c) as [-> ->] by (split; congruence). apply C1. exact C2.
  - intros X. right. right. assert (Ex : exists cs, containers_of (requests tus) cs).
    { clear X nm c. change (requests tus) with ([] ++ requests tus). revert H. generalize (@nil (list Z)). induction 1 as [asked cs Hc|asked E tu evs r more Hu Hr IH].
      - exists cs. cbn. rewrite app_nil_r. exact Hc.
      - rewrite requests_cons. cbn [snd]. rewrite app_assoc. exact IH. }
    destruct Ex as [cs Hcs]. exists cs, (nm, c). split; [exact Hcs|]. split; [apply Hcs; exact X|reflexivity].
Qed.
Print Assumptions C79_requested.

(* ---- C80 ---- *)
(* Every template type in the database is one of the template specialisations of the sources, named by its template and
   arguments, with the names and pointer marks of its arguments and its size. The specialisations it mentions are in the
   database too, and so is its inheritance. And every specialisation used by a field, parameter, return value or base
   class of a reflected declaration is there. *)
Theorem C80_template_types : forall fuel sf tus d w, coherent (units tus) -> scan fuel sf tus = Ok (d, w) ->
  template_types_ok (units tus) d /\ forall nm, given sf tus (Instance_ nm) -> recorded_instance d nm.
Proof.
  intros fuel sf tus d w Hc H. destruct (scan_tables _ _ _ _ _ Hc H) as [evs [H1 [H2 _]]]. split; [exact (proj2 (track_inv _ _ _ _ H2))|].
  intros nm Hn. rewrite <- (run_events_given _ _ _ H1) in Hn by reflexivity. destruct H2 as [_ [_ [_ [_ [_ H2]]]]]. apply H2. exact Hn.
Qed.
Print Assumptions C80_template_types.

(* ---- C81 ---- *)
(* Inheritance: every entry is base<-derived for a base class of a reflected class or of a template specialisation, and the
   base classes of reflected classes are all there. *)
Theorem C81_inheritance : forall fuel sf tus d w, coherent (units tus) -> scan fuel sf tus = Ok (d, w) ->
  (forall e, In e (m_inherits d) -> exists base derived, e = inherits_entry base derived /\
     (given sf tus (Derived_ derived base) \/ instance_base (units tus) base derived)) /\
  (forall derived base, given sf tus (Derived_ derived base) -> recorded_base d base derived).
Proof.
  intros fuel sf tus d w Hc H. destruct (scan_tables _ _ _ _ _ Hc H) as [evs [H1 [H2 _]]]. destruct H2 as [_ [_ [_ [H3 [H4 _]]]]]. split.
  - intros e He. destruct (H3 e He) as [[]|[b [n [-> [Hi|Hi]]]]]; exists b, n; (split; [reflexivity|]); [right; exact Hi|left]. rewrite <- (run_events_given _ _ _ H1) by reflexivity. exact Hi.
  - intros n b Hn. rewrite <- (run_events_given _ _ _ H1) in Hn by reflexivity. apply H4. exact Hn.
Qed.
Print Assumptions C81_inheritance.

(* ---- C82 ---- *)
Lemma attr_both : forall T (P : database -> zmap T) pick same,
  (forall ev d, P (note ev d) = match pick ev with Some (n, v) => insert_attr same n v (P d) | None => P d end) ->
  P db_empty = [] -> (forall d, P (blank d) = P d) -> forall evs d, blank d = noted evs db_empty ->
  (forall k v, In (k, v) (P d) -> exists ev n, In ev evs /\ pick ev = Some (n, v) /\ k = n_hash n) /\
  (forall ev n v, In ev evs -> pick ev = Some (n, v) -> exists w, In (n_hash n, w) (P d) /\ (w = v \/ same w v = true)).
Proof.
  intros T P pick same Hs H0 Hb evs d Hd. rewrite <- Hb, Hd. destruct (attr_noted T P pick same Hs evs db_empty) as [A1 [_ A3]]. split.
  - intros k v Hin. destruct (A1 _ _ Hin) as [Hin'|[n [Hin' ->]]]; [rewrite H0 in Hin'; destruct Hin'|]. apply picked_In in Hin'. destruct Hin' as [ev [E1 E2]]. exists ev, n. auto.
  - intros ev n v G Hp. apply A3. apply picked_In. exists ev. auto.
Qed.
(* Attributes: what is recorded are the attributes of declarations that are looked at, with the declaration as their
   parent. None is lost, but one that equals the first recorded under its name is not added again. *)
Theorem C82_attributes : forall fuel sf tus d w, coherent (units tus) -> scan fuel sf tus = Ok (d, w) ->
  ((forall k x, In (k, x) (m_flag_attrs d) -> exists o n, given sf tus (Attribute_ o (FlagAttr n)) /\ x = mk_prim n (name_of o) /\ k = n_hash n) /\
   (forall o n, given sf tus (Attribute_ o (FlagAttr n)) ->
      exists x, In (n_hash n, x) (m_flag_attrs d) /\ (x = mk_prim n (name_of o) \/ prim_eqb x (mk_prim n (name_of o)) = true))) /\
  ((forall k x, In (k, x) (m_int_attrs d) -> exists o n v, given sf tus (Attribute_ o (IntAttr n v)) /\ x = mk_int (mk_prim n (name_of o)) v /\ k = n_hash n) /\
   (forall o n v, given sf tus (Attribute_ o (IntAttr n v)) ->
      exists x, In (n_hash n, x) (m_int_attrs d) /\ (x = mk_int (mk_prim n (name_of o)) v \/ int_attr_eqb x (mk_int (mk_prim n (name_of o)) v) = true))) /\
  ((forall k x, In (k, x) (m_float_attrs d) -> exists o n v, given sf tus (Attribute_ o (FloatAttr n v)) /\ x = mk_float (mk_prim n (name_of o)) v /\ k = n_hash n) /\
   (forall o n v, given sf tus (Attribute_ o (FloatAttr n v)) ->
      exists x, In (n_hash n, x) (m_float_attrs d) /\ (x = mk_float (mk_prim n (name_of o)) v \/ float_attr_eqb x (mk_float (mk_prim n (name_of o)) v) = true))) /\
  ((forall k x, In (k, x) (m_prim_attrs d) -> exists o n v, given sf tus (Attribute_ o (PrimAttr n v)) /\ x = mk_pattr (mk_prim n (name_of o)) v /\ k = n_hash n) /\
   (forall o n v, given sf tus (Attribute_ o (PrimAttr n v)) ->
      exists x, In (n_hash n, x) (m_prim_attrs d) /\ (x = mk_pattr (mk_prim n (name_of o)) v \/ prim_attr_eqb x (mk_pattr (mk_prim n (name_of o)) v) = true))) /\
  ((forall k x, In (k, x) (m_text_attrs d) -> exists o n v, given sf tus (Attribute_ o (TextAttr n v)) /\ x = mk_text (mk_prim n (name_of o)) v /\ k = n_hash n) /\
   (forall o n v, given sf tus (Attribute_ o (TextAttr n v)) ->
      exists x, In (n_hash n, x) (m_text_attrs d) /\ (x = mk_text (mk_prim n (name_of o)) v \/ text_attr_eqb x (mk_text (mk_prim n (name_of o)) v) = true))).
Proof.
  intros fuel sf tus d w Hc H. destruct (scan_tables _ _ _ _ _ Hc H) as [evs [H1 [_ H2]]].
  assert (G : forall o a, In (Attribute_ o a) evs <-> given sf tus (Attribute_ o a)) by (intros; apply run_events_given; [exact H1|reflexivity]).
  split; [|split; [|split; [|split]]].
  - destruct (attr_both _ m_flag_attrs flag_ev prim_eqb flag_step eq_refl (fun _ => eq_refl) evs d H2) as [A1 A2]. split.
    + intros k x Hin. destruct (A1 _ _ Hin) as [ev [n [E1 [E2 E3]]]]. destruct ev as [o [m0|m0 v0|m0 v0|m0 v0|m0 v0]| | | | | | | | | | | | ]; cbn in E2; try discriminate E2.
      assert (n = m0) by congruence. subst m0. exists o, n. rewrite <- G. split; [exact E1|]. split; [|exact E3]. congruence.
    + intros o n Ha. rewrite <- G in Ha. exact (A2 _ n _ Ha eq_refl).
  - destruct (attr_both _ m_int_attrs int_ev int_attr_eqb int_step eq_refl (fun _ => eq_refl) evs d H2) as [A1 A2]. split.
    + intros k x Hin. destruct (A1 _ _ Hin) as [ev [n [E1 [E2 E3]]]]. destruct ev as [o [m0|m0 v0|m0 v0|m0 v0|m0 v0]| | | | | | | | | | | | ]; cbn in E2; try discriminate E2.
      assert (n = m0) by congruence. subst m0. exists o, n, v0. rewrite <- G. split; [exact E1|]. split; [|exact E3]. congruence.
    + intros o n v Ha. rewrite <- G in Ha. exact (A2 _ n _ Ha eq_refl).
  - destruct (attr_both _ m_float_attrs float_ev float_attr_eqb float_step eq_refl (fun _ => eq_refl) evs d H2) as [A1 A2]. split.
    + intros k x Hin. destruct (A1 _ _ Hin) as [ev [n [E1 [E2 E3]]]]. destruct ev as [o [m0|m0 v0|m0 v0|m0 v0|m0 v0]| | | | | | | | | | | | ]; cbn in E2; try discriminate E2.
      assert (n = m0) by congruence. subst m0. exists o, n, v0. rewrite <- G. split; [exact E1|]. split; [|exact E3]. congruence.
    + intros o n v Ha. rewrite <- G in Ha. exact (A2 _ n _ Ha eq_refl).
  - destruct (attr_both _ m_prim_attrs prim_ev prim_attr_eqb prim_step eq_refl (fun _ => eq_refl) evs d H2) as [A1 A2]. split.
    + intros k x Hin. destruct (A1 _ _ Hin) as [ev [n [E1 [E2 E3]]]]. destruct ev as [o [m0|m0 v0|m0 v0|m0 v0|m0 v0]| | | | | | | | | | | | ]; cbn in E2; try discriminate E2.
      assert (n = m0) by congruence. subst m0. exists o, n, v0. rewrite <- G. split; [exact E1|]. split; [|exact E3]. congruence.
    + intros o n v Ha. rewrite <- G in Ha. exact (A2 _ n _ Ha eq_refl).
  - destruct (attr_both _ m_text_attrs text_ev text_attr_eqb text_step eq_refl (fun _ => eq_refl) evs d H2) as [A1 A2]. split.
    + intros k x Hin. destruct (A1 _ _ Hin) as [ev [n [E1 [E2 E3]]]]. destruct ev as [o [m0|m0 v0|m0 v0|m0 v0|m0 v0]| | | | | | | | | | | | ]; cbn in E2; try discriminate E2.
      assert (n = m0) by congruence. subst m0. exists o, n, v0. rewrite <- G. split; [exact E1|]. split; [|exact E3]. congruence.
    + intros o n v Ha. rewrite <- G in Ha. exact (A2 _ n _ Ha eq_refl).
Qed.
Print Assumptions C82_attributes.

(* ---- C83 ---- *)
(* A function in the database is complete: all its parameters are there, numbered from 0 in their order (this first),
   each with the function as parent and with the unique id of the function, which is the one of these parameters; and so
   is its return value, numbered -1, unless its type is called void. *)
Theorem C83_functions_complete : forall fuel sf tus d w, coherent (units tus) -> scan fuel sf tus = Ok (d, w) ->
  forall k f, In (k, f) (m_functions d) -> exists ps ret,
    CalculateFunctionUniqueID ps = Ok (fn_uid f) /\
    (forall j p, nth_error ps j = Some p -> f_offset p = Z.of_nat j /\ p_parent (f_prim p) = p_name (fn_prim f) /\ f_parent_uid p = fn_uid f /\
       In (n_hash (p_name (f_prim p)), p) (m_fields d)) /\
    f_offset ret = -1 /\ p_parent (f_prim ret) = p_name (fn_prim f) /\ f_parent_uid ret = fn_uid f /\
    (n_text (f_type ret) <> str "void" -> In (n_hash (p_name (f_prim ret)), ret) (m_fields d)).
Proof.
  intros fuel sf tus d w Hc H k f Hf. destruct (C76_recorded_iff_declared _ _ _ _ _ Hc H) as [F1 [F2 _]]. apply F2 in Hf. destruct Hf as [_ Hf].
  destruct (given_group _ _ _ Hf) as [[]|[[fn [ps [ret [G [X [_ G4]]]]]]|[x [X _]]]]; [|discriminate X].
  assert (fn = f) by (destruct X as [X|[p [X _]]]; congruence). subst fn. destruct G as [_ [G1 [G2 [G3 [G5 G6]]]]]. exists ps, ret. split; [exact G1|]. split; [|split; [|split; [|split]]].
  - intros j p Hp. destruct (G2 j p Hp) as [A B]. pose proof (nth_error_In _ _ Hp) as Hin. split; [rewrite A; lia|]. split; [exact B|]. split; [apply G3; right; exact Hin|].
    apply F1. split; [reflexivity|]. apply G4. apply in_or_app. right. exact Hin.
  - exact G5.
  - exact G6.
  - apply G3. left. reflexivity.
  - intros Hv. apply F1. split; [reflexivity|]. apply G4. apply in_or_app. left. unfold returned. destruct (list_eqb (n_text (f_type ret)) (str "void")) eqn:E; [|left; reflexivity].
    apply list_eqb_eq in E. contradiction.
Qed.
Print Assumptions C83_functions_complete.
(* And there are no other parameters: a field with a unique id belongs to a function that is in the database. *)
Theorem C83_parameters_belong : forall fuel sf tus d w, coherent (units tus) -> scan fuel sf tus = Ok (d, w) ->
  forall k p, In (k, p) (m_fields d) -> f_parent_uid p <> 0 ->
  exists f, In (n_hash (p_name (fn_prim f)), f) (m_functions d) /\ fn_uid f = f_parent_uid p /\ p_name (fn_prim f) = p_parent (f_prim p).
Proof.
  intros fuel sf tus d w Hc H k p Hp Hu. destruct (C76_recorded_iff_declared _ _ _ _ _ Hc H) as [F1 [F2 _]]. apply F1 in Hp. destruct Hp as [_ Hp].
  destruct (given_group _ _ _ Hp) as [[]|[[fn [ps [ret [G [X [G4 _]]]]]]|[x [X Y]]]].
  - destruct X as [X|[q [X Hin]]]; [discriminate X|]. assert (q = p) by congruence. subst q. destruct G as [_ [G1 [G2 [G3 [G5 G6]]]]]. exists fn. split; [apply F2; split; [reflexivity|exact G4]|].
    assert (Hin' : In p (ret :: ps)).
    { apply in_app_or in Hin. destruct Hin as [Hin|Hin]; [|right; exact Hin]. unfold returned in Hin. destruct (list_eqb _ _); [destruct Hin|]. destruct Hin as [->|[]]. left. reflexivity. }
    split; [symmetry; exact (G3 _ Hin')|]. destruct Hin' as [->|Hin']; [symmetry; exact G6|]. apply In_nth_error in Hin'. destruct Hin' as [j Hj]. destruct (G2 j p Hj) as [_ B]. symmetry. exact B.
  - assert (x = p) by congruence. subst x. contradiction.
Qed.
Print Assumptions C83_parameters_belong.

(* ---- C84 ---- *)
(* Scanning ends, however large the source, if no template specialisation mentions itself in its arguments or base
   classes, directly or through others; fuel is more than the longest chain of mentions. *)
Theorem C84_scan_ends : forall fuel sf tus, (forall E, units tus E -> ranked fuel E) -> scan fuel sf tus <> Fuel.
Proof. exact scan_ends. Qed.
Print Assumptions C84_scan_ends.
(* Finding: it does not end for a field of type A<int> with   template <class T> struct A : B<A<T> > { };   *)
Theorem C84_recursive_base_refuted : exists E q, forall fuel d nm owner i r, m_template_types d = [] -> MakeField fuel E d q nm owner i <> Ok r.
Proof. exists crtp, (Q false (T_tspec (str "A<int>") (RD_spec 0))). exact crtp_field. Qed.
Print Assumptions C84_recursive_base_refuted.

(* ---- the source of ScanWitness.v ---- *)
(* the theorems apply to it; what they say of it can be seen in its database *)
Example C75_case : coherent (units w_tus) /\ (exists w, scan 3 w_sf w_tus = Ok (w_db, w)) /\ (forall E, units w_tus E -> ranked 3 E).
Proof.
  split; [exact w_coherent|]. split; [exact w_scan|]. intros E [<-|[]]. exists (fun _ => 0%nat). split; [|intros; lia]. intros i j [[q [[Hq|[]] [n [e [op [c [t [H1 [H2 H3]]]]]]]]]|[b [[<-|[]] [c [t [H1 H2]]]]]]; exfalso.
  - assert (q = t_int) by congruence. subst q. inversion H1 as [|c' t' Hn]; subst. inversion H2 as [? ? ? ? ? X|? ? ? ? ? X|? ? ? X]; subst; inversion X; subst; discriminate H3.
  - apply stands_update in H1. vm_compute in H1. assert (t = T_record (str "struct N::P") RD_plain) by (vm_compute; congruence). subst t. discriminate H2.
Qed.
Example C76_case :
  let fields := texts (fun f => p_name (f_prim f)) (m_fields w_db) in
  count_text (str "b") fields = 1 /\ count_text (str "unnamed2") fields = 1 /\ count_text (str "return") fields = 2 /\
  count_text (str "z") fields = 0 /\ count_text (str "y") fields = 0 /\
  texts (fun f => p_name (fn_prim f)) (m_functions w_db) = [str "N::S::m"; str "N::f"; str "N::f"] /\
  texts (fun e => p_name (e_prim e)) (m_enums w_db) = [str "N::E"] /\
  map (fun e => (n_text (p_name (ec_prim (snd e))), ec_value (snd e))) (m_enum_consts w_db) = [(str "N::X", 0); (str "N::Y", -1)].
Proof. vm_compute. repeat split; reflexivity. Qed.
Example C77_case : map (fun f => (n_text (p_name (fn_prim f)), fn_uid f)) (m_range (thash (str "N::f")) (m_functions w_db)) <> [] /\
  length (m_range (thash (str "N::f")) (m_functions w_db)) = 2%nat.
Proof. vm_compute. split; [intros H; discriminate H|reflexivity]. Qed.
Example C78_case :
  map (fun c => (n_text (p_name (c_prim (snd c))), c_size (snd c), c_is_class (snd c))) (m_classes w_db) = [(str "N::P", FORWARD_DECL_SIZE, false); (str "N::S", 40, false)] /\
  texts p_name (m_namespaces w_db) = [str "N"] /\ texts p_name (m_templates w_db) = [str "N::V"].
Proof. vm_compute. repeat split; reflexivity. Qed.
Example C79_case :
  map (fun c => (n_text (ci_name (snd c)), n_text (ci_read (snd c)), ci_flags (snd c), ci_count (snd c))) (m_containers w_db) =
    [(str "N::S::b", [], 2, 4); (str "N::V<int>", str "R", 1, 0)].
Proof. vm_compute. reflexivity. Qed.
Example C80_case :
  map (fun t => (n_text (p_name (tt_prim (snd t))), n_text (p_parent (tt_prim (snd t))), map n_text (tt_types (snd t)), tt_size (snd t))) (m_template_types w_db) =
    [(str "N::V<int>", str "N::V", [str "int"; []; []; []], 8)].
Proof. vm_compute. reflexivity. Qed.
Example C81_case : map (fun e => (n_text (ti_derived (snd e)), n_text (ti_base (snd e)))) (m_inherits w_db) = [(str "N::V<int>", str "N::P"); (str "N::S", str "N::P")].
Proof. vm_compute. reflexivity. Qed.
(* the attribute of O is recorded although O is not *)
Example C82_case :
  map (fun a => (n_text (p_name (snd a)), n_text (p_parent (snd a)))) (m_flag_attrs w_db) = [(str "tag", str "O")] /\
  map (fun a => (n_text (p_name (ia_prim (snd a))), n_text (p_parent (ia_prim (snd a))), ia_value (snd a))) (m_int_attrs w_db) = [(str "weight", str "N::S", 3)].
Proof. vm_compute. split; reflexivity. Qed.
Example C83_case :
  map (fun f => (n_text (f_type f), f_offset f)) (filter (fun f => list_eqb (n_text (p_parent (f_prim f))) (str "N::S::m")) (map snd (m_fields w_db))) =
    [(str "N::S", 0); (str "N::V<int>", 1); (str "float", 2)].
Proof. vm_compute. reflexivity. Qed.

(* ---- findings ---- *)
Definition tables (E : env) (tu : list decl) : database := match scan 3 w_sf [(E, tu)] with Ok (d, _) => d | _ => db_empty end.
Definition in_S (l : list leaf) : list decl := [ask "full-S"; D_record (H "S" []) (plain [] 8) (map (D_leaf (H "S::m" [])) l)].
(* a template of four parameters is recorded, but a field whose type is an instance of it is not *)
Theorem C80_four_arguments_refuted : exists E, let d := tables E (in_S [L_template 4 false; L_field false (str "f") 0 (Q false (T_tspec (str "V<int, int, int, int>") (RD_spec 0)))]) in
  texts p_name (m_templates d) = [str "S::m"] /\ m_fields d = [] /\ m_template_types d = [].
Proof. exists (fun _ => mk_cts (str "V") [TA_type t_int; TA_type t_int; TA_type t_int; TA_type t_int] [] 8). vm_compute. repeat split; reflexivity. Qed.
Print Assumptions C80_four_arguments_refuted.
(* instances that differ in the const of an argument have the same name, and only the first is recorded *)
Theorem C80_const_argument_refuted : exists E, let d := tables E (in_S [L_field false (str "f") 0 (Q false (T_tspec (str "V<const int>") (RD_spec 0)));
    L_field false (str "g") 0 (Q false (T_tspec (str "V<int>") (RD_spec 1)))]) in
  texts (fun t => p_name (tt_prim t)) (m_template_types d) = [str "V<int>"] /\ texts f_type (m_fields d) = [str "V<int>"; str "V<int>"].
Proof. exists (fun i => mk_cts (str "V") [TA_type (Q (i =? 0) (T_builtin (str "int")))] [] 8). vm_compute. split; reflexivity. Qed.
Print Assumptions C80_const_argument_refuted.
(* a function returning void* is recorded as one that returns nothing *)
Theorem C83_void_pointer_refuted : let d := tables wE (in_S [L_method false false t_int (mk_fn true (Q false (T_pointer (Q false (T_builtin (str "void"))))) [])]) in
  texts (fun f => p_name (fn_prim f)) (m_functions d) = [str "S::m"] /\ m_fields d = [].
Proof. vm_compute. split; reflexivity. Qed.
Print Assumptions C83_void_pointer_refuted.
(* the same attribute twice on one declaration is recorded twice when another declaration has an attribute of that name *)
Theorem C82_duplicates_refuted : let d := tables wE [D_record (H "O" ["attr:tag"]) (plain [] 4) []; D_record (H "P" ["attr:tag,tag"]) (plain [] 4) []] in
  map (fun a => n_text (p_parent (snd a))) (m_flag_attrs d) = [str "O"; str "P"; str "P"].
Proof. vm_compute. reflexivity. Qed.
Print Assumptions C82_duplicates_refuted.
(* a template instance one of whose later base classes is virtual is not recorded, but the inheritance from the earlier one is *)
Theorem C81_left_behind_refuted : exists E, let d := tables E (in_S [L_field false (str "f") 0 (Q false (T_tspec (str "V<int>") (RD_spec 0)))]) in
  m_template_types d = [] /\ m_fields d = [] /\ map (fun e => n_text (ti_derived (snd e))) (m_inherits d) = [str "V<int>"].
Proof. exists (fun _ => mk_cts (str "V") [TA_type t_int] [mk_base false t_P; mk_base true t_P] 8). vm_compute. repeat split; reflexivity. Qed.
Print Assumptions C81_left_behind_refuted.
