(* C85-C86: the database of a scan through a file, and the databases of several scans merged. *)
From Verif Require Import Base BaseProofs Text HashModel HashSpec Maps FileUtilsSpec DatabaseModel AttrModel NamesProofs MergeModel MergeSpec MergeProofs
  BinaryModel BinarySpec BinaryProps TextDbModel TextDbSpec TextDbProps ScanModel PipeInvProofs PipeSpec PipeFileProofs PipeMergeProofs PipeScanProofs.
From Verif Require ScanSpec ScanTableProofs ScanProps ScanWitness PipeWitness.
Local Open Scope string_scope.
Local Open Scope list_scope.
Local Open Scope Z_scope.

(* ---- C85 ---- *)
(* What a scan leaves can be written to a binary file and is read back unchanged, whatever was scanned: no other part of
   the database can be wrong. *)
Theorem C85_scan_to_file : forall fuel sf tus d w, scan fuel sf tus = Ok (d, w) -> fits d -> distinct_texts d ->
  exists file, WriteBinaryDatabase d = Ok file /\ forall rest,
    IsBinaryDatabase (Some (file ++ rest)) = Ok true /\ ReadBinaryDatabase (Some (file ++ rest)) db_empty = Ok (Some d).
Proof.
  intros fuel sf tus d w H F T. apply scan_inv in H. pose proof (C39_round_trip d (inv_storable d H F) T) as R. rewrite (inv_stored d H) in R. exact R.
Qed.
Print Assumptions C85_scan_to_file.
(* the same for text files, with what they lose (C37) *)
Theorem C85_scan_to_text_file : forall fuel sf tus d w pf sf', scan fuel sf tus = Ok (d, w) -> fits_text pf d ->
  exists file, WriteTextDatabase pf d = Ok file /\ forall rest,
    IsTextDatabase (Some (file ++ rest)) = Ok true /\
    (lines rest [] -> ReadTextDatabase sf' (Some (file ++ rest)) db_empty = Ok (Some (text_stored pf sf' d))).
Proof. intros fuel sf tus d w pf sf' H F. apply scan_inv in H. apply C37_round_trip. apply inv_text; assumption. Qed.
Print Assumptions C85_scan_to_text_file.

(* ---- C86 ---- *)
(* Databases scanned run by run and merged hold the fields, functions and enum constants that some run declares, each
   exactly once. *)
Theorem C86_merged_iff_declared : forall sf runs ds d', scanned sf runs ds -> Forall mergeable ds -> MergeAll db_empty ds = Ok d' ->
  (forall k f, In (k, f) (m_fields d') <-> k = n_hash (p_name (f_prim f)) /\ declared sf runs (ScanSpec.Field_ f)) /\
  (forall k f, In (k, f) (m_functions d') <-> k = n_hash (p_name (fn_prim f)) /\ declared sf runs (ScanSpec.Function_ f)) /\
  (forall k c, In (k, c) (m_enum_consts d') <-> k = n_hash (p_name (ec_prim c)) /\ declared sf runs (ScanSpec.Const_ c)) /\
  forall k, NoDup (m_range k (m_fields d')) /\ NoDup (m_range k (m_functions d')) /\ NoDup (m_range k (m_enum_consts d')).
Proof.
  intros sf runs ds d' H M Hm. pose proof (scanned_inv _ _ _ H) as Hi. pose proof (scanned_wf _ _ _ H M) as Hw.
  destruct (merged_fields ds d' Hi Hw Hm) as [A1 A2]. destruct (merged_functions ds d' Hi Hw Hm) as [B1 B2]. destruct (merged_consts ds d' Hi Hw Hm) as [D1 D2].
  split; [|split; [|split]].
  - intros k f. rewrite A1. revert k f. apply (declared_rows _ m_fields (fun f => p_name (f_prim f)) ScanSpec.Field_ sf runs ds); [|exact H].
    intros fuel tus d w Hc Hs. exact (proj1 (ScanProps.C76_recorded_iff_declared _ _ _ _ _ Hc Hs)).
  - intros k f. rewrite B1. revert k f. apply (declared_rows _ m_functions (fun f => p_name (fn_prim f)) ScanSpec.Function_ sf runs ds); [|exact H].
    intros fuel tus d w Hc Hs. exact (proj1 (proj2 (ScanProps.C76_recorded_iff_declared _ _ _ _ _ Hc Hs))).
  - intros k f. rewrite D1. revert k f. apply (declared_rows _ m_enum_consts (fun f => p_name (ec_prim f)) ScanSpec.Const_ sf runs ds); [|exact H].
    intros fuel tus d w Hc Hs. exact (proj2 (proj2 (proj2 (ScanProps.C76_recorded_iff_declared _ _ _ _ _ Hc Hs)))).
  - auto.
Qed.
Print Assumptions C86_merged_iff_declared.
(* Everything else is there once per name: the first that is declared, run by run in source order; of classes, the first
   run with a definition wins. *)
Theorem C86_first_declared : forall sf runs ds d', scanned sf runs ds -> Forall mergeable ds -> MergeAll db_empty ds = Ok d' ->
  exists evss, Forall2 (ScanSpec.run_events sf []) runs evss /\ forall h,
    m_range h (m_namespaces d') = firstn 1 (ScanSpec.named h ScanSpec.a_namespace (concat evss)) /\
    m_range h (m_templates d') = firstn 1 (ScanSpec.named h ScanSpec.a_template (concat evss)) /\
    m_range h (m_enums d') = firstn 1 (ScanSpec.named h ScanSpec.an_enum (concat evss)) /\
    m_range h (m_types d') = firstn 1 (ScanSpec.named h ScanSpec.a_type (concat evss)) /\
    m_range h (m_classes d') = best_class (flat_map (fun evs => ScanSpec.class_of (ScanSpec.class_events h evs)) evss).
Proof.
  intros sf runs ds d' H M Hm. pose proof (scanned_wf _ _ _ H M) as Hw. destruct (scanned_events _ _ _ H) as [evss [E1 E2]]. exists evss. split; [exact E1|]. intros h.
  rewrite (first_namespaces ds d' Hw Hm), (first_templates ds d' Hw Hm), (first_enums ds d' Hw Hm), (first_types ds d' Hw Hm), (best_classes ds d' Hw Hm), !named_concat.
  split; [|split; [|split; [|split]]].
  - rewrite <- (first_flat _ _ (ScanSpec.named h ScanSpec.a_namespace)). f_equal. eapply flat_map_both; [|exact E2]. cbv beta. intros d evs Hb.
    change (m_namespaces d) with (m_namespaces (ScanSpec.blank d)). rewrite Hb. apply (ScanProps.once_first _ m_namespaces ScanSpec.a_namespace ScanTableProofs.namespace_step eq_refl).
  - rewrite <- (first_flat _ _ (ScanSpec.named h ScanSpec.a_template)). f_equal. eapply flat_map_both; [|exact E2]. cbv beta. intros d evs Hb.
    change (m_templates d) with (m_templates (ScanSpec.blank d)). rewrite Hb. apply (ScanProps.once_first _ m_templates ScanSpec.a_template ScanTableProofs.template_step eq_refl).
  - f_equal. eapply flat_map_both; [|exact E2]. cbv beta. intros d evs Hb.
    change (m_enums d) with (m_enums (ScanSpec.blank d)). rewrite Hb. apply (ScanProps.multi_order _ m_enums ScanSpec.an_enum ScanTableProofs.enum_step eq_refl).
  - f_equal. eapply flat_map_both; [|exact E2]. cbv beta. intros d evs Hb.
    change (m_types d) with (m_types (ScanSpec.blank d)). rewrite Hb. apply (ScanProps.multi_order _ m_types ScanSpec.a_type ScanTableProofs.type_step eq_refl).
  - f_equal. eapply flat_map_both; [|exact E2]. cbv beta. intros d evs Hb.
    change (m_classes d) with (m_classes (ScanSpec.blank d)). rewrite Hb. apply ScanTableProofs.classes_are.
Qed.
Print Assumptions C86_first_declared.
(* so a class is known by a forward declaration only if no run has more *)
Theorem C86_class_defined : forall sf runs ds d', scanned sf runs ds -> Forall mergeable ds -> MergeAll db_empty ds = Ok d' ->
  (forall p c s, declared sf runs (ScanSpec.Class_ p c (Some s)) -> s <> FORWARD_DECL_SIZE) -> forall h,
  (In h (keys (m_classes d')) <-> exists p c s, declared sf runs (ScanSpec.Class_ p c s) /\ n_hash (p_name p) = h) /\
  forall c, In (h, c) (m_classes d') ->
    (exists cl s, declared sf runs (ScanSpec.Class_ (c_prim c) cl s) /\ cl = c_is_class c) /\
    (c_size c = FORWARD_DECL_SIZE -> forall p cl s, declared sf runs (ScanSpec.Class_ p cl (Some s)) -> n_hash (p_name p) <> h) /\
    (c_size c <> FORWARD_DECL_SIZE -> exists p cl, declared sf runs (ScanSpec.Class_ p cl (Some (c_size c))) /\ n_hash (p_name p) = h).
Proof.
  intros sf runs ds d' H M Hm Hs h. destruct (C86_first_declared _ _ _ _ H M Hm) as [evss [E1 E2]]. destruct (E2 h) as [_ [_ [_ [_ R]]]]. clear E2.
  assert (G : forall p c s, declared sf runs (ScanSpec.Class_ p c s) <-> exists evs, In evs evss /\ In (ScanSpec.Class_ p c s) evs).
  { intros p c s. clear -E1. unfold declared. induction E1 as [|tus evs runs evss Hr _ IH]; [split; intros [x [[] _]]|].
    pose proof (ScanTableProofs.run_events_given _ _ _ Hr (ScanSpec.Class_ p c s) eq_refl) as I. split.
    - intros [t [[<-|Ht] Hg]]; [exists evs; split; [left; reflexivity|apply I; exact Hg]|]. destruct (proj1 IH) as [e [A B]]; [exists t; auto|]. exists e. split; [right; exact A|exact B].
    - intros [e [[<-|He] Hg]]; [exists tus; split; [left; reflexivity|apply I; exact Hg]|]. destruct (proj2 IH) as [t [A B]]; [exists e; auto|]. exists t. split; [right; exact A|exact B]. }
  set (cls := flat_map (fun evs => ScanSpec.class_of (ScanSpec.class_events h evs)) evss) in *.
  (* what is in the list *)
  assert (CE : forall evs p c s, In (p, c, s) (ScanSpec.class_events h evs) <-> In (ScanSpec.Class_ p c s) evs /\ n_hash (p_name p) = h).
  { intros evs p c s. unfold ScanSpec.class_events. rewrite in_flat_map. split.
    - intros [ev [Hin Hx]]. destruct ev; try destruct Hx. match type of Hx with In _ (if ?b then _ else _) => destruct b eqn:Eb; [|destruct Hx] end. destruct Hx as [Hx|[]]. injection Hx as -> -> ->. split; [exact Hin|lia].
    - intros [Hin Ex]. exists (ScanSpec.Class_ p c s). split; [exact Hin|]. cbn. rewrite Ex, Z.eqb_refl. left. reflexivity. }
  assert (LS : forall l z, let r := fold_left (fun z (e : prim * bool * option Z) => match snd e with Some s => s | None => z end) l z in
     (r = z /\ (forall p c s, In (p, c, Some s) l -> False)) \/ exists p c, In (p, c, Some r) l).
  { induction l as [|[[p c] [s|]] l IH]; intros z; cbn [fold_left snd]; [left; split; [reflexivity|intros ? ? ? []]| |].
    - destruct (IH s) as [[Er _]|[p' [c' Hin]]]; [|right; exists p', c'; right; exact Hin]. right. exists p, c. left. cbv zeta. rewrite Er. reflexivity.
    - destruct (IH z) as [[Er Hn]|[p' [c' Hin]]]; [|right; exists p', c'; right; exact Hin]. left. split; [exact Er|]. intros p' c' s [X|X]; [discriminate X|eapply Hn; exact X]. }
  assert (IN : forall c, In c cls -> exists evs, In evs evss /\ (exists s, In (c_prim c, c_is_class c, s) (ScanSpec.class_events h evs)) /\ c_size c = ScanSpec.last_size (ScanSpec.class_events h evs)).
  { intros c Hc. unfold cls in Hc. apply in_flat_map in Hc. destruct Hc as [evs [He Hc]]. exists evs. split; [exact He|]. unfold ScanSpec.class_of in Hc.
    destruct (ScanSpec.class_events h evs) as [|[[p b] s] l]; [destruct Hc|]. destruct Hc as [<-|[]]. split; [exists s; left; reflexivity|reflexivity]. }
  assert (OUT : forall evs, In evs evss -> ScanSpec.class_events h evs <> [] -> exists c, In c cls /\ c_size c = ScanSpec.last_size (ScanSpec.class_events h evs)).
  { intros evs He Hne. destruct (ScanSpec.class_events h evs) as [|[[p b] s] l] eqn:El; [congruence|]. exists (mk_class p (ScanSpec.last_size ((p, b, s) :: l)) b). split; [|reflexivity].
    unfold cls. apply in_flat_map. exists evs. split; [exact He|]. rewrite El. left. reflexivity. }
  assert (BI : forall c, In c (best_class cls) -> In c cls).
  { intros c Hc. unfold best_class in Hc. assert (X : In c (filter (fun c => negb (is_fwd c)) cls ++ cls)) by (destruct (filter _ cls ++ cls) as [|x r]; [destruct Hc|destruct Hc as [->|[]]; left; reflexivity]).
    apply in_app_or in X. destruct X as [X|X]; [apply filter_In in X; tauto|exact X]. }
  split.
  - rewrite keys_range, R. split.
    + intros X. assert (Y : cls <> []) by (intros Y; rewrite Y in X; apply X; reflexivity). destruct cls as [|c r]; [congruence|]. destruct (IN c (or_introl eq_refl)) as [evs [A [[s B] _]]].
      apply CE in B. exists (c_prim c), (c_is_class c), s. split; [apply G; exists evs; split; [exact A|apply B]|apply B].
    + intros [p [c [s [Hd Eh]]]]. apply G in Hd. destruct Hd as [evs [A B]]. destruct (OUT evs A) as [x [X _]].
      { intros Y. assert (Z0 : In (p, c, s) (ScanSpec.class_events h evs)) by (apply CE; auto). rewrite Y in Z0. destruct Z0. }
      unfold best_class. destruct (filter (fun c0 => negb (is_fwd c0)) cls ++ cls) as [|y r] eqn:Ey; [|intros Z0; discriminate Z0]. apply app_eq_nil in Ey. destruct Ey as [_ Ey]. rewrite Ey in X. destruct X.
  - intros c Hc. apply m_range_In in Hc. rewrite R in Hc. pose proof (BI c Hc) as Hin. destruct (IN c Hin) as [evs [A [[s B] C]]]. apply CE in B. destruct B as [B1 B2]. split; [|split].
    + exists (c_is_class c), s. split; [|reflexivity]. apply G. exists evs. auto.
    + intros Hf p cl s' Hd Eh. pose proof (Hs _ _ _ Hd) as Hns. apply G in Hd. destruct Hd as [evs' [A' B']]. assert (Z0 : In (p, cl, Some s') (ScanSpec.class_events h evs')) by (apply CE; auto).
      destruct (OUT evs' A') as [x [X Ex]]; [intros Y; rewrite Y in Z0; destruct Z0|].
      assert (Nx : is_fwd x = false).
      { unfold is_fwd. rewrite Ex. unfold ScanSpec.last_size. destruct (LS (ScanSpec.class_events h evs') FORWARD_DECL_SIZE) as [[_ Hn]|[p' [c' Hin']]]; [exfalso; eapply Hn; exact Z0|].
        cbv zeta in Hin'. apply Z.eqb_neq. apply (Hs p' c'). apply G. exists evs'. split; [exact A'|]. apply CE in Hin'. tauto. }
      unfold best_class in Hc. assert (Hx : In x (filter (fun c => negb (is_fwd c)) cls)) by (apply filter_In; split; [exact X|rewrite Nx; reflexivity]).
      destruct (filter (fun c => negb (is_fwd c)) cls) as [|y r] eqn:Ef; [destruct Hx|]. cbn in Hc. destruct Hc as [->|[]].
      assert (Hy : In c (filter (fun c => negb (is_fwd c)) cls)) by (rewrite Ef; left; reflexivity). apply filter_In in Hy. destruct Hy as [_ Hy]. unfold is_fwd in Hy. rewrite Hf in Hy. discriminate Hy.
    + intros Hn. unfold ScanSpec.last_size in C. destruct (LS (ScanSpec.class_events h evs) FORWARD_DECL_SIZE) as [[Er _]|[p' [c' Hin']]]; [cbv zeta in Er; congruence|].
      cbv zeta in Hin'. rewrite <- C in Hin'. apply CE in Hin'. exists p', c'. split; [apply G; exists evs; tauto|tauto].
Qed.
Print Assumptions C86_class_defined.
(* Attributes: those some run has, and none is lost; equal ones are kept once. *)
Theorem C86_attributes : forall sf runs ds d', scanned sf runs ds -> Forall mergeable ds -> MergeAll db_empty ds = Ok d' ->
  ((forall k x, In (k, x) (m_flag_attrs d') -> exists o n, declared sf runs (ScanSpec.Attribute_ o (FlagAttr n)) /\ x = mk_prim n (ScanSpec.name_of o) /\ k = n_hash n) /\
   (forall o n, declared sf runs (ScanSpec.Attribute_ o (FlagAttr n)) -> exists x, In (n_hash n, x) (m_flag_attrs d') /\ same_prim x (mk_prim n (ScanSpec.name_of o)))) /\
  ((forall k x, In (k, x) (m_int_attrs d') -> exists o n v, declared sf runs (ScanSpec.Attribute_ o (IntAttr n v)) /\ x = mk_int (mk_prim n (ScanSpec.name_of o)) v /\ k = n_hash n) /\
   (forall o n v, declared sf runs (ScanSpec.Attribute_ o (IntAttr n v)) -> exists x, In (n_hash n, x) (m_int_attrs d') /\ same_int_attr x (mk_int (mk_prim n (ScanSpec.name_of o)) v))) /\
  ((forall k x, In (k, x) (m_float_attrs d') -> exists o n v, declared sf runs (ScanSpec.Attribute_ o (FloatAttr n v)) /\ x = mk_float (mk_prim n (ScanSpec.name_of o)) v /\ k = n_hash n) /\
   (forall o n v, declared sf runs (ScanSpec.Attribute_ o (FloatAttr n v)) -> exists x, In (n_hash n, x) (m_float_attrs d') /\ same_float_attr x (mk_float (mk_prim n (ScanSpec.name_of o)) v))) /\
  ((forall k x, In (k, x) (m_prim_attrs d') -> exists o n v, declared sf runs (ScanSpec.Attribute_ o (PrimAttr n v)) /\ x = mk_pattr (mk_prim n (ScanSpec.name_of o)) v /\ k = n_hash n) /\
   (forall o n v, declared sf runs (ScanSpec.Attribute_ o (PrimAttr n v)) -> exists x, In (n_hash n, x) (m_prim_attrs d') /\ same_prim_attr x (mk_pattr (mk_prim n (ScanSpec.name_of o)) v))) /\
  ((forall k x, In (k, x) (m_text_attrs d') -> exists o n v, declared sf runs (ScanSpec.Attribute_ o (TextAttr n v)) /\ x = mk_text (mk_prim n (ScanSpec.name_of o)) v /\ k = n_hash n) /\
   (forall o n v, declared sf runs (ScanSpec.Attribute_ o (TextAttr n v)) -> exists x, In (n_hash n, x) (m_text_attrs d') /\ same_text_attr x (mk_text (mk_prim n (ScanSpec.name_of o)) v))).
Proof.
  intros sf runs ds d' H M Hm. pose proof (scanned_wf _ _ _ H M) as Hw.
  destruct (MergeProps.C36_overloads_are_the_union ds d' Hw Hm) as [_ [_ [_ [U1 [U2 [U3 [U4 U5]]]]]]].
  destruct MergeProps.C36_what_is_compared as [Q1 [_ [_ [_ [Q2 [Q3 [Q4 Q5]]]]]]].
  assert (L : forall s, In s ds -> exists tus fuel w, In tus runs /\ ScanSpec.coherent (ScanSpec.units tus) /\ scan fuel sf tus = Ok (s, w)).
  { intros s Hs. destruct (scanned_left _ _ _ _ H Hs) as [tus [A [B [fuel [w C]]]]]. exists tus, fuel, w. auto. }
  assert (R : forall tus, In tus runs -> exists s fuel w, In s ds /\ ScanSpec.coherent (ScanSpec.units tus) /\ scan fuel sf tus = Ok (s, w)).
  { intros tus Ht. destruct (scanned_right _ _ _ _ H Ht) as [s [A [B [fuel [w C]]]]]. exists s, fuel, w. auto. }
  split; [|split; [|split; [|split]]].
  - destruct (merged_attrs _ _ _ _ _ (proj2 (proj2 prim_equiv)) U1) as [I1 I2]. split.
    + intros k x Hx. destruct (I1 k x Hx) as [s [Hs Hin]]. destruct (L s Hs) as [tus [fuel [w [A [B C]]]]]. destruct (ScanProps.C82_attributes _ _ _ _ _ B C) as [[D _] _].
      destruct (D _ _ Hin) as [o [n [G E]]]. exists o, n. split; [exists tus; auto|exact E].
    + intros o n [tus [Ht G]]. destruct (R tus Ht) as [s [fuel [w [A [B C]]]]]. destruct (ScanProps.C82_attributes _ _ _ _ _ B C) as [[_ D] _].
      destruct (D _ _ G) as [x [Hx E]]. destruct (I2 _ s x _ A Hx E) as [y [Hy Ey]]. exists y. split; [exact Hy|]. apply Q1. exact Ey.
  - destruct (merged_attrs _ _ _ _ _ (proj2 (proj2 int_attr_equiv)) U2) as [I1 I2]. split.
    + intros k x Hx. destruct (I1 k x Hx) as [s [Hs Hin]]. destruct (L s Hs) as [tus [fuel [w [A [B C]]]]]. destruct (ScanProps.C82_attributes _ _ _ _ _ B C) as [_ [[D _] _]].
      destruct (D _ _ Hin) as [o [n [v [G E]]]]. exists o, n, v. split; [exists tus; auto|exact E].
    + intros o n v [tus [Ht G]]. destruct (R tus Ht) as [s [fuel [w [A [B C]]]]]. destruct (ScanProps.C82_attributes _ _ _ _ _ B C) as [_ [[_ D] _]].
      destruct (D _ _ _ G) as [x [Hx E]]. destruct (I2 _ s x _ A Hx E) as [y [Hy Ey]]. exists y. split; [exact Hy|]. apply Q2. exact Ey.
  - destruct (merged_attrs _ _ _ _ _ (proj2 (proj2 float_attr_equiv)) U3) as [I1 I2]. split.
    + intros k x Hx. destruct (I1 k x Hx) as [s [Hs Hin]]. destruct (L s Hs) as [tus [fuel [w [A [B C]]]]]. destruct (ScanProps.C82_attributes _ _ _ _ _ B C) as [_ [_ [[D _] _]]].
      destruct (D _ _ Hin) as [o [n [v [G E]]]]. exists o, n, v. split; [exists tus; auto|exact E].
    + intros o n v [tus [Ht G]]. destruct (R tus Ht) as [s [fuel [w [A [B C]]]]]. destruct (ScanProps.C82_attributes _ _ _ _ _ B C) as [_ [_ [[_ D] _]]].
      destruct (D _ _ _ G) as [x [Hx E]]. destruct (I2 _ s x _ A Hx E) as [y [Hy Ey]]. exists y. split; [exact Hy|]. apply Q3. exact Ey.
  - destruct (merged_attrs _ _ _ _ _ (proj2 (proj2 prim_attr_equiv)) U4) as [I1 I2]. split.
    + intros k x Hx. destruct (I1 k x Hx) as [s [Hs Hin]]. destruct (L s Hs) as [tus [fuel [w [A [B C]]]]]. destruct (ScanProps.C82_attributes _ _ _ _ _ B C) as [_ [_ [_ [[D _] _]]]].
      destruct (D _ _ Hin) as [o [n [v [G E]]]]. exists o, n, v. split; [exists tus; auto|exact E].
    + intros o n v [tus [Ht G]]. destruct (R tus Ht) as [s [fuel [w [A [B C]]]]]. destruct (ScanProps.C82_attributes _ _ _ _ _ B C) as [_ [_ [_ [[_ D] _]]]].
      destruct (D _ _ _ G) as [x [Hx E]]. destruct (I2 _ s x _ A Hx E) as [y [Hy Ey]]. exists y. split; [exact Hy|]. apply Q4. exact Ey.
  - destruct (merged_attrs _ _ _ _ _ (proj2 (proj2 text_attr_equiv)) U5) as [I1 I2]. split.
    + intros k x Hx. destruct (I1 k x Hx) as [s [Hs Hin]]. destruct (L s Hs) as [tus [fuel [w [A [B C]]]]]. destruct (ScanProps.C82_attributes _ _ _ _ _ B C) as [_ [_ [_ [_ [D _]]]]].
      destruct (D _ _ Hin) as [o [n [v [G E]]]]. exists o, n, v. split; [exists tus; auto|exact E].
    + intros o n v [tus [Ht G]]. destruct (R tus Ht) as [s [fuel [w [A [B C]]]]]. destruct (ScanProps.C82_attributes _ _ _ _ _ B C) as [_ [_ [_ [_ [_ D]]]]].
      destruct (D _ _ _ G) as [x [Hx E]]. destruct (I2 _ s x _ A Hx E) as [y [Hy Ey]]. exists y. split; [exact Hy|]. apply Q5. exact Ey.
Qed.
Print Assumptions C86_attributes.
(* Template types and inheritance: those of the runs, with everything they mention. *)
Theorem C86_templates_and_bases : forall sf runs ds d', scanned sf runs ds -> Forall mergeable ds -> MergeAll db_empty ds = Ok d' ->
  ScanSpec.template_types_ok (fun E => exists tus, In tus runs /\ ScanSpec.units tus E) d' /\
  (forall nm, declared sf runs (ScanSpec.Instance_ nm) -> ScanSpec.recorded_instance d' nm) /\
  (forall e, In e (m_inherits d') -> exists base derived, e = ScanSpec.inherits_entry base derived /\
     (declared sf runs (ScanSpec.Derived_ derived base) \/ ScanSpec.instance_base (fun E => exists tus, In tus runs /\ ScanSpec.units tus E) base derived)) /\
  (forall derived base, declared sf runs (ScanSpec.Derived_ derived base) -> ScanSpec.recorded_base d' base derived).
Proof.
  intros sf runs ds d' H M Hm. pose proof (scanned_wf _ _ _ H M) as Hw.
  destruct (first_row _ m_template_types ds d' (first_ttypes ds d' Hw Hm)) as [A1 A2]. destruct (first_row _ m_inherits ds d' (first_inherits ds d' Hw Hm)) as [B1 B2].
  split; [|split; [|split]].
  - intros k tt Hin. destruct (A1 _ _ Hin) as [s [Hs Hin']]. destruct (scanned_left _ _ _ _ H Hs) as [tus [Ht [Hc [fuel [w Hsc]]]]].
    destruct (ScanProps.C80_template_types _ _ _ _ _ Hc Hsc) as [T _]. destruct (T k tt Hin') as [E [i [nm [X1 [X2 [X3 [X4 [X5 X6]]]]]]]].
    exists E, i, nm. split; [exists tus; auto|]. split; [exact X2|]. split; [exact X3|]. split; [exact X4|]. split.
    + intros j u Hj Hu. apply A2. exists s. split; [exact Hs|]. exact (X5 j u Hj Hu).
    + intros b n Hb Hn. apply B2. exists s. split; [exact Hs|]. exact (X6 b n Hb Hn).
  - intros nm [tus [Ht G]]. destruct (scanned_right _ _ _ _ H Ht) as [s [Hs [Hc [fuel [w Hsc]]]]]. apply A2. exists s. split; [exact Hs|]. exact (proj2 (ScanProps.C80_template_types _ _ _ _ _ Hc Hsc) nm G).
  - intros [k e] Hin. destruct (B1 _ _ Hin) as [s [Hs Hin']]. destruct (scanned_left _ _ _ _ H Hs) as [tus [Ht [Hc [fuel [w Hsc]]]]].
    destruct (proj1 (ScanProps.C81_inheritance _ _ _ _ _ Hc Hsc) _ Hin') as [b [n [E [G|[E0 [i [infos [bb [Y1 Y2]]]]]]]]]; exists b, n; (split; [exact E|]); [left; exists tus; auto|right].
    exists E0, i, infos, bb. split; [exists tus; auto|exact Y2].
  - intros n b [tus [Ht G]]. destruct (scanned_right _ _ _ _ H Ht) as [s [Hs [Hc [fuel [w Hsc]]]]]. apply B2. exists s. split; [exact Hs|]. exact (proj2 (ScanProps.C81_inheritance _ _ _ _ _ Hc Hsc) n b G).
Qed.
Print Assumptions C86_templates_and_bases.
(* Merging such databases fails only if one hash stands for two names. *)
Theorem C86_merging_succeeds : forall sf runs ds, scanned sf runs ds -> Forall mergeable ds ->
  (exists d', MergeAll db_empty ds = Ok d') <-> (forall d1 d2, In d1 ds -> In d2 ds -> compatible d1 d2).
Proof.
  intros sf runs ds H M. pose proof (scanned_wf _ _ _ H M) as Hw. rewrite (all_compatible ds db_empty wf_empty Hw). split.
  - intros C d1 d2 H1 H2. apply C; right; assumption.
  - intros C d1 d2 [<-|H1] [<-|H2]; try (intros h n1 n2 X Y; cbn in X, Y; discriminate); auto.
Qed.
Print Assumptions C86_merging_succeeds.

(* ---- two sources, scanned apart: ScanWitness.v and PipeWitness.v ---- *)
Example C85_case : (exists w, scan 3 ScanWitness.w_sf PipeWitness.v_tus = Ok (PipeWitness.v_db, w)) /\ fits PipeWitness.v_db /\ distinct_texts PipeWitness.v_db /\
  map (fun a => (n_text (p_parent (ta_prim (snd a))), ta_value (snd a))) (m_text_attrs PipeWitness.v_db) = [(str "N::P", str "a base"); (str "N::g", str "last")] /\
  length (m_fields PipeWitness.v_db) = 5%nat.
Proof.
  split; [exact PipeWitness.v_scan|]. split; [apply PipeWitness.w_fits|]. split; [exact PipeWitness.w_distinct|]. vm_compute. split; reflexivity.
Qed.
(* N::P is declared in one source and defined in the other; N::f, N::E and N::X are in both *)
Example C86_case : scanned ScanWitness.w_sf [ScanWitness.w_tus; PipeWitness.v_tus] [ScanWitness.w_db; PipeWitness.v_db] /\
  Forall mergeable [ScanWitness.w_db; PipeWitness.v_db] /\ MergeAll db_empty [ScanWitness.w_db; PipeWitness.v_db] = Ok PipeWitness.vw_db /\
  let d := PipeWitness.vw_db in
  map (fun c => (n_text (p_name (c_prim (snd c))), c_size (snd c))) (m_classes d) = [(str "N::P", 4); (str "N::S", 40)] /\
  map (fun e => (n_text (p_name (ec_prim (snd e))), ec_value (snd e))) (m_enum_consts d) = [(str "N::X", 0); (str "N::Z", 7); (str "N::Y", -1)] /\
  ScanWitness.texts (fun f => p_name (fn_prim f)) (m_functions d) = [str "N::g"; str "N::S::m"; str "N::f"; str "N::f"] /\
  length (m_enums d) = 1%nat /\ length (m_types d) = 15%nat /\
  (length (m_fields ScanWitness.w_db), length (m_fields PipeWitness.v_db), length (m_fields d)) = (11%nat, 5%nat, 14%nat).
Proof.
  split; [exact PipeWitness.vw_scanned|]. split; [exact PipeWitness.vw_mergeable|]. split; [exact PipeWitness.vw_merged|]. vm_compute. repeat split; reflexivity.
Qed.
