(* Whatever the scanner is given, the tables it leaves are in key order, keyed by the hashes of their names, and every
   name in them is in the table of names; walked through function by function. *)
From Verif Require Import Base BaseProofs Text HashModel HashProofs Maps FileUtilsModel DatabaseModel TextDbModel AttrModel ScanModel BinarySpec
  MergeProofs ScanTypeProofs ScanWalkProofs.
Local Open Scope list_scope.
Local Open Scope Z_scope.

(* ---- hashes are 32 bits ---- *)
Lemma shiftr_u32 : forall h s, 0 <= s -> is_u32 h -> is_u32 (Z.shiftr h s).
Proof. intros h s Hs Hh. rewrite Z.shiftr_div_pow2 by exact Hs. apply div_u32; assumption. Qed.
Lemma fmix_u32 : forall h, is_u32 (fmix h).
Proof. intros h. unfold fmix. cbv zeta. apply lxor_range; [|apply shiftr_u32; [lia|]]; apply u32_range. Qed.
Lemma murmur_u32 : forall data len seed h, MurmurHash3 data len seed = Ok h -> is_u32 h.
Proof.
  intros data len seed h H. unfold MurmurHash3 in H. apply obind_ok in H. destruct H as [a [_ H]]. apply obind_ok in H. destruct H as [b [_ H]].
  assert (h = fmix (Z.lxor b len)) by congruence. subst h. apply fmix_u32.
Qed.
Lemma hash_u32 : forall t s h, HashNameString t s = Ok h -> is_u32 h.
Proof. intros t s h H. unfold HashNameString in H. apply obind_ok in H. destruct H as [n [_ H]]. eapply murmur_u32; exact H. Qed.
Lemma unique_id_u32 : forall ps acc r, is_u32 acc -> unique_id acc ps = Ok r -> is_u32 r.
Proof.
  induction ps as [|p ps IH]; intros acc r Ha H; cbn [unique_id] in H; [congruence|].
  apply obind_ok in H. destruct H as [h [_ H]]. apply obind_ok in H. destruct H as [a [Hm H]]. eapply IH; [|exact H].
  unfold MixHashes in Hm. eapply murmur_u32; exact Hm.
Qed.

(* ---- the invariant ---- *)
Definition hashed (h : Z) (n : name) : Prop := n_hash n = h /\ h <> 0 /\ is_u32 h /\ HashNameString (n_text n ++ [0]) 0 = Ok h.
Definition nok (N : zmap name) : Prop := ssorted (keys N) /\ forall h n, In (h, n) N -> hashed h n.
Definition grows (N N' : zmap name) : Prop := forall n, known N n -> known N' n.
Definition tab {T} (nm : T -> name) (good : T -> Prop) (m : zmap T) : Prop :=
  sorted (keys m) /\ forall k v, In (k, v) m -> k = n_hash (nm v) /\ k <> 0 /\ good v.
Definition tab1 {T} (nm : T -> name) (good : T -> Prop) (m : zmap T) : Prop :=
  ssorted (keys m) /\ forall k v, In (k, v) m -> k = n_hash (nm v) /\ good v.
Definition g_type N (t : type_) := known_prim N (t_prim t) /\ is_u64 (t_size t).
Definition g_ttype N (t : template_type) :=
  known_prim N (tt_prim t) /\ is_u64 (tt_size t) /\ Forall (known N) (tt_types t) /\ length (tt_types t) = 4%nat /\ length (tt_ptrs t) = 4%nat.
Definition g_class N (c : class) := known_prim N (c_prim c) /\ is_u64 (c_size c).
Definition g_enum N (e : enum) := known_prim N (e_prim e) /\ e_size e = 4.
Definition g_const N (e : enum_const) := known_prim N (ec_prim e) /\ is_s32 (ec_value e).
Definition g_fun N (f : function) := known_prim N (fn_prim f) /\ is_u32 (fn_uid f) /\ fn_address f = 0.
Definition g_field N (f : field) := known_prim N (f_prim f) /\ known N (f_type f) /\ is_u32 (f_parent_uid f).
Definition g_int N (a : int_attr) := known_prim N (ia_prim a) /\ is_s32 (ia_value a).
Definition g_float N (a : float_attr) := known_prim N (fa_prim a).
Definition g_prim N (a : prim_attr) := known_prim N (pa_prim a) /\ known N (pa_value a).
Definition g_text N (a : text_attr) := known_prim N (ta_prim a).
Definition g_cont N (c : container_info) := known N (ci_name c) /\ known N (ci_read c) /\ known N (ci_write c) /\ is_u32 (ci_flags c).
Definition g_inh N (t : type_inheritance) := known N (ti_name t) /\ known N (ti_derived t) /\ known N (ti_base t).
Definition sound (N : zmap name) (d : database) : Prop :=
  tab p_name (known_prim N) (m_namespaces d) /\ tab (fun t => p_name (t_prim t)) (g_type N) (m_types d) /\
  tab p_name (known_prim N) (m_templates d) /\ tab (fun t => p_name (tt_prim t)) (g_ttype N) (m_template_types d) /\
  tab (fun c => p_name (c_prim c)) (g_class N) (m_classes d) /\ tab (fun e => p_name (e_prim e)) (g_enum N) (m_enums d) /\
  tab (fun e => p_name (ec_prim e)) (g_const N) (m_enum_consts d) /\ tab (fun f => p_name (fn_prim f)) (g_fun N) (m_functions d) /\
  tab (fun f => p_name (f_prim f)) (g_field N) (m_fields d) /\ tab p_name (known_prim N) (m_flag_attrs d) /\
  tab (fun a => p_name (ia_prim a)) (g_int N) (m_int_attrs d) /\ tab (fun a => p_name (fa_prim a)) (g_float N) (m_float_attrs d) /\
  tab (fun a => p_name (pa_prim a)) (g_prim N) (m_prim_attrs d) /\ tab (fun a => p_name (ta_prim a)) (g_text N) (m_text_attrs d) /\
  tab1 ci_name (g_cont N) (m_containers d) /\ tab1 ti_name (g_inh N) (m_inherits d).
Definition inv (d : database) : Prop := nok (m_names d) /\ sound (m_names d) d.
Definition step (d d' : database) : Prop := inv d' /\ grows (m_names d) (m_names d').

Lemma tab_mono : forall T nm (g g' : T -> Prop) m, (forall v, g v -> g' v) -> tab nm g m -> tab nm g' m.
Proof. intros T nm g g' m Hg [Hs H]. split; [exact Hs|]. intros k v Hin. destruct (H _ _ Hin) as [A [B C]]. auto. Qed.
Lemma tab1_mono : forall T nm (g g' : T -> Prop) m, (forall v, g v -> g' v) -> tab1 nm g m -> tab1 nm g' m.
Proof. intros T nm g g' m Hg [Hs H]. split; [exact Hs|]. intros k v Hin. destruct (H _ _ Hin) as [A B]. auto. Qed.
Lemma known_prim_mono : forall N N' p, grows N N' -> known_prim N p -> known_prim N' p.
Proof. intros N N' p Hg [A B]. split; apply Hg; assumption. Qed.
Lemma sound_mono : forall N N' d, grows N N' -> sound N d -> sound N' d.
Proof.
  intros N N' d Hg H. unfold sound in *.
  assert (P : forall p, known_prim N p -> known_prim N' p) by (intros; eapply known_prim_mono; eassumption).
  assert (F : forall l, Forall (known N) l -> Forall (known N') l) by (intros l; apply Forall_impl; exact Hg).
  unfold grows in Hg.
  destruct H as [H1 [H2 [H3 [H4 [H5 [H6 [H7 [H8 [H9 [H10 [H11 [H12 [H13 [H14 [H15 H16]]]]]]]]]]]]]]].
  split; [revert H1; apply tab_mono; auto|]. split; [revert H2; apply tab_mono; unfold g_type; intuition auto|].
  split; [revert H3; apply tab_mono; auto|]. split; [revert H4; apply tab_mono; unfold g_ttype; intuition auto|].
  split; [revert H5; apply tab_mono; unfold g_class; intuition auto|]. split; [revert H6; apply tab_mono; unfold g_enum; intuition auto|].
  split; [revert H7; apply tab_mono; unfold g_const; intuition auto|]. split; [revert H8; apply tab_mono; unfold g_fun; intuition auto|].
  split; [revert H9; apply tab_mono; unfold g_field; intuition auto|]. split; [revert H10; apply tab_mono; auto|].
  split; [revert H11; apply tab_mono; unfold g_int; intuition auto|]. split; [revert H12; apply tab_mono; unfold g_float; intuition auto|].
  split; [revert H13; apply tab_mono; unfold g_prim; intuition auto|]. split; [revert H14; apply tab_mono; unfold g_text; intuition auto|].
  split; [revert H15; apply tab1_mono; unfold g_cont; intuition auto|]. revert H16; apply tab1_mono; unfold g_inh; intuition auto.
Qed.
Lemma grows_refl : forall N, grows N N.
Proof. intros N n H. exact H. Qed.
Lemma grows_trans : forall a b c, grows a b -> grows b c -> grows a c.
Proof. intros a b c H1 H2 n H. auto. Qed.
Lemma step_refl : forall d, inv d -> step d d.
Proof. intros d H. split; [exact H|apply grows_refl]. Qed.
Lemma step_trans : forall a b c, step a b -> step b c -> step a c.
Proof. intros a b c [_ H1] [H2 H3]. split; [exact H2|eapply grows_trans; eassumption]. Qed.
Lemma step_inv : forall a b, step a b -> inv b.
Proof. intros a b [H _]. exact H. Qed.
Lemma step_known : forall a b n, step a b -> known (m_names a) n -> known (m_names b) n.
Proof. intros a b n [_ H]. apply H. Qed.
Lemma known_noname : forall N, known N noname.
Proof. intros N. left. reflexivity. Qed.

(* ---- one table changed ---- *)
Ltac upd := intros d m [Hn Hs] Hm; split; [split; [exact Hn|]|exact (grows_refl _)]; unfold sound in *; cbn in *; tauto.
Lemma u_namespaces : forall d m, inv d -> tab p_name (known_prim (m_names d)) m -> step d (set_namespaces m d). Proof. upd. Qed.
Lemma u_types : forall d m, inv d -> tab (fun t => p_name (t_prim t)) (g_type (m_names d)) m -> step d (set_types m d). Proof. upd. Qed.
Lemma u_templates : forall d m, inv d -> tab p_name (known_prim (m_names d)) m -> step d (set_templates m d). Proof. upd. Qed.
Lemma u_ttypes : forall d m, inv d -> tab (fun t => p_name (tt_prim t)) (g_ttype (m_names d)) m -> step d (set_template_types m d). Proof. upd. Qed.
Lemma u_classes : forall d m, inv d -> tab (fun c => p_name (c_prim c)) (g_class (m_names d)) m -> step d (set_classes m d). Proof. upd. Qed.
Lemma u_enums : forall d m, inv d -> tab (fun e => p_name (e_prim e)) (g_enum (m_names d)) m -> step d (set_enums m d). Proof. upd. Qed.
Lemma u_consts : forall d m, inv d -> tab (fun e => p_name (ec_prim e)) (g_const (m_names d)) m -> step d (set_enum_consts m d). Proof. upd. Qed.
Lemma u_functions : forall d m, inv d -> tab (fun f => p_name (fn_prim f)) (g_fun (m_names d)) m -> step d (set_functions m d). Proof. upd. Qed.
Lemma u_fields : forall d m, inv d -> tab (fun f => p_name (f_prim f)) (g_field (m_names d)) m -> step d (set_fields m d). Proof. upd. Qed.
Lemma u_flags : forall d m, inv d -> tab p_name (known_prim (m_names d)) m -> step d (set_flag_attrs m d). Proof. upd. Qed.
Lemma u_ints : forall d m, inv d -> tab (fun a => p_name (ia_prim a)) (g_int (m_names d)) m -> step d (set_int_attrs m d). Proof. upd. Qed.
Lemma u_floats : forall d m, inv d -> tab (fun a => p_name (fa_prim a)) (g_float (m_names d)) m -> step d (set_float_attrs m d). Proof. upd. Qed.
Lemma u_prims : forall d m, inv d -> tab (fun a => p_name (pa_prim a)) (g_prim (m_names d)) m -> step d (set_prim_attrs m d). Proof. upd. Qed.
Lemma u_texts : forall d m, inv d -> tab (fun a => p_name (ta_prim a)) (g_text (m_names d)) m -> step d (set_text_attrs m d). Proof. upd. Qed.
Lemma u_conts : forall d m, inv d -> tab1 ci_name (g_cont (m_names d)) m -> step d (set_containers m d). Proof. upd. Qed.
Lemma u_inhs : forall d m, inv d -> tab1 ti_name (g_inh (m_names d)) m -> step d (set_inherits m d). Proof. upd. Qed.
Lemma u_names : forall d N, inv d -> nok N -> grows (m_names d) N -> step d (set_names N d).
Proof.
  intros d N [Hn Hs] Hk Hg. split; [split; [exact Hk|]|exact Hg]. apply (sound_mono _ _ _ Hg) in Hs. exact Hs.
Qed.

(* adding to a table *)
Lemma tab_add : forall T nm (g : T -> Prop) v m m', tab nm g m -> g v -> db_add (nm v) v m = Ok m' -> tab nm g m'.
Proof.
  intros T nm g v m m' [Hs H] Hg Ha. unfold db_add in Ha. apply obind_ok in Ha. destruct Ha as [[] [Ha E]].
  assert (m' = mm_insert (n_hash (nm v)) v m) by congruence. subst m'. clear E. split; [apply mm_insert_sorted; exact Hs|].
  intros k w Hin. apply mm_insert_In in Hin. destruct Hin as [E|Hin]; [|apply H; exact Hin].
  assert (k = n_hash (nm v) /\ w = v) as [-> ->] by (split; congruence). split; [reflexivity|]. split; [|exact Hg].
  destruct (Z.eqb_spec (n_hash (nm v)) 0) as [E0|E0]; [|exact E0]. exfalso. cbn in Ha. discriminate Ha.
Qed.
Lemma tab1_set : forall T nm (g : T -> Prop) v m, tab1 nm g m -> g v -> tab1 nm g (m_set (n_hash (nm v)) v m).
Proof.
  intros T nm g v m [Hs H] Hg. split; [apply m_set_ssorted; exact Hs|]. intros k w Hin. apply m_set_In in Hin.
  destruct Hin as [E|Hin]; [|apply H; exact Hin]. assert (k = n_hash (nm v) /\ w = v) as [-> ->] by (split; congruence). auto.
Qed.
Lemma tab1_insert : forall T nm (g : T -> Prop) v m, tab1 nm g m -> g v -> tab1 nm g (m_insert (n_hash (nm v)) v m).
Proof. intros T nm g v m Ht Hg. unfold m_insert. destruct (m_find _ m); [exact Ht|]. apply tab1_set; assumption. Qed.

(* ---- names ---- *)
Lemma GetName_nok : forall N t n N', nok N -> GetName N (Some t) = Ok (n, N') -> nok N' /\ grows N N' /\ known N' n.
Proof.
  intros N t n N' [Hs Hn] H. unfold GetName in H. apply obind_ok in H. destruct H as [h [Hh H]]. destruct (Z.eqb_spec h 0) as [E|E].
  - assert (n = noname /\ N' = N) as [-> ->] by (split; congruence). split; [split; assumption|]. split; [apply grows_refl|apply known_noname].
  - destruct (m_find h N) as [nm|] eqn:Ef.
    + apply obind_ok in H. destruct H as [[] [_ H]]. assert (n = nm /\ N' = N) as [-> ->] by (split; congruence).
      split; [split; assumption|]. split; [apply grows_refl|]. right. destruct (Hn _ _ (m_find_In _ _ _ _ Ef)) as [-> _]. exact Ef.
    + assert (n = mk_name h t /\ N' = m_set h (mk_name h t) N) as [-> ->] by (split; congruence). clear H.
      split; [split|split].
      * apply m_set_ssorted. exact Hs.
      * intros k w Hin. apply m_set_In in Hin. destruct Hin as [X|Hin]; [|apply Hn; exact Hin].
        assert (k = h /\ w = mk_name h t) as [-> ->] by (split; congruence). split; [reflexivity|]. split; [exact E|]. split; [eapply hash_u32; exact Hh|exact Hh].
      * intros w [->|Hw]; [apply known_noname|]. right. rewrite m_find_set by exact Hs. destruct (Z.eqb_spec h (n_hash w)) as [Eh|Eh]; [|exact Hw].
        rewrite <- Eh, Ef in Hw. discriminate Hw.
      * right. cbn [n_hash]. rewrite m_find_set by exact Hs. rewrite Z.eqb_refl. reflexivity.
Qed.
Lemma db_name_step : forall d t n d', inv d -> db_name d t = Ok (n, d') -> step d d' /\ known (m_names d') n.
Proof.
  intros d t n d' Hi H. unfold db_name in H. apply obind_ok in H. destruct H as [[n1 N1] [H1 H2]]. cbn [fst snd] in H2.
  assert (n = n1 /\ d' = set_names N1 d) as [-> ->] by (split; congruence). clear H2.
  destruct (GetName_nok _ _ _ _ (proj1 Hi) H1) as [A [B C]]. split; [apply u_names; assumption|exact C].
Qed.

Ltac ob H x Hx := apply obind_ok in H; destruct H as [x [Hx H]].
Ltac getn H n d Hd Hs Hk := (* a db_name call in front *)
  apply obind_ok in H; destruct H as [[n d] [Hd H]]; cbn [fst snd] in H;
  match type of Hd with db_name ?d0 _ = _ => pose proof (db_name_step d0 _ _ _ ltac:(first [assumption | eapply step_inv; eassumption]) Hd) as [Hs Hk] end.

(* ---- types ---- *)
Lemma inherit_step : forall d derived base z, inv d -> known (m_names d) derived -> known (m_names d) base ->
  AddTypeInheritance (m_names d) (m_inherits d) derived base = Ok z -> step d (set_inherits (snd z) (set_names (fst z) d)).
Proof.
  intros d derived base z Hi Hd Hb H. unfold AddTypeInheritance in H. apply obind_ok in H. destruct H as [[n N] [H1 H]]. cbn [fst snd] in H.
  assert (z = (N, m_set (n_hash n) (mk_inh n derived base) (m_inherits d))) by congruence. subst z. clear H. cbn [fst snd].
  destruct (GetName_nok _ _ _ _ (proj1 Hi) H1) as [A [B C]]. pose proof (u_names d N Hi A B) as S1. eapply step_trans; [exact S1|].
  apply u_inhs; [eapply step_inv; exact S1|]. cbn [m_names set_names].
  apply (tab1_set _ ti_name (g_inh N) (mk_inh n derived base)).
  - pose proof (proj2 (step_inv _ _ S1)) as Hs. unfold sound in Hs. cbn in Hs. tauto.
  - split; [exact C|]. split; apply B; assumption.
Qed.

Section Types.
Variable pcts : database -> Z -> outcome (presult (list Z) * database).
Hypothesis Hpcts : forall d i r d', inv d -> pcts d i = Ok (r, d') -> step d d'.
Lemma parse_spec_type_step : forall d t nm r d', inv d -> parse_spec_type pcts d t nm = Ok (r, d') -> step d d'.
Proof.
  intros d t nm r d' Hi H. unfold parse_spec_type in H.
  destruct t as [p|p|p [| |i]|p [| |i]|q|q|q|n q|]; try (assert (d' = d) by congruence; subst d'; apply step_refl; exact Hi); eapply Hpcts; eassumption.
Qed.
Lemma element_info_step : forall d c q r d', inv d -> element_info pcts d c q = Ok (r, d') -> step d d'.
Proof.
  intros d c q r d' Hi H. unfold element_info in H. destruct (match update q with Q _ (T_pointer to) => _ | _ => _ end) as [op q2].
  destruct (update q2) as [ic t].
  assert (G : forall nm, (do x <- parse_spec_type pcts d t nm; match fst x with Bad s => Ok (Bad s, snd x) | Good nm => do nm' <- tidy nm; Ok (Good (mk_pinfo nm' (mk_qual op ic) c), snd x) end) = Ok (r, d') -> step d d').
  { intros nm G. apply obind_ok in G. destruct G as [[y d1] [G1 G]]. cbn [fst snd] in G.
    assert (d' = d1) by (destruct y; [apply obind_ok in G; destruct G as [z [_ G]]; congruence|congruence]). subst d'. eapply parse_spec_type_step; eassumption. }
  destruct t; try (apply G in H; exact H); assert (d' = d) by congruence; subst d'; apply step_refl; exact Hi.
Qed.
Lemma GetParameterInfo_step : forall d q r d', inv d -> GetParameterInfo pcts d q = Ok (r, d') -> step d d'.
Proof.
  intros d [c t] r d' Hi H. unfold GetParameterInfo in H. destruct t; try (eapply element_info_step; eassumption).
  destruct (UINT_MAX <? n); [assert (d' = d) by congruence; subst d'; apply step_refl; exact Hi|eapply element_info_step; eassumption].
Qed.
Lemma ParseBaseClass_step : forall d derived b r d', inv d -> known (m_names d) derived -> ParseBaseClass pcts d derived b = Ok (r, d') ->
  step d d' /\ forall n, r = Good n -> known (m_names d') n.
Proof.
  intros d derived b r d' Hi Hd H. unfold ParseBaseClass in H. destruct (update (b_type b)) as [ic t]. ob H a Ha. ob H nm Hnm.
  destruct (b_virtual b). { assert (r = Bad false /\ d' = d) as [-> ->] by (split; congruence). split; [apply step_refl; exact Hi|]. intros n X. discriminate X. }
  apply obind_ok in H. destruct H as [[y d1] [H1 H]]. cbn [fst snd] in H. pose proof (parse_spec_type_step _ _ _ _ _ Hi H1) as S1. destruct y as [nm'|s].
  - getn H n2 d2 H2 S2 K2. apply obind_ok in H. destruct H as [z [Hz H]].
    assert (r = Good n2 /\ d' = set_inherits (snd z) (set_names (fst z) d2)) as [-> ->] by (split; congruence). clear H.
    assert (S3 : step d2 (set_inherits (snd z) (set_names (fst z) d2))).
    { eapply inherit_step; [eapply step_inv; exact S2| |exact K2|exact Hz]. eapply step_known; [exact S2|]. eapply step_known; [exact S1|exact Hd]. }
    split; [eapply step_trans; [exact S1|]; eapply step_trans; [exact S2|exact S3]|]. intros n X. assert (n = n2) by congruence. subst n. eapply step_known; [exact S3|exact K2].
  - assert (r = Bad s /\ d' = d1) as [-> ->] by (split; congruence). split; [exact S1|]. intros n X. discriminate X.
Qed.
Lemma parse_targs_step : forall l d first r d', inv d -> parse_targs pcts d first l = Ok (r, d') -> step d d'.
Proof.
  induction l as [|[q|] l IH]; intros d first r d' Hi H; cbn [parse_targs] in H.
  - assert (d' = d) by congruence. subst d'. apply step_refl. exact Hi.
  - apply obind_ok in H. destruct H as [[y d1] [H1 H]]. cbn [fst snd] in H. pose proof (GetParameterInfo_step _ _ _ _ Hi H1) as S1.
    destruct y as [i|s]; [|assert (d' = d1) by congruence; subst d'; exact S1].
    destruct (qop_eqb (q_op (pi_qual i)) REFERENCE); [assert (d' = d1) by congruence; subst d'; exact S1|].
    destruct (negb (pi_count i =? 0)); [assert (d' = d1) by congruence; subst d'; exact S1|].
    apply obind_ok in H. destruct H as [[z d2] [H2 H]]. cbn [fst snd] in H.
    assert (d' = d2) by (destruct z as [[is t]|]; congruence). subst d'. eapply step_trans; [exact S1|]. eapply IH; [eapply step_inv; exact S1|exact H2].
  - assert (d' = d) by congruence. subst d'. apply step_refl. exact Hi.
Qed.
Lemma parse_bases_step : forall l d derived r d', inv d -> known (m_names d) derived -> parse_bases pcts d derived l = Ok (r, d') -> step d d'.
Proof.
  induction l as [|b l IH]; intros d derived r d' Hi Hd H; cbn [parse_bases] in H.
  - assert (d' = d) by congruence. subst d'. apply step_refl. exact Hi.
  - apply obind_ok in H. destruct H as [[y d1] [H1 H]]. cbn [fst snd] in H. destruct (ParseBaseClass_step _ _ _ _ _ Hi Hd H1) as [S1 _].
    destruct y as [n|s]; [|assert (d' = d1) by congruence; subst d'; exact S1].
    apply obind_ok in H. destruct H as [[z d2] [H2 H]]. cbn [fst snd] in H.
    assert (d' = d2) by (destruct z; congruence). subst d'. eapply step_trans; [exact S1|].
    eapply IH; [eapply step_inv; exact S1|eapply step_known; [exact S1|exact Hd]|exact H2].
Qed.
End Types.
Lemma get_type_names_step : forall l d ns d', inv d -> get_type_names d l = Ok (ns, d') -> step d d' /\ Forall (known (m_names d')) ns.
Proof.
  induction l as [|i l IH]; intros d ns d' Hi H; cbn [get_type_names] in H.
  - assert (ns = [] /\ d' = d) as [-> ->] by (split; congruence). split; [apply step_refl; exact Hi|constructor].
  - getn H n1 d1 H1 S1 K1. apply obind_ok in H. destruct H as [[ns2 d2] [H2 H]]. cbn [fst snd] in H.
    assert (ns = n1 :: ns2 /\ d' = d2) as [-> ->] by (split; congruence). destruct (IH _ _ _ (step_inv _ _ S1) H2) as [S2 F2].
    split; [eapply step_trans; eassumption|]. constructor; [eapply step_known; [exact S2|exact K1]|exact F2].
Qed.
Lemma pad4_length : forall T (d : T) l, length (pad4 d l) = 4%nat.
Proof. intros. unfold pad4. rewrite firstn_length, app_length, repeat_length. lia. Qed.
Lemma pad4_known : forall N l, Forall (known N) l -> Forall (known N) (pad4 noname l).
Proof.
  intros N l H. apply Forall_forall. intros x Hx. unfold pad4 in Hx.
  assert (Hin : In x (l ++ repeat noname 4)). { rewrite <- (firstn_skipn 4 (l ++ repeat noname 4)). apply in_or_app. left. exact Hx. }
  apply in_app_or in Hin. destruct Hin as [Hin|Hin]; [rewrite Forall_forall in H; apply H; exact Hin|]. apply repeat_spec in Hin. subst x. apply known_noname.
Qed.
Lemma u32_u64 : forall z, is_u64 (u32 z).
Proof. intros z. pose proof (u32_range z) as H. unfold is_u32, is_u64 in *. lia. Qed.
Lemma parse_cts_step : forall fuel E d i r d', inv d -> parse_cts fuel E d i = Ok (r, d') -> step d d'.
Proof.
  induction fuel as [|fuel IH]; intros E d i r d' Hi H; cbn [parse_cts] in H; [discriminate H|].
  getn H pn pd Hp Sp Kp. destruct (MAX_NB_ARGS <=? _); [assert (d' = pd) by congruence; subst d'; exact Sp|].
  apply obind_ok in H. destruct H as [[a ad] [Ha H]]. cbn [fst snd] in H.
  pose proof (parse_targs_step _ (IH E) _ _ _ _ _ (step_inv _ _ Sp) Ha) as Sa. pose proof (step_trans _ _ _ Sp Sa) as S1.
  destruct a as [[infos text]|s]; [|assert (d' = ad) by congruence; subst d'; exact S1].
  cbv zeta in H. ob H found Hf. destruct found as [tt0|]; [assert (d' = ad) by congruence; subst d'; exact S1|].
  getn H tn td Ht St Kt. apply obind_ok in H. destruct H as [[b bd] [Hb H]]. cbn [fst snd] in H.
  pose proof (parse_bases_step _ (IH E) _ _ _ _ _ (step_inv _ _ St) Kt Hb) as Sb.
  destruct b as [bs|s]; [|assert (d' = bd) by congruence; subst d'; eapply step_trans; [exact S1|]; eapply step_trans; eassumption].
  apply obind_ok in H. destruct H as [[ns nd] [Hn H]]. cbn [fst snd] in H. destruct (get_type_names_step _ _ _ _ (step_inv _ _ Sb) Hn) as [Sn Kn].
  ob H m Hm. assert (d' = set_template_types m nd) by congruence. subst d'. clear H.
  assert (S2 : step d nd) by (eapply step_trans; [exact S1|]; eapply step_trans; [exact St|]; eapply step_trans; eassumption).
  eapply step_trans; [exact S2|]. apply u_ttypes; [eapply step_inv; exact S2|].
  match type of Hm with db_add _ ?v _ = _ => eapply (tab_add _ (fun t => p_name (tt_prim t)) (g_ttype (m_names nd)) v) end; [| |exact Hm].
  - pose proof (proj2 (step_inv _ _ S2)) as Hs. unfold sound in Hs. tauto.
  - split; [split; cbn [tt_prim p_name p_parent]|split; [apply u32_u64|split; [apply pad4_known; exact Kn|split; apply pad4_length]]].
    + eapply step_known; [|exact Kt]. eapply step_trans; eassumption.
    + eapply step_known; [|exact Kp]. eapply step_trans; [exact Sa|]. eapply step_trans; [exact St|]. eapply step_trans; eassumption.
Qed.
Definition made_ok (d : database) (x : presult field) : Prop :=
  match x with Good f => known_prim (m_names d) (f_prim f) /\ known (m_names d) (f_type f) /\ f_parent_uid f = 0 | Bad _ => True end.
Lemma made_mono : forall a b x, step a b -> made_ok a x -> made_ok b x.
Proof. intros a b [f|s] H; cbn; [|auto]. intros [[A B] [C D]]. destruct H as [_ H]. split; [split; apply H; assumption|]. auto. Qed.
Lemma MakeField_step : forall fuel E d q nm owner index r d', inv d -> MakeField fuel E d q nm owner index = Ok (r, d') -> step d d' /\ made_ok d' r.
Proof.
  intros fuel E d q nm owner index r d' Hi H. unfold MakeField in H. apply obind_ok in H. destruct H as [[x d1] [H1 H]]. cbn [fst snd] in H.
  pose proof (GetParameterInfo_step _ (parse_cts_step fuel E) _ _ _ _ Hi H1) as S1.
  destruct x as [info|s]; [|assert (r = Bad s /\ d' = d1) as [-> ->] by (split; congruence); split; [exact S1|exact I]].
  getn H tn td Ht St Kt. getn H nn nd Hn Sn Kn. getn H pn pd Hp Sp Kp. cbv zeta in H.
  assert (S2 : step d pd) by (eapply step_trans; [exact S1|]; eapply step_trans; [exact St|]; eapply step_trans; eassumption).
  assert (M : made_ok pd (Good (mk_field (mk_prim nn pn) tn (pi_qual info) index 0))).
  { cbn. split; [split; cbn; [eapply step_known; [exact Sp|exact Kn]|exact Kp]|]. split; [|reflexivity]. eapply step_known; [exact Sp|]. eapply step_known; [exact Sn|exact Kt]. }
  destruct (pi_count info =? 0).
  - assert (d' = pd) by congruence. subst d'. split; [exact S2|]. assert (r = Good (mk_field (mk_prim nn pn) tn (pi_qual info) index 0)) by congruence. subst r. exact M.
  - getn H cn cd Hc Sc Kc. ob H m Hm. assert (d' = set_containers m cd) by congruence. subst d'.
    assert (r = Good (mk_field (mk_prim nn pn) tn (pi_qual info) index 0)) by congruence. subst r. clear H.
    assert (S3 : step cd (set_containers m cd)).
    { apply u_conts; [eapply step_inv; exact Sc|]. unfold db_add_unique in Hm. ob Hm u Hu. assert (m = m_insert (n_hash cn) (mk_cinfo cn noname noname IS_C_ARRAY (pi_count info)) (m_containers cd)) by congruence. subst m.
      apply (tab1_insert _ ci_name (g_cont (m_names cd)) (mk_cinfo cn noname noname IS_C_ARRAY (pi_count info))).
      - pose proof (proj2 (step_inv _ _ Sc)) as Hs. unfold sound in Hs. tauto.
      - split; [exact Kc|]. split; [apply known_noname|]. split; [apply known_noname|]. cbn. unfold is_u32, IS_C_ARRAY. lia. }
    assert (S4 : step pd (set_containers m cd)) by (eapply step_trans; eassumption).
    split; [eapply step_trans; eassumption|]. eapply made_mono; [exact S4|exact M].
Qed.

(* ---- attributes ---- *)
Definition attr_ok (N : zmap name) (a : attr) : Prop :=
  match a with
  | FlagAttr n => known N n
  | IntAttr n v => known N n /\ is_s32 v
  | FloatAttr n _ => known N n
  | PrimAttr n v => known N n /\ known N v
  | TextAttr n _ => known N n
  end.
Lemma attr_mono : forall N N' a, grows N N' -> attr_ok N a -> attr_ok N' a.
Proof. intros N N' [n|n v|n v|n v|n v] H; cbn; intuition auto. Qed.
Lemma atoi_s32 : forall s v, atoi s = Ok v -> is_s32 v.
Proof.
  intros s v H. unfold atoi in H. cbv zeta in H. match type of H with (if (_ <=? ?x) && _ then _ else _) = _ => set (y := x) in H end.
  destruct ((-2147483648 <=? y) && (y <? 2147483648)) eqn:E; [|discriminate H]. assert (v = y) by congruence. subst v. clearbody y. unfold is_s32. lia.
Qed.
Lemma s32_range : forall z, is_s32 (s32 z).
Proof. intros z. unfold is_s32, s32. pose proof (Z.mod_pos_bound (z + 2147483648) 4294967296 ltac:(lia)). lia. Qed.
Lemma hex_s32 : forall s v, hex_value s = Ok v -> is_s32 v.
Proof.
  intros s v H. unfold hex_value in H. cbv zeta in H. ob H c0 H0. assert (Z0 : is_s32 0) by (unfold is_s32; lia). destruct (c0 =? 48); [|congruence].
  ob H cb H1. ob H ok H2. destruct ok; [|congruence]. assert (v = s32 (hextoi (skipn 2 s))) by congruence. subst v. apply s32_range.
Qed.
Lemma AddAttribute_ok : forall sf N nm val a N', nok N -> AddAttribute sf N nm val = Ok (Some (a, N')) -> nok N' /\ grows N N' /\ attr_ok N' a.
Proof.
  intros sf N nm val a N' Hn H. unfold AddAttribute in H. destruct val as [t|].
  - destruct (tk_type t) eqn:Et; try discriminate H.
    + ob H v Hv. apply obind_ok in H. destruct H as [[n M] [H1 H]]. cbn [fst snd] in H. assert (a = IntAttr n v /\ N' = M) as [-> ->] by (split; congruence).
      destruct (GetName_nok _ _ _ _ Hn H1) as [A [B C]]. split; [exact A|]. split; [exact B|]. split; [exact C|eapply atoi_s32; exact Hv].
    + ob H v Hv. apply obind_ok in H. destruct H as [[n M] [H1 H]]. cbn [fst snd] in H. assert (a = IntAttr n v /\ N' = M) as [-> ->] by (split; congruence).
      destruct (GetName_nok _ _ _ _ Hn H1) as [A [B C]]. split; [exact A|]. split; [exact B|]. split; [exact C|eapply hex_s32; exact Hv].
    + apply obind_ok in H. destruct H as [[n M] [H1 H]]. cbn [fst snd] in H. assert (a = FloatAttr n (sf (GetText t)) /\ N' = M) as [-> ->] by (split; congruence).
      destruct (GetName_nok _ _ _ _ Hn H1) as [A [B C]]. auto.
    + apply obind_ok in H. destruct H as [[n M] [H1 H]]. cbn [fst snd] in H. apply obind_ok in H. destruct H as [[v M2] [H2 H]]. cbn [fst snd] in H.
      assert (a = PrimAttr n v /\ N' = M2) as [-> ->] by (split; congruence).
      destruct (GetName_nok _ _ _ _ Hn H1) as [A [B C]]. destruct (GetName_nok _ _ _ _ A H2) as [A2 [B2 C2]].
      split; [exact A2|]. split; [eapply grows_trans; eassumption|]. split; [apply B2; exact C|exact C2].
    + apply obind_ok in H. destruct H as [[n M] [H1 H]]. cbn [fst snd] in H. assert (a = TextAttr n (GetText t) /\ N' = M) as [-> ->] by (split; congruence).
      destruct (GetName_nok _ _ _ _ Hn H1) as [A [B C]]. auto.
  - apply obind_ok in H. destruct H as [[n M] [H1 H]]. cbn [fst snd] in H. assert (a = FlagAttr n /\ N' = M) as [-> ->] by (split; congruence).
    destruct (GetName_nok _ _ _ _ Hn H1) as [A [B C]]. auto.
Qed.
Lemma AttributeDef_ok : forall sf N ts pos a N' pos', nok N -> AttributeDef sf N ts pos = Ok (Some (a, N', pos')) -> nok N' /\ grows N N' /\ attr_ok N' a.
Proof.
  intros sf N ts pos a N' pos' Hn H. unfold AttributeDef in H. ob H x Hx. destruct (fst x) as [nm|]; [|discriminate H]. ob H y Hy.
  destruct (fst y) as [e|].
  - destruct (_ <=? _); [discriminate H|]. ob H val Hv. ob H p Hp. destruct p as [[a1 N1]|]; [|discriminate H].
    assert (a = a1 /\ N' = N1) as [-> ->] by (split; congruence). eapply AddAttribute_ok; eassumption.
  - ob H p Hp. destruct p as [[a1 N1]|]; [|discriminate H]. assert (a = a1 /\ N' = N1) as [-> ->] by (split; congruence). eapply AddAttribute_ok; eassumption.
Qed.
Lemma parser_loop_ok : forall fuel sf N ts pos l N', nok N -> parser_loop fuel sf N ts pos = Ok (l, N') -> nok N' /\ grows N N' /\ Forall (attr_ok N') l.
Proof.
  induction fuel as [|fuel IH]; intros sf N ts pos l N' Hn H; cbn [parser_loop] in H; [discriminate H|].
  ob H p Hp. destruct p as [[[a N1] pos1]|].
  - destruct (AttributeDef_ok _ _ _ _ _ _ _ Hn Hp) as [A [B C]]. destruct (pos1 <? zlen ts).
    + ob H t Ht. destruct (ttype_eqb _ _).
      * apply obind_ok in H. destruct H as [[l2 N2] [H2 H]]. cbn [fst snd] in H. assert (l = a :: l2 /\ N' = N2) as [-> ->] by (split; congruence).
        destruct (IH _ _ _ _ _ _ A H2) as [A2 [B2 C2]]. split; [exact A2|]. split; [eapply grows_trans; eassumption|]. constructor; [eapply attr_mono; eassumption|exact C2].
      * assert (l = [a] /\ N' = N1) as [-> ->] by (split; congruence). auto.
    + assert (l = [a] /\ N' = N1) as [-> ->] by (split; congruence). auto.
  - assert (l = [] /\ N' = N) as [-> ->] by (split; congruence). split; [exact Hn|]. split; [apply grows_refl|constructor].
Qed.
Lemma ParseAttributes_ok : forall sf N text l N', nok N -> ParseAttributes sf N text = Ok (l, N') -> nok N' /\ grows N N' /\ Forall (attr_ok N') l.
Proof.
  intros sf N text l N' Hn H. unfold ParseAttributes in H. ob H ts Hts. unfold Parser in H. destruct ts as [|t ts].
  - assert (l = [] /\ N' = N) as [-> ->] by (split; congruence). split; [exact Hn|]. split; [apply grows_refl|constructor].
  - eapply parser_loop_ok; eassumption.
Qed.
Lemma parse_annots_ok : forall ts sf N l N', nok N -> parse_annots sf N ts = Ok (l, N') -> nok N' /\ grows N N' /\ Forall (attr_ok N') l.
Proof.
  induction ts as [|t ts IH]; intros sf N l N' Hn H; cbn [parse_annots] in H.
  - assert (l = [] /\ N' = N) as [-> ->] by (split; congruence). split; [exact Hn|]. split; [apply grows_refl|constructor].
  - apply obind_ok in H. destruct H as [[l1 N1] [H1 H]]. cbn [fst snd] in H. apply obind_ok in H. destruct H as [[l2 N2] [H2 H]]. cbn [fst snd] in H.
    assert (l = l1 ++ l2 /\ N' = N2) as [-> ->] by (split; congruence). destruct (ParseAttributes_ok _ _ _ _ _ Hn H1) as [A [B C]]. destruct (IH _ _ _ _ A H2) as [A2 [B2 C2]].
    split; [exact A2|]. split; [eapply grows_trans; eassumption|]. apply Forall_app. split; [|exact C2]. eapply Forall_impl; [|exact C]. intros a. apply attr_mono. exact B2.
Qed.
Lemma add_attr_in_tab : forall T nm (g : T -> Prop) eqb v m m', tab nm g m -> g v -> add_attr_in eqb (nm v) v m = Ok m' -> tab nm g m'.
Proof.
  intros T nm g eqb v m m' Ht Hg H. unfold add_attr_in in H. destruct (m_find _ m) as [w|]; [destruct (eqb w v)|]; [assert (m' = m) by congruence; subst m'; exact Ht| |];
    eapply tab_add; eassumption.
Qed.
Lemma add_attr_step : forall p a d d', inv d -> known (m_names d) p -> attr_ok (m_names d) a -> add_attr p a d = Ok d' -> step d d'.
Proof.
  intros p a d d' Hi Hp Ha H. pose proof (proj2 Hi) as Hs. unfold sound in Hs. destruct a as [n|n v|n v|n v|n v]; cbn [add_attr] in H; ob H m Hm.
  - assert (d' = set_flag_attrs m d) by congruence. subst d'. apply u_flags; [exact Hi|].
    eapply (add_attr_in_tab _ p_name _ _ (mk_prim n p)); [| |exact Hm]; [tauto|]. split; assumption.
  - assert (d' = set_int_attrs m d) by congruence. subst d'. apply u_ints; [exact Hi|]. destruct Ha as [Ha Hv].
    eapply (add_attr_in_tab _ (fun a => p_name (ia_prim a)) _ _ (mk_int (mk_prim n p) v)); [| |exact Hm]; [tauto|]. split; [split; assumption|exact Hv].
  - assert (d' = set_float_attrs m d) by congruence. subst d'. apply u_floats; [exact Hi|].
    eapply (add_attr_in_tab _ (fun a => p_name (fa_prim a)) _ _ (mk_float (mk_prim n p) v)); [| |exact Hm]; [tauto|]. split; assumption.
  - assert (d' = set_prim_attrs m d) by congruence. subst d'. apply u_prims; [exact Hi|]. destruct Ha as [Ha Hv].
    eapply (add_attr_in_tab _ (fun a => p_name (pa_prim a)) _ _ (mk_pattr (mk_prim n p) v)); [| |exact Hm]; [tauto|]. split; [split; assumption|exact Hv].
  - assert (d' = set_text_attrs m d) by congruence. subst d'. apply u_texts; [exact Hi|].
    eapply (add_attr_in_tab _ (fun a => p_name (ta_prim a)) _ _ (mk_text (mk_prim n p) v)); [| |exact Hm]; [tauto|]. split; assumption.
Qed.
Lemma add_attrs_step : forall l parent d d', inv d -> Forall (attr_ok (m_names d)) l -> add_attrs parent l d = Ok d' -> step d d'.
Proof.
  induction l as [|a l IH]; intros parent d d' Hi Hl H; cbn [add_attrs] in H.
  - assert (d' = d) by congruence. subst d'. apply step_refl. exact Hi.
  - getn H p d1 H1 S1 K1. ob H d2 H2. inversion Hl; subst.
    assert (S2 : step d1 d2). { eapply add_attr_step; [eapply step_inv; exact S1|exact K1| |exact H2]. eapply attr_mono; [exact (proj2 S1)|assumption]. }
    assert (S3 : step d d2) by (eapply step_trans; eassumption). eapply step_trans; [exact S3|]. eapply IH; [eapply step_inv; exact S3| |exact H].
    eapply Forall_impl; [|eassumption]. intros x. apply attr_mono. exact (proj2 S3).
Qed.
Lemma ParseDeclAttributes_step : forall sf sp d h allow db r db', inv db -> ParseDeclAttributes sf sp d h allow db = Ok (r, db') -> step db db'.
Proof.
  intros sf sp d h allow db r db' Hi H. unfold ParseDeclAttributes in H. cbv zeta in H. apply obind_ok in H. destruct H as [[l N] [H1 H]]. cbn [fst snd] in H.
  ob H h1 E1. ob H h2 E2. ob H h3 E3. ob H db1 Hd. assert (db' = db1) by congruence. subst db'. clear H.
  destruct (parse_annots_ok _ _ _ _ _ (proj1 Hi) H1) as [A [B C]]. pose proof (u_names db N Hi A B) as S1.
  destruct (_ || _); [|assert (db1 = set_names N db) by congruence; subst db1; exact S1].
  eapply step_trans; [exact S1|]. eapply add_attrs_step; [eapply step_inv; exact S1| |exact Hd]. cbn [m_names set_names].
  match goal with |- Forall _ (if ?b then _ else _) => destruct b end; [exact C|]. destruct l as [|a l]; [exact C|]. inversion C; subst. assumption.
Qed.

(* ---- declarations ---- *)
Lemma make_params_step : forall l fuel E d fnm index r d', inv d -> make_params fuel E d fnm index l = Ok (r, d') ->
  step d d' /\ match r with Good fs => Forall (fun f => made_ok d' (Good f)) fs | Bad _ => True end.
Proof.
  induction l as [|[nm q] l IH]; intros fuel E d fnm index r d' Hi H; cbn [make_params] in H.
  - assert (r = Good [] /\ d' = d) as [-> ->] by (split; congruence). split; [apply step_refl; exact Hi|constructor].
  - cbv zeta in H. apply obind_ok in H. destruct H as [[x d1] [H1 H]]. cbn [fst snd] in H. destruct (MakeField_step _ _ _ _ _ _ _ _ _ Hi H1) as [S1 M1].
    destruct x as [f|s]; [|assert (r = Bad s /\ d' = d1) as [-> ->] by (split; congruence); split; [exact S1|exact I]].
    apply obind_ok in H. destruct H as [[y d2] [H2 H]]. cbn [fst snd] in H. destruct (IH _ _ _ _ _ _ _ (step_inv _ _ S1) H2) as [S2 M2].
    assert (S3 : step d d2) by (eapply step_trans; eassumption).
    destruct y as [fs|s]; [|assert (r = Bad s /\ d' = d2) as [-> ->] by (split; congruence); split; [exact S3|exact I]].
    assert (r = Good (f :: fs) /\ d' = d2) as [-> ->] by (split; congruence). split; [exact S3|]. constructor; [eapply made_mono; [exact S2|exact M1]|exact M2].
Qed.
Lemma add_field_step : forall f d d', inv d -> g_field (m_names d) f -> add_field f d = Ok d' -> step d d'.
Proof.
  intros f d d' Hi Hf H. unfold add_field in H. ob H m Hm. assert (d' = set_fields m d) by congruence. subst d'. apply u_fields; [exact Hi|].
  eapply (tab_add _ (fun f => p_name (f_prim f))); [| |exact Hm]; [|exact Hf]. pose proof (proj2 Hi) as Hs. unfold sound in Hs. tauto.
Qed.
Lemma g_field_mono : forall a b f, step a b -> g_field (m_names a) f -> g_field (m_names b) f.
Proof. intros a b f [_ H] [[A B] [C D]]. split; [split; apply H; assumption|]. split; [apply H; exact C|exact D]. Qed.
Lemma add_fields_step : forall l d d', inv d -> Forall (g_field (m_names d)) l -> add_fields l d = Ok d' -> step d d'.
Proof.
  induction l as [|f l IH]; intros d d' Hi Hl H; cbn [add_fields] in H.
  - assert (d' = d) by congruence. subst d'. apply step_refl. exact Hi.
  - ob H d1 H1. inversion Hl; subst. assert (S1 : step d d1) by (eapply add_field_step; eassumption). eapply step_trans; [exact S1|].
    eapply IH; [eapply step_inv; exact S1| |exact H]. eapply Forall_impl; [|eassumption]. intros x. apply g_field_mono. exact S1.
Qed.
Lemma made_field : forall d f uid, made_ok d (Good f) -> is_u32 uid -> g_field (m_names d) (with_uid uid f).
Proof. intros d f uid [A [B _]] Hu. split; [exact A|]. split; [exact B|exact Hu]. Qed.
Lemma print_bad_db : forall b t s, st_db (print_bad b t s) = st_db s.
Proof. intros [] t s; reflexivity. Qed.
Lemma MakeFunction_step : forall fuel E f nm parent this s s', inv (st_db s) -> Forall (fun f => made_ok (st_db s) (Good f)) this ->
  MakeFunction fuel E f nm parent this s = Ok s' -> step (st_db s) (st_db s').
Proof.
  intros fuel E f nm parent this s s' Hi Ht H. unfold MakeFunction in H. destruct (negb (f_first f)); [assert (s' = s) by congruence; subst s'; apply step_refl; exact Hi|].
  apply obind_ok in H. destruct H as [[r d1] [H1 H]]. cbn [fst snd] in H. destruct (MakeField_step _ _ _ _ _ _ _ _ _ Hi H1) as [S1 M1].
  destruct r as [ret|b]; [|assert (X : s' = print_bad b nm (set_db d1 s)) by congruence; subst s'; rewrite print_bad_db; exact S1].
  apply obind_ok in H. destruct H as [[ps d2] [H2 H]]. cbn [fst snd] in H. destruct (make_params_step _ _ _ _ _ _ _ _ (step_inv _ _ S1) H2) as [S2 M2].
  assert (S12 : step (st_db s) d2) by (eapply step_trans; eassumption).
  destruct ps as [params|b]; [|assert (X : s' = print_bad b nm (set_db d2 s)) by congruence; subst s'; rewrite print_bad_db; exact S12].
  cbv zeta in H. ob H uid Hu. getn H nn nd Hn Sn Kn. getn H pn pd Hp Sp Kp. ob H m Hm. ob H d3 H3. ob H d4 H4.
  assert (s' = set_db d4 s) by congruence. subst s'. clear H. cbn [st_db set_db].
  assert (U : is_u32 uid) by (eapply unique_id_u32; [|exact Hu]; unfold is_u32; lia).
  assert (S13 : step d2 pd) by (eapply step_trans; eassumption).
  assert (S14 : step (st_db s) pd) by (eapply step_trans; eassumption).
  assert (Sf : step pd (set_functions m pd)).
  { apply u_functions; [eapply step_inv; exact Sp|]. eapply (tab_add _ (fun f => p_name (fn_prim f)) _ (mk_func (mk_prim nn pn) uid 0)); [| |exact Hm].
    - pose proof (proj2 (step_inv _ _ Sp)) as Hs. unfold sound in Hs. tauto.
    - split; [split; cbn; [eapply step_known; [exact Sp|exact Kn]|exact Kp]|]. split; [exact U|reflexivity]. }
  assert (S5 : step (set_functions m pd) d3).
  { destruct (list_eqb _ _); [assert (d3 = set_functions m pd) by congruence; subst d3; apply step_refl; eapply step_inv; exact Sf|].
    eapply add_field_step; [eapply step_inv; exact Sf| |exact H3]. apply made_field; [|exact U]. eapply made_mono; [exact Sf|]. eapply made_mono; [exact S13|]. eapply made_mono; [exact S2|exact M1]. }
  assert (S6 : step d2 d3) by exact (step_trans _ _ _ S13 (step_trans _ _ _ Sf S5)).
  eapply step_trans; [exact S12|]. eapply step_trans; [exact S6|]. eapply add_fields_step; [eapply step_inv; exact S6| |exact H4].
  apply Forall_map. apply Forall_app. split.
  - eapply Forall_impl; [|exact Ht]. intros x Hx. apply made_field; [|exact U]. eapply made_mono; [exact S6|]. eapply made_mono; [exact S12|exact Hx].
  - eapply Forall_impl; [|exact M2]. intros x Hx. apply made_field; [|exact U]. eapply made_mono; [exact S6|exact Hx].
Qed.
Lemma AddMethodDecl_step : forall fuel E op inst this f nm parent s s', inv (st_db s) -> AddMethodDecl fuel E op inst this f nm parent s = Ok s' ->
  step (st_db s) (st_db s').
Proof.
  intros fuel E op inst this f nm parent s s' Hi H. unfold AddMethodDecl in H. destruct op; [assert (s' = s) by congruence; subst s'; apply step_refl; exact Hi|].
  destruct inst.
  - apply obind_ok in H. destruct H as [[t d1] [H1 H]]. cbn [fst snd] in H. destruct (MakeField_step _ _ _ _ _ _ _ _ _ Hi H1) as [S1 M1].
    destruct t as [t|b]; [|assert (X : s' = print_bad b nm (set_db d1 s)) by congruence; subst s'; rewrite print_bad_db; exact S1].
    eapply step_trans; [exact S1|]. change d1 with (st_db (set_db d1 s)). eapply MakeFunction_step; [eapply step_inv; exact S1| |exact H]. constructor; [exact M1|constructor].
  - eapply MakeFunction_step; [exact Hi|constructor|exact H].
Qed.
Lemma AddFieldDecl_step : forall fuel E anon nm bits q parent layout s s', inv (st_db s) -> AddFieldDecl fuel E anon nm bits q parent layout s = Ok s' ->
  step (st_db s) (st_db s').
Proof.
  intros fuel E anon nm bits q parent layout s s' Hi H. unfold AddFieldDecl in H. destruct anon; [assert (s' = s) by congruence; subst s'; apply step_refl; exact Hi|].
  destruct (negb layout); [discriminate H|]. apply obind_ok in H. destruct H as [[x d1] [H1 H]]. cbn [fst snd] in H. destruct (MakeField_step _ _ _ _ _ _ _ _ _ Hi H1) as [S1 M1].
  destruct x as [f|b]; [|assert (X : s' = print_bad b parent (set_db d1 s)) by congruence; subst s'; rewrite print_bad_db; exact S1].
  ob H d2 H2. assert (s' = set_db d2 s) by congruence. subst s'. cbn [st_db set_db]. eapply step_trans; [exact S1|]. eapply add_field_step; [eapply step_inv; exact S1| |exact H2].
  destruct M1 as [A [B C]]. split; [exact A|]. split; [exact B|]. rewrite C. unfold is_u32. lia.
Qed.
Ltac two n p dp SS K1 K2 H :=
  let dn := fresh "dn" in let Hdn := fresh "Hdn" in let Sdn := fresh "Sdn" in let Kdn := fresh "Kdn" in let Hdp := fresh "Hdp" in let Sdp := fresh "Sdp" in
  getn H n dn Hdn Sdn Kdn; getn H p dp Hdp Sdp K2;
  match type of Sdn with step ?a _ => match type of Sdp with step _ ?c => assert (SS : step a c) by (eapply step_trans; eassumption) end end;
  match type of Sdp with step _ ?c => assert (K1 : known (m_names c) n) by (eapply step_known; [exact Sdp|exact Kdn]) end.
Lemma AddClassTemplateDecl_step : forall k nm parent s s', inv (st_db s) -> AddClassTemplateDecl k nm parent s = Ok s' -> step (st_db s) (st_db s').
Proof.
  intros k nm parent s s' Hi H. unfold AddClassTemplateDecl in H. ob H found Hf. destruct found as [x|]; [assert (s' = s) by congruence; subst s'; apply step_refl; exact Hi|].
  destruct (MAX_NB_ARGS <? k); [assert (s' = warn nm s) by congruence; subst s'; apply step_refl; exact Hi|]. two n p dp SS K1 K2 H. ob H m Hm.
  assert (s' = set_db (set_templates m dp) s) by congruence. subst s'. cbn [st_db set_db]. eapply step_trans; [exact SS|]. apply u_templates; [eapply step_inv; exact SS|].
  eapply (tab_add _ p_name _ (mk_prim n p)); [| |exact Hm]; [|split; assumption]. pose proof (proj2 (step_inv _ _ SS)) as Hs. unfold sound in Hs. tauto.
Qed.
Lemma AddNamespaceDecl_step : forall nm parent s s', inv (st_db s) -> AddNamespaceDecl nm parent s = Ok s' -> step (st_db s) (st_db s').
Proof.
  intros nm parent s s' Hi H. unfold AddNamespaceDecl in H. ob H found Hf. destruct found as [x|]; [assert (s' = s) by congruence; subst s'; apply step_refl; exact Hi|].
  two n p dp SS K1 K2 H. ob H m Hm.
  assert (s' = set_db (set_namespaces m dp) s) by congruence. subst s'. cbn [st_db set_db]. eapply step_trans; [exact SS|]. apply u_namespaces; [eapply step_inv; exact SS|].
  eapply (tab_add _ p_name _ (mk_prim n p)); [| |exact Hm]; [|split; assumption]. pose proof (proj2 (step_inv _ _ SS)) as Hs. unfold sound in Hs. tauto.
Qed.
Lemma add_constants_step : forall l en parent d d', inv d -> add_constants en parent l d = Ok d' -> step d d'.
Proof.
  induction l as [|[c v] l IH]; intros en parent d d' Hi H; cbn [add_constants] in H.
  - assert (d' = d) by congruence. subst d'. apply step_refl. exact Hi.
  - cbv zeta in H. two n p dp SS K1 K2 H. ob H m Hm.
    assert (S2 : step d (set_enum_consts m dp)).
    { eapply step_trans; [exact SS|]. apply u_consts; [eapply step_inv; exact SS|]. eapply (tab_add _ (fun e => p_name (ec_prim e)) _ (mk_econst (mk_prim n p) (s32 v))); [| |exact Hm].
      - pose proof (proj2 (step_inv _ _ SS)) as Hs. unfold sound in Hs. tauto.
      - split; [split; assumption|apply s32_range]. }
    eapply step_trans; [exact S2|]. eapply IH; [eapply step_inv; exact S2|exact H].
Qed.
Lemma AddEnumDecl_step : forall scoped consts nm parent s s', inv (st_db s) -> AddEnumDecl scoped consts nm parent s = Ok s' -> step (st_db s) (st_db s').
Proof.
  intros scoped consts nm parent s s' Hi H. unfold AddEnumDecl in H. two n p dp SS K1 K2 H. ob H m Hm. ob H d1 H1.
  assert (s' = set_db d1 s) by congruence. subst s'. cbn [st_db set_db].
  assert (S2 : step (st_db s) (set_enums m dp)).
  { eapply step_trans; [exact SS|]. apply u_enums; [eapply step_inv; exact SS|]. eapply (tab_add _ (fun e => p_name (e_prim e)) _ (mk_enum (mk_prim n p) 4 scoped)); [| |exact Hm].
    - pose proof (proj2 (step_inv _ _ SS)) as Hs. unfold sound in Hs. tauto.
    - split; [split; assumption|reflexivity]. }
  eapply step_trans; [exact S2|]. eapply add_constants_step; [eapply step_inv; exact S2|exact H1].
Qed.
Lemma class_bases_step : forall l fuel E d derived r d', inv d -> known (m_names d) derived -> class_bases fuel E d derived l = Ok (r, d') -> step d d'.
Proof.
  induction l as [|b l IH]; intros fuel E d derived r d' Hi Hd H; cbn [class_bases] in H.
  - assert (d' = d) by congruence. subst d'. apply step_refl. exact Hi.
  - apply obind_ok in H. destruct H as [[x d1] [H1 H]]. cbn [fst snd] in H. destruct (ParseBaseClass_step _ (parse_cts_step fuel E) _ _ _ _ _ Hi Hd H1) as [S1 K1].
    destruct x as [n|s]; [|assert (d' = d1) by congruence; subst d'; exact S1]. specialize (K1 n eq_refl). ob H z Hz.
    assert (K2 : known (m_names d1) derived) by (eapply step_known; [exact S1|exact Hd]).
    pose proof (inherit_step _ _ _ _ (step_inv _ _ S1) K2 K1 Hz) as S2. eapply step_trans; [exact S1|]. eapply step_trans; [exact S2|].
    eapply IH; [eapply step_inv; exact S2|eapply step_known; [exact S2|exact K2]|exact H].
Qed.
Lemma tab_update : forall T nm (g : T -> Prop) h c v m, tab nm g m -> m_find h m = Some c -> nm v = nm c -> (g c -> g v) -> tab nm g (m_update h v m).
Proof.
  intros T nm g h c v m [Hs H] Hf Hn Hg. split; [rewrite m_update_keys; exact Hs|]. intros k w Hin. apply m_update_In in Hin. destruct Hin as [E|Hin]; [|apply H; exact Hin].
  assert (k = h /\ w = v) as [-> ->] by (split; congruence). destruct (H _ _ (m_find_In _ _ _ _ Hf)) as [A [B C]]. rewrite Hn. auto.
Qed.
Lemma AddClassDecl_step : forall fuel E r nm parent s s' o, inv (st_db s) -> AddClassDecl fuel E r nm parent s = Ok (s', o) -> step (st_db s) (st_db s').
Proof.
  intros fuel E r nm parent s s' o Hi H. unfold AddClassDecl in H.
  destruct (negb (r_def r) && negb (r_free r)); [assert (s' = s) by congruence; subst s'; apply step_refl; exact Hi|]. cbv zeta in H.
  destruct (negb (negb (r_def r)) && r_vbases r); [assert (s' = warn nm s) by congruence; subst s'; apply step_refl; exact Hi|].
  getn H tn td Ht St Kt. apply obind_ok in H. destruct H as [[b bd] [Hb H]]. cbn [fst snd] in H.
  assert (Sb : step td bd).
  { destruct (negb (r_def r)); [assert (bd = td) by congruence; subst bd; apply step_refl; eapply step_inv; exact St|]. eapply class_bases_step; [eapply step_inv; exact St|exact Kt|exact Hb]. }
  assert (S1 : step (st_db s) bd) by (eapply step_trans; eassumption).
  destruct b as [u|b]; [|assert (X : s' = print_bad b nm (set_db bd s)) by congruence; subst s'; rewrite print_bad_db; exact S1].
  destruct (r_anon r); [assert (s' = set_db bd s) by congruence; subst s'; exact S1|]. ob H found Hf. ob H d1 H1.
  assert (S2 : step (st_db s) d1).
  { eapply step_trans; [exact S1|]. destruct found as [c|]; [assert (d1 = bd) by congruence; subst d1; apply step_refl; eapply step_inv; exact S1|].
    two n p dp SS K1 K2 H1. ob H1 m Hm. assert (d1 = set_classes m dp) by congruence. subst d1. eapply step_trans; [exact SS|]. apply u_classes; [eapply step_inv; exact SS|].
    eapply (tab_add _ (fun c => p_name (c_prim c)) _ (mk_class (mk_prim n p) FORWARD_DECL_SIZE (r_class r))); [| |exact Hm].
    - pose proof (proj2 (step_inv _ _ SS)) as Hs. unfold sound in Hs. tauto.
    - split; [split; assumption|]. cbn. unfold is_u64, FORWARD_DECL_SIZE. lia. }
  destruct (negb (r_def r)); [assert (s' = set_db d1 s) by congruence; subst s'; exact S2|]. ob H h Hh. destruct (m_find h (m_classes d1)) as [c|] eqn:Ec; [|discriminate H].
  assert (X : s' = set_db (set_classes (m_update h (mk_class (c_prim c) (u32 (r_size r)) (c_is_class c)) (m_classes d1)) d1) s) by congruence. subst s'. cbn [st_db set_db]. clear H.
  eapply step_trans; [exact S2|]. apply u_classes; [eapply step_inv; exact S2|].
  eapply (tab_update _ (fun c => p_name (c_prim c))); [|exact Ec|reflexivity|].
  - pose proof (proj2 (step_inv _ _ S2)) as Hs. unfold sound in Hs. tauto.
  - intros [A _]. split; [exact A|apply u32_u64].
Qed.
Section Decls.
Variables (fuel : nat) (sf : list Z -> Z) (E : env) (sp : specs).
Lemma add_leaf_step : forall k nm parent layout s s', inv (st_db s) -> add_leaf fuel E k nm parent layout s = Ok s' -> step (st_db s) (st_db s').
Proof.
  intros k nm parent layout s s' Hi H. destruct k; cbn [add_leaf] in H.
  - eapply AddEnumDecl_step; eassumption.
  - eapply MakeFunction_step; [exact Hi|constructor|exact H].
  - eapply AddMethodDecl_step; eassumption.
  - eapply AddFieldDecl_step; eassumption.
  - eapply AddClassTemplateDecl_step; eassumption.
  - assert (s' = s) by congruence. subst s'. apply step_refl. exact Hi.
Qed.
Lemma run_step : forall d h s body s', inv (st_db s) -> (forall s1 s2, inv (st_db s1) -> body s1 = Ok s2 -> step (st_db s1) (st_db s2)) ->
  run sf sp d h s body = Ok s' -> step (st_db s) (st_db s').
Proof.
  intros d h s body s' Hi Hb H. unfold run in H. destruct (h_invalid h); [assert (s' = s) by congruence; subst s'; apply step_refl; exact Hi|].
  apply obind_ok in H. destruct H as [[r d1] [H1 H]]. cbn [fst snd] in H. cbv zeta in H. pose proof (ParseDeclAttributes_step _ _ _ _ _ _ _ _ Hi H1) as S1.
  assert (Hi1 : inv (st_db (set_db d1 s))) by (eapply step_inv; exact S1).
  destruct r.
  - destruct (st_allow _); [|assert (s' = set_db d1 s) by congruence; subst s'; exact S1]. eapply step_trans; [exact S1|]. exact (Hb _ _ Hi1 H).
  - ob H s2 H2. assert (s' = set_allow (st_allow s) s2) by congruence. subst s'. eapply step_trans; [exact S1|]. exact (Hb (set_allow true (set_db d1 s)) s2 Hi1 H2).
  - eapply step_trans; [exact S1|]. exact (Hb _ _ Hi1 H).
  - assert (s' = set_db d1 s) by congruence. subst s'. exact S1.
Qed.
Definition decl_step (d : decl) : Prop := forall parent layout s s', inv (st_db s) -> AddDecl fuel sf E sp d parent layout s = Ok s' -> step (st_db s) (st_db s').
Lemma contained_step : forall l, Forall decl_step l -> forall scope layout s s', inv (st_db s) -> contained E fuel sf sp l scope layout s = Ok s' -> step (st_db s) (st_db s').
Proof.
  induction l as [|c l IH]; intros Hl scope layout s s' Hi H; cbn [contained] in H.
  - assert (s' = s) by congruence. subst s'. apply step_refl. exact Hi.
  - ob H s1 H1. inversion Hl as [|x y Hc Hr]; subst. pose proof (Hc _ _ _ _ Hi H1) as S1. eapply step_trans; [exact S1|]. eapply IH; [exact Hr|eapply step_inv; exact S1|exact H].
Qed.
Lemma AddDecl_step : forall d, decl_step d.
Proof.
  apply decl_ind2.
  - intros h l Hl parent layout s s' Hi H. rewrite AddDecl_eq in H. eapply run_step; [exact Hi| |exact H]. intros s1 s2 Hi1 H2. ob H2 s3 H3.
    pose proof (AddNamespaceDecl_step _ _ _ _ Hi1 H3) as S1. eapply step_trans; [exact S1|]. eapply contained_step; [exact Hl|eapply step_inv; exact S1|exact H2].
  - intros h r l Hl parent layout s s' Hi H. rewrite AddDecl_eq in H. eapply run_step; [exact Hi| |exact H]. intros s1 s2 Hi1 H2. apply obind_ok in H2. destruct H2 as [[s3 o] [H3 H2]]. cbn [fst snd] in H2.
    pose proof (AddClassDecl_step _ _ _ _ _ _ _ _ Hi1 H3) as S1. destruct o as [scope|]; [|assert (s2 = s3) by congruence; subst s2; exact S1].
    eapply step_trans; [exact S1|]. eapply contained_step; [exact Hl|eapply step_inv; exact S1|exact H2].
  - intros h k parent layout s s' Hi H. rewrite AddDecl_eq in H. eapply run_step; [exact Hi| |exact H]. intros s1 s2 Hi1 H2. eapply add_leaf_step; eassumption.
  - intros parent layout s s' Hi H. rewrite AddDecl_eq in H. assert (s' = s) by congruence. subst s'. apply step_refl. exact Hi.
Qed.
Lemma walk_tu_step : forall l s s', inv (st_db s) -> walk_tu fuel sf E sp l s = Ok s' -> step (st_db s) (st_db s').
Proof.
  induction l as [|d l IH]; intros s s' Hi H; cbn [walk_tu] in H.
  - assert (s' = s) by congruence. subst s'. apply step_refl. exact Hi.
  - ob H s1 H1. assert (S1 : step (st_db s) (st_db s1)).
    { destruct (top_level d); [eapply AddDecl_step; eassumption|]. assert (s1 = s) by congruence. subst s1. apply step_refl. exact Hi. }
    eapply step_trans; [exact S1|]. eapply IH; [eapply step_inv; exact S1|exact H].
Qed.
End Decls.
Lemma add_base_types_step : forall l d d', Forall (fun t => is_u64 (snd t)) l -> inv d -> add_base_types l d = Ok d' -> step d d'.
Proof.
  induction l as [|[t z] l IH]; intros d d' Hl Hi H; cbn [add_base_types] in H.
  - assert (d' = d) by congruence. subst d'. apply step_refl. exact Hi.
  - inversion Hl as [|x y Hz Hr]; subst. getn H n dn Hn Sn Kn. ob H m Hm. assert (S2 : step d (set_types m dn)).
    { eapply step_trans; [exact Sn|]. apply u_types; [eapply step_inv; exact Sn|]. eapply (tab_add _ (fun t => p_name (t_prim t)) _ (mk_type (mk_prim n noname) z)); [| |exact Hm].
      - pose proof (proj2 (step_inv _ _ Sn)) as Hs. unfold sound in Hs. tauto.
      - split; [split; [exact Kn|apply known_noname]|exact Hz]. }
    eapply step_trans; [exact S2|]. eapply IH; [exact Hr|eapply step_inv; exact S2|exact H].
Qed.
Lemma base_types_u64 : Forall (fun t => is_u64 (snd t)) base_types.
Proof. unfold base_types. repeat constructor; cbn [snd]; lia. Qed.
Lemma scan_tu_step : forall fuel sf E tu x x', inv (st_db (snd x)) -> scan_tu fuel sf E tu x = Ok x' -> step (st_db (snd x)) (st_db (snd x')).
Proof.
  intros fuel sf E tu x x' Hi H. unfold scan_tu in H. cbv zeta in H. ob H d Hd. ob H s Hs. assert (x' = (snd (Gather tu (fst x)), s)) by congruence. subst x'. cbn [snd].
  pose proof (add_base_types_step _ _ _ base_types_u64 Hi Hd) as S1. eapply step_trans; [exact S1|]. change d with (st_db (set_db d (snd x))). eapply walk_tu_step; [eapply step_inv; exact S1|exact Hs].
Qed.
Lemma scan_tus_step : forall tus fuel sf x x', inv (st_db (snd x)) -> scan_tus fuel sf tus x = Ok x' -> step (st_db (snd x)) (st_db (snd x')).
Proof.
  induction tus as [|[E tu] tus IH]; intros fuel sf x x' Hi H; cbn [scan_tus] in H.
  - assert (x' = x) by congruence. subst x'. apply step_refl. exact Hi.
  - ob H x1 H1. pose proof (scan_tu_step _ _ _ _ _ _ Hi H1) as S1. eapply step_trans; [exact S1|]. eapply IH; [eapply step_inv; exact S1|exact H].
Qed.
Lemma add_containers_step : forall l d d', inv d -> add_containers l d = Ok d' -> step d d'.
Proof.
  induction l as [|[c [[r w] k]] l IH]; intros d d' Hi H; cbn [add_containers] in H.
  - assert (d' = d) by congruence. subst d'. apply step_refl. exact Hi.
  - getn H nc dc Hc Sc Kc. getn H nr dr Hr Sr Kr. getn H nw dw Hw Sw Kw.
    assert (S1 : step d dw) by (eapply step_trans; [exact Sc|]; eapply step_trans; eassumption).
    match type of H with add_containers l (set_containers ?m0 dw) = _ => assert (S2 : step dw (set_containers m0 dw)) end.
    { apply u_conts; [eapply step_inv; exact S1|]. apply (tab1_set _ ci_name (g_cont (m_names dw)) (mk_cinfo nc nr nw (if k then HAS_KEY else 0) 0)).
      - pose proof (proj2 (step_inv _ _ S1)) as Hs. unfold sound in Hs. tauto.
      - split; [|split; [|split]]; cbn.
        + eapply step_known; [|exact Kc]. eapply step_trans; eassumption.
        + eapply step_known; [|exact Kr]. exact Sw.
        + exact Kw.
        + destruct k; unfold is_u32, HAS_KEY; lia. }
    eapply step_trans; [exact S1|]. eapply step_trans; [exact S2|]. eapply IH; [eapply step_inv; exact S2|exact H].
Qed.
Lemma inv_empty : inv db_empty.
Proof.
  split; [split; [exact I|intros h n []]|]. unfold sound. cbn.
  assert (T0 : forall T nm (g : T -> Prop), tab nm g []) by (intros; split; [exact I|intros k v []]).
  assert (T1 : forall T nm (g : T -> Prop), tab1 nm g []) by (intros; split; [exact I|intros k v []]).
  repeat (split; [apply T0|]). split; apply T1.
Qed.
Lemma scan_inv : forall fuel sf tus d w, scan fuel sf tus = Ok (d, w) -> inv d.
Proof.
  intros fuel sf tus d w H. unfold scan in H. ob H x Hx. ob H d1 Hd. assert (d = d1) by congruence. subst d1.
  pose proof (scan_tus_step _ _ _ (specs_empty, mk_st db_empty false []) _ inv_empty Hx) as S1. eapply step_inv. eapply add_containers_step; [eapply step_inv; exact S1|exact Hd].
Qed.
