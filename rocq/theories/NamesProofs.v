From Verif Require Import Base BaseProofs Text HashModel HashSpec HashProofs Maps DatabaseModel.

Definition text_ok (t : list Z) : Prop := c_string t /\ zlen t < 2 ^ 31.
Lemma text_hash : forall t, text_ok t -> HashNameString (t ++ [0]) 0 = Ok (hash32 t 0) /\ is_u32 (hash32 t 0).
Proof.
  intros t [Hc Hl]. split.
  - apply hash_name_correct.
    + eapply Forall_impl; [|exact Hc]. unfold is_byte. cbn. lia.
    + intros Hin. unfold c_string in Hc. rewrite Forall_forall in Hc. apply Hc in Hin. lia.
    + unfold is_u32. lia.
  - apply hash32_range; [unfold is_u32; lia|exact Hl].
Qed.

(* every stored name carries its own hash *)
Definition names_ok (m : zmap name) : Prop :=
  ssorted (keys m) /\ forall h nm, m_find h m = Some nm -> n_hash nm = h /\ hash32 (n_text nm) 0 = h /\ h <> 0.
Lemma names_ok_nil : names_ok [].
Proof. split; [exact I|]. intros h nm H. discriminate. Qed.

Lemma get_name_cases : forall m t, names_ok m -> text_ok t ->
  let h := hash32 t 0 in
  (h = 0 /\ GetName m (Some t) = Ok (noname, m)) \/
  (h <> 0 /\ m_find h m = Some (mk_name h t) /\ GetName m (Some t) = Ok (mk_name h t, m)) \/
  (h <> 0 /\ (exists nm, m_find h m = Some nm /\ n_text nm <> t) /\ GetName m (Some t) = Trap) \/
  (h <> 0 /\ m_find h m = None /\ GetName m (Some t) = Ok (mk_name h t, m_set h (mk_name h t) m)).
Proof.
  intros m t [Hs Hn] Ht h. destruct (text_hash t Ht) as [Hh _]. unfold GetName. rewrite Hh. cbn [obind]. fold h.
  destruct (Z.eqb_spec h 0) as [E|E]; [left; auto|right].
  destruct (m_find h m) as [[a b]|] eqn:Ef.
  - destruct (Hn h _ Ef) as [H1 [H2 H3]]. cbn [n_hash n_text] in *. subst a.
    destruct (list_eqb b t) eqn:Eb.
    + apply list_eqb_eq in Eb. subst b. left. auto.
    + right. left. split; [exact E|]. split; [|reflexivity]. eexists. split; [reflexivity|]. cbn. intros Hbt.
      assert (list_eqb b t = true) by (apply list_eqb_eq; exact Hbt). congruence.
  - right. right. auto.
Qed.
Lemma get_name_ok : forall m t nm m', names_ok m -> text_ok t -> GetName m (Some t) = Ok (nm, m') -> names_ok m'.
Proof.
  intros m t nm m' Hn Ht H. destruct (get_name_cases m t Hn Ht) as [[E1 E2]|[[E1 [E2 E3]]|[[E1 [E2 E3]]|[E1 [E2 E3]]]]];
    cbn zeta in *.
  - rewrite E2 in H. injection H as _ <-. exact Hn.
  - rewrite E3 in H. injection H as _ <-. exact Hn.
  - rewrite E3 in H. discriminate.
  - rewrite E3 in H. injection H as <- <-. destruct Hn as [Hs Hn]. split; [apply m_set_ssorted; exact Hs|].
    intros h nm. rewrite m_find_set by exact Hs. destruct (Z.eqb_spec (hash32 t 0) h) as [<-|Eh]; [|apply Hn].
    intros H. injection H as <-. cbn. auto.
Qed.
Lemma get_names_ok : forall l m m', names_ok m -> Forall text_ok l -> get_names m l = Ok m' -> names_ok m'.
Proof.
  induction l as [|t l IH]; intros m m' Hn Hl H; cbn [get_names] in H; [congruence|].
  inversion Hl; subst. destruct (GetName m (Some t)) as [[nm m1]| | |] eqn:E; cbn [obind snd] in H; try discriminate.
  eapply IH; [eapply get_name_ok; eauto|assumption|exact H].
Qed.

(* one call: what comes back, what stays *)
Lemma get_name_result : forall m t nm m', names_ok m -> text_ok t -> hash32 t 0 <> 0 -> GetName m (Some t) = Ok (nm, m') ->
  n_text nm = t /\ n_hash nm = hash32 t 0 /\ GetNameH m' (hash32 t 0) = nm /\ GetName m' (Some t) = Ok (nm, m').
Proof.
  intros m t nm m' Hn Ht Hz H. pose proof (get_name_ok _ _ _ _ Hn Ht H) as Hn'.
  assert (Hf : nm = mk_name (hash32 t 0) t /\ m_find (hash32 t 0) m' = Some nm).
  { destruct (get_name_cases m t Hn Ht) as [[E1 E2]|[[E1 [E2 E3]]|[[E1 [E2 E3]]|[E1 [E2 E3]]]]]; cbn zeta in *.
    - contradiction.
    - rewrite E3 in H. injection H as <- <-. auto.
    - rewrite E3 in H. discriminate.
    - rewrite E3 in H. injection H as <- <-. split; [reflexivity|]. rewrite m_find_set by apply Hn. rewrite Z.eqb_refl. reflexivity. }
  destruct Hf as [-> Hf]. cbn. split; [reflexivity|]. split; [reflexivity|]. unfold GetNameH. rewrite Hf. split; [reflexivity|].
  destruct (get_name_cases m' t Hn' Ht) as [[E1 E2]|[[E1 [E2 E3]]|[[E1 [[nm' [Ea Eb]] E3]]|[E1 [E2 E3]]]]]; cbn zeta in *.
  - contradiction.
  - exact E3.
  - exfalso. rewrite Hf in Ea. injection Ea as <-. apply Eb. reflexivity.
  - congruence.
Qed.
Lemma get_name_keeps : forall m t nm m' h old, names_ok m -> text_ok t -> GetName m (Some t) = Ok (nm, m') ->
  m_find h m = Some old -> m_find h m' = Some old.
Proof.
  intros m t nm m' h old Hn Ht H Ho.
  destruct (get_name_cases m t Hn Ht) as [[E1 E2]|[[E1 [E2 E3]]|[[E1 [E2 E3]]|[E1 [E2 E3]]]]]; cbn zeta in *.
  - rewrite E2 in H. injection H as _ <-. exact Ho.
  - rewrite E3 in H. injection H as _ <-. exact Ho.
  - rewrite E3 in H. discriminate.
  - rewrite E3 in H. injection H as <- <-. rewrite m_find_set by apply Hn. destruct (Z.eqb_spec (hash32 t 0) h) as [<-|]; congruence.
Qed.
Lemma get_names_keeps : forall l m m' h old, names_ok m -> Forall text_ok l -> get_names m l = Ok m' ->
  m_find h m = Some old -> m_find h m' = Some old.
Proof.
  induction l as [|t l IH]; intros m m' h old Hn Hl H Ho; cbn [get_names] in H; [congruence|].
  inversion Hl; subst. destruct (GetName m (Some t)) as [[nm m1]| | |] eqn:E; cbn [obind snd] in H; try discriminate.
  eapply IH; [eapply get_name_ok; eauto|assumption|exact H|]. eapply get_name_keeps; eauto.
Qed.
(* the table after a history holds exactly the texts given *)
Lemma get_names_content : forall l m m', names_ok m -> Forall text_ok l -> get_names m l = Ok m' ->
  forall h nm, m_find h m' = Some nm <-> m_find h m = Some nm \/ (In (n_text nm) l /\ nm = mk_name h (n_text nm) /\ hash32 (n_text nm) 0 = h /\ h <> 0).
Proof.
  induction l as [|t l IH]; intros m m' Hn Hl H h nm; cbn [get_names] in H.
  - injection H as <-. cbn [In]. tauto.
  - inversion Hl; subst. destruct (GetName m (Some t)) as [[nm1 m1]| | |] eqn:E; cbn [obind snd] in H; try discriminate.
    pose proof (get_name_ok _ _ _ _ Hn H2 E) as Hn1. rewrite (IH m1 m' Hn1 H3 H h nm). cbn [In].
    destruct (get_name_cases m t Hn H2) as [[E1 E2]|[[E1 [E2 E4]]|[[E1 [E2 E4]]|[E1 [E2 E4]]]]]; cbn zeta in *.
    + rewrite E2 in E. injection E as _ <-. split; [tauto|]. intros [Hc|[[Hc|Hc] Hd]]; [tauto| |tauto].
      exfalso. subst t. destruct Hd as [_ [Hd1 Hd2]]. congruence.
    + rewrite E4 in E. injection E as _ <-. split; [tauto|]. intros [Hc|[[Hc|Hc] Hd]]; [tauto| |tauto].
      left. subst t. destruct Hd as [Hd0 [Hd1 Hd2]]. rewrite Hd1 in E2. rewrite E2. f_equal. symmetry. exact Hd0.
    + rewrite E4 in E. discriminate.
    + rewrite E4 in E. injection E as <- <-. rewrite m_find_set by apply Hn.
      destruct (Z.eqb_spec (hash32 t 0) h) as [Eh|Eh].
      * split.
        -- intros [Hc|Hc]; [|tauto]. injection Hc as <-. cbn. right. subst h. auto.
        -- intros [Hc|[[Hc|Hc] Hd]]; [congruence| |tauto]. left. subst t. destruct Hd as [Hd0 [Hd1 Hd2]]. rewrite Eh. rewrite <- Hd0. reflexivity.
      * split; [tauto|]. intros [Hc|[[Hc|Hc] Hd]]; [tauto| |tauto]. exfalso. subst t. destruct Hd as [_ [Hd1 _]]. congruence.
Qed.

(* ---- function ids ---- *)
Definition field_ok (f : field) : Prop := text_ok (spelled f).
Definition fhash (f : field) : Z := hash32 (spelled f) 0.
Lemma field_hash : forall f, field_ok f -> CalcFieldHash f = Ok (fhash f) /\ is_u32 (fhash f).
Proof. intros f H. apply text_hash. exact H. Qed.
Lemma unique_id_ok : forall ps acc, is_u32 acc -> Forall field_ok ps -> exists r, unique_id acc ps = Ok r /\ is_u32 r.
Proof.
  induction ps as [|p ps IH]; intros acc Ha Hp; cbn [unique_id]; [eauto|]. inversion Hp; subst.
  destruct (field_hash p H1) as [Hh Hr]. rewrite Hh. cbn [obind].
  destruct (mixhashes_defined acc (fhash p) Ha Hr) as [h [Hm Hu]]. rewrite Hm. cbn [obind]. apply IH; assumption.
Qed.
Lemma unique_id_app : forall a b acc, unique_id acc (a ++ b) = (do x <- unique_id acc a; unique_id x b).
Proof.
  induction a as [|p a IH]; intros b acc; cbn [unique_id app obind]; [reflexivity|].
  destruct (CalcFieldHash p); cbn [obind]; try reflexivity. destruct (MixHashes acc a0); cbn [obind]; try reflexivity. apply IH.
Qed.
Lemma unique_id_hashes : forall a b acc, Forall field_ok a -> Forall field_ok b -> map fhash a = map fhash b ->
  unique_id acc a = unique_id acc b.
Proof.
  induction a as [|p a IH]; intros [|q b] acc Ha Hb H; try discriminate; [reflexivity|]. cbn [map] in H. injection H as H1 H2.
  inversion Ha; inversion Hb; subst. cbn [unique_id]. rewrite (proj1 (field_hash p ltac:(assumption))), (proj1 (field_hash q ltac:(assumption))), H1.
  cbn [obind]. destruct (MixHashes acc (fhash q)); cbn [obind]; try reflexivity. apply IH; assumption.
Qed.
Lemma unique_id_inj_acc : forall ps a b, is_u32 a -> is_u32 b -> Forall field_ok ps -> unique_id a ps = unique_id b ps -> a = b.
Proof.
  induction ps as [|p ps IH]; intros a b Ha Hb Hp H; cbn [unique_id] in H; [congruence|]. inversion Hp; subst.
  destruct (field_hash p H2) as [Hh Hr]. rewrite Hh in H. cbn [obind] in H.
  destruct (mixhashes_defined a (fhash p) Ha Hr) as [x [Hx Hux]]. destruct (mixhashes_defined b (fhash p) Hb Hr) as [y [Hy Huy]].
  rewrite Hx, Hy in H. cbn [obind] in H. assert (x = y) by (eapply IH; eassumption). subst y.
  apply (mixhashes_inj_a a b (fhash p)); try assumption. congruence.
Qed.
Lemma unique_id_one_apart : forall pre p q post pre', Forall field_ok (pre ++ p :: post) -> Forall field_ok (pre' ++ q :: post) ->
  map fhash pre = map fhash pre' -> fhash p <> fhash q ->
  CalculateFunctionUniqueID (pre ++ p :: post) <> CalculateFunctionUniqueID (pre' ++ q :: post).
Proof.
  intros pre p q post pre' Hp Hq Hpre Hne H. unfold CalculateFunctionUniqueID in H.
  apply Forall_app in Hp. destruct Hp as [Hp1 Hp2]. apply Forall_app in Hq. destruct Hq as [Hq1 Hq2].
  inversion Hp2; inversion Hq2; subst. rewrite !unique_id_app in H. rewrite (unique_id_hashes pre' pre) in H by auto.
  destruct (unique_id_ok pre 0 ltac:(unfold is_u32; lia) Hp1) as [x [Hx Hux]]. rewrite Hx in H. cbn [obind unique_id] in H.
  destruct (field_hash p ltac:(assumption)) as [Hh Hr]. destruct (field_hash q ltac:(assumption)) as [Hh2 Hr2].
  rewrite Hh, Hh2 in H. cbn [obind] in H.
  destruct (mixhashes_defined x _ Hux Hr) as [a [Ha Hua]]. destruct (mixhashes_defined x _ Hux Hr2) as [b [Hb Hub]].
  rewrite Ha, Hb in H. cbn [obind] in H. assert (a = b) by (eapply unique_id_inj_acc; eassumption). subst b.
  apply Hne. apply (mixhashes_inj_b x); try assumption. congruence.
Qed.
