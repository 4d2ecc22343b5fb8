(* Versioned binary: saving and loading whole objects. *)
From Verif Require Import Base BaseProofs SearchModel SearchProofs RuntimeModel JsonLexModel JsonLexProofs JsonNumModel JsonNumProofs JsonObjModel JsonObjSpec JsonObjProofs JsonSaveProofs JsonStoreProofs VersBinModel VersBinSpec VersBinProofs VersBinCoreProofs.

(* ---- what copies leave in memory ---- *)
Lemma apply_outside : forall n object x cs m, Forall (in_range n) cs -> block m object n -> (forall c, In c cs -> ~ (object + fst c <= x < object + fst c + zlen (snd c))) -> znth (apply_copies cs object m) x = znth m x.
Proof.
  intros n object x. induction cs as [|c cs IH]; intros m HF [H1 [H2 H3]] Hx; [reflexivity|]. inversion HF as [|? ? [Hc1 Hc2] HF']; subst. pose proof (zlen_nonneg _ (snd c)). cbn [apply_copies fold_left]. unfold apply_copies in IH.
  assert (HZ : zlen (splice m (object + fst c) (snd c)) = zlen m) by (apply splice_zlen; lia). rewrite IH; [|exact HF'|split; [lia|split; lia]|intros d Hd; apply Hx; right; exact Hd].
  rewrite znth_splice by lia. pose proof (Hx c (or_introl eq_refl)). replace ((object + fst c <=? x) && (x <? object + fst c + zlen (snd c))) with false by lia. reflexivity.
Qed.
(* where every copy that reaches a byte stores the same there *)
Lemma apply_inside : forall n object x v cs m, Forall (in_range n) cs -> block m object n ->
  (forall c, In c cs -> object + fst c <= x < object + fst c + zlen (snd c) -> znth (snd c) (x - (object + fst c)) = v) ->
  (exists c, In c cs /\ object + fst c <= x < object + fst c + zlen (snd c)) -> znth (apply_copies cs object m) x = v.
Proof.
  intros n object x v cs. induction cs as [|c cs IH] using rev_ind; intros m HF HB Hv [d [Hd Hx]]; [contradiction|]. apply Forall_app in HF. destruct HF as [HF HFc]. inversion HFc as [|? ? [Hc1 Hc2] _]; subst. pose proof (zlen_nonneg _ (snd c)).
  rewrite apply_app. pose proof (apply_zlen n cs object m HF HB) as HZ. destruct HB as [B1 [B2 B3]]. cbn [apply_copies fold_left]. rewrite znth_splice by lia.
  destruct ((object + fst c <=? x) && (x <? object + fst c + zlen (snd c))) eqn:Ein.
  - apply Hv; [apply in_or_app; right; left; reflexivity|lia].
  - apply IH; [exact HF|split; [lia|split; lia]|intros e He; apply Hv; apply in_or_app; left; exact He|]. exists d. split; [|exact Hx]. apply in_app_or in Hd. destruct Hd as [Hd|[->|[]]]; [exact Hd|lia].
Qed.

(* ---- reading what was saved ---- *)
Theorem versions : forall E E' mem object ty ty' t t', vb_types_ok E -> vb_types_ok E' -> vb_savable E -> vb_agree E E' -> nth_error E ty = Some t -> nth_error E' ty' = Some t' -> block mem object (rt_size t) ->
  exists bytes cs, (forall n, (2 * ty + 2 <= n)%nat -> SaveVersionedBinary n E no_save mem object ty = Ok bytes) /\ Forall (in_range (rt_size t')) cs /\
    (forall c, In c cs <-> rt_hash t = rt_hash t' /\ gives E E' mem object ty ty' c) /\
    forall data pos object' mem', zlen data < 2 ^ 31 -> stands data pos bytes -> block mem' object' (rt_size t') ->
      exists k, forall n, (k <= n)%nat -> LoadVersionedBinary n E' no_load data (mk_vs pos mem') object' ty' = Ok (mk_vs (pos + zlen bytes) (apply_copies cs object' mem')).
Proof.
  intros E E' mem object ty ty' t t' HE HE' HS HA Ht Ht' HB. destruct (all_objects E E' mem HE HE' HS HA ty t object Ht HB) as [[body [Hs [_ Hl]]] _]. destruct (proj2 HE _ _ Ht) as [_ [Hth _]].
  assert (HR : forall data pos, zlen data < 2 ^ 31 -> stands data pos (chunk (rt_hash t) 0 body) -> forall n mem' object', LoadVersionedBinary n E' no_load data (mk_vs pos mem') object' ty' = vb_LoadObject E' data no_load n (mk_vs (pos + 12) mem') object' ty' (zlen body) (rt_hash t) /\ at_ data (pos + 12) body).
  { intros data pos Hd Hst n mem' object'. apply stands_at in Hst. destruct (chunk_at data pos (rt_hash t) 0 body Hst Hth ltac:(unfold is_u32; lia) Hd) as [R1 [R2 [R3 R4]]]. split; [|exact R4]. unfold LoadVersionedBinary. cbn [vs_pos vs_mem]. rewrite R1, bind_Ok. cbn [snd fst]. rewrite R2, bind_Ok. cbn [snd fst]. rewrite R3, bind_Ok. reflexivity. }
  assert (HSv : forall n, (2 * ty + 2 <= n)%nat -> SaveVersionedBinary n E no_save mem object ty = Ok (chunk (rt_hash t) 0 body)) by (intros n Hn; unfold SaveVersionedBinary, get_type; rewrite Ht, bind_Ok, Hs by exact Hn; reflexivity).
  destruct (Z.eq_dec (rt_hash t) (rt_hash t')) as [Hh|Hh].
  - destruct (Hl _ _ Ht' Hh) as [cs [Hcs Hld]]. exists (chunk (rt_hash t) 0 body), cs. split; [exact HSv|]. split; [apply Forall_forall; intros c Hc; apply Hcs in Hc; eapply (gives_range E E' mem HE HE'); eassumption|]. split; [intros c; rewrite Hcs; tauto|].
    intros data pos object' mem' Hd Hst HB'. destruct (HR data pos Hd Hst O mem' object') as [_ R4]. destruct (Hld object' data (pos + 12) mem' Hd R4 HB') as [k Hk]. exists k. intros n Hn. destruct (HR data pos Hd Hst n mem' object') as [R _]. rewrite R, Hk by exact Hn. rewrite chunk_zlen. f_equal. f_equal. lia.
  - exists (chunk (rt_hash t) 0 body), []. split; [exact HSv|]. split; [constructor|]. split; [intros c; cbn; tauto|]. intros data pos object' mem' Hd Hst HB'. exists 1%nat. intros [|n] Hn; [lia|]. destruct (HR data pos Hd Hst (S n) mem' object') as [R [R1 [R2 _]]]. rewrite R, load_object_S. unfold get_type. rewrite Ht', bind_Ok.
    replace (rt_hash t =? rt_hash t') with false by lia. cbn [negb vs_pos vs_mem]. pose proof (zlen_nonneg _ body). rewrite seek_at by lia. rewrite bind_Ok, chunk_zlen. f_equal. f_equal. lia.
Qed.

(* in a version whose fields lie apart what is matched lies apart *)
Lemma matching_apart : forall E E', vb_types_ok E -> vb_types_ok E' -> names_apart E -> fields_apart E' -> forall ty ty' d1 d1' t1 t1', matching E E' ty ty' d1 d1' t1 t1' -> forall d2 d2' t2 t2', matching E E' ty ty' d2 d2' t2 t2' ->
  (d1 = d2 /\ d1' = d2' /\ t1 = t2 /\ t1' = t2') \/ d1' + rt_size t1' <= d2' \/ d2' + rt_size t2' <= d1'.
Proof.
  intros E E' HE HE' HN HF. induction 1 as [ty ty' t t' Ht Ht' Hc Hc'|ty ty' h f f' et et' i d d' t t' Hs Hn Het Het' Hh Hco Hm IH]; intros d2 d2' t2 t2' H2.
  - apply (matching_leaf E E' _ _ _ _ _ _ _ _ Ht Hc Ht' Hc') in H2. destruct H2 as [-> [-> [-> ->]]]. left. auto.
  - inversion H2 as [? ? ? ? G1 G2 G3|? ? g f2 f2' e2 e2' j b b' ? ? Gs Gn Ge Ge' Gh Gco Gm]; subst.
    + exfalso. unfold is_class in G3. inversion Hs as [? ? ? ? ? ? K1 K2|? ? ? ? ? ? ? K1 K2]; subst; rewrite G1 in K1; injection K1 as <-; rewrite K2 in G3; discriminate.
    + destruct (matching_new E E' HE' _ _ _ _ _ _ Hm _ Het') as [I1 I2]. destruct (matching_new E E' HE' _ _ _ _ _ _ Gm _ Ge') as [J1 J2].
      assert (Sp : forall f f' i et', common f f' i -> nth_error E' (rf_type f') = Some et' -> 0 <= i * rt_size et' /\ (i + 1) * rt_size et' <= vb_space f' et').
      { intros a a' k u' Hk Hu. pose proof (proj2 HE' _ _ Hu) as [Hsz _]. unfold common in Hk. unfold vb_space. destruct (rf_count a), (rf_count a'); try contradiction; [|subst k; lia]. destruct Hk as [_ [-> Hk]]. nia. }
      pose proof (Sp _ _ _ _ Hco Het') as S1. pose proof (Sp _ _ _ _ Gco Ge') as S2.
      destruct (Z.eq_dec h g) as [->|Hne].
      * rewrite (HN _ _ _ _ Hs Gs) in *. assert (f' = f2') by congruence. subst f2'. assert (et = e2) by congruence. assert (et' = e2') by congruence. subst e2 e2'. destruct (Z.eq_dec i j) as [->|Hij].
        -- destruct (IH _ _ _ _ Gm) as [[-> [-> [-> ->]]]|[H|H]]; [left; auto|right; left; lia|right; right; lia].
        -- right. pose proof (proj2 HE' _ _ Het') as [Hsz _]. assert (Hc : i + 1 <= j \/ j + 1 <= i) by lia. destruct Hc; [left|right]; nia.
      * right. destruct (HF _ _ _ _ _ _ _ Hn Gn Hne Het' Ge') as [H|H]; [left|right]; lia.
Qed.
Theorem versions_kept : forall E E' mem object ty ty' t t', vb_types_ok E -> vb_types_ok E' -> vb_savable E -> vb_agree E E' -> nth_error E ty = Some t -> nth_error E' ty' = Some t' -> block mem object (rt_size t) ->
  exists bytes, (forall n, (2 * ty + 2 <= n)%nat -> SaveVersionedBinary n E no_save mem object ty = Ok bytes) /\
  forall data pos object' mem', zlen data < 2 ^ 31 -> stands data pos bytes -> block mem' object' (rt_size t') ->
  exists mem2 k, (forall n, (k <= n)%nat -> LoadVersionedBinary n E' no_load data (mk_vs pos mem') object' ty' = Ok (mk_vs (pos + zlen bytes) mem2)) /\ zlen mem2 = zlen mem' /\
    (rt_hash t <> rt_hash t' -> mem2 = mem') /\
    (rt_hash t = rt_hash t' -> names_apart E -> fields_apart E' -> forall d d' s s' b, matching E E' ty ty' d d' s s' -> converted s s' (slice mem (object + d) (rt_size s)) = Some b -> slice mem2 (object' + d') (zlen b) = b) /\
    (forall x, (forall d d' s s' b, matching E E' ty ty' d d' s s' -> converted s s' (slice mem (object + d) (rt_size s)) = Some b -> ~ (object' + d' <= x < object' + d' + zlen b)) -> znth mem2 x = znth mem' x).
Proof.
  intros E E' mem object ty ty' t t' HE HE' HS HA Ht Ht' HB. destruct (versions E E' mem object ty ty' t t' HE HE' HS HA Ht Ht' HB) as [bytes [cs [Hs [HR [Hcs Hl]]]]]. exists bytes. split; [exact Hs|].
  intros data pos object' mem' Hd Hst HB'. destruct (Hl data pos object' mem' Hd Hst HB') as [k Hk]. exists (apply_copies cs object' mem'), k. split; [exact Hk|]. pose proof HB' as [B1 [B2 B3]]. pose proof (apply_zlen _ _ _ _ HR HB') as HZ. split; [exact HZ|]. split; [|split].
  - intros Hne. destruct cs as [|c cs]; [reflexivity|]. destruct (proj1 (Hcs c) (or_introl eq_refl)) as [H _]. contradiction.
  - intros Hh HN HF d d' s s' b Hm Hc. assert (Hin : In (d', b) cs) by (apply Hcs; split; [exact Hh|exists d, s, s'; auto]). pose proof (proj1 (Forall_forall _ _) HR _ Hin) as [R1 R2]. cbn [fst snd] in R1, R2. pose proof (zlen_nonneg _ b).
    apply znth_ext. intros j. rewrite znth_slice by lia. destruct ((0 <=? j) && (j <? zlen b)) eqn:Ej; [|symmetry; apply znth_none; lia].
    apply (apply_inside (rt_size t')); [exact HR|exact HB'| |exists (d', b); cbn [fst snd]; split; [exact Hin|lia]].
    intros [e' y] He Hx. cbn [fst snd] in *. apply Hcs in He. destruct He as [_ [e [u [u' [Gm Gc]]]]]. cbn [fst snd] in Gm, Gc. destruct (matching_old E E' HE _ _ _ _ _ _ Gm _ Ht) as [_ [_ Hu]]. destruct (matching_old E E' HE _ _ _ _ _ _ Hm _ Ht) as [_ [_ Hs0]].
    pose proof (converted_len _ _ _ _ (slice_le _ _ _ _ (Z.lt_le_incl _ _ Hu)) Gc). pose proof (converted_len _ _ _ _ (slice_le _ _ _ _ (Z.lt_le_incl _ _ Hs0)) Hc).
    destruct (matching_apart E E' HE HE' HN HF _ _ _ _ _ _ Hm _ _ _ _ Gm) as [[-> [-> [-> ->]]]|Hap]; [|lia]. assert (y = b) by congruence. subst y. f_equal. lia.
  - intros x Hx. apply (apply_outside (rt_size t')); [exact HR|exact HB'|]. intros [c y] Hc. cbn [fst snd]. apply Hcs in Hc. destruct Hc as [_ [d [s [s' [Hm Hv]]]]]. exact (Hx _ _ _ _ _ Hm Hv).
Qed.

(* ---- one version ---- *)
Section One.
Variable E : list rtype.
Hypothesis HE : vb_types_ok E.
Hypothesis HO : one_meaning E.
Lemma one_agree : vb_agree E E.
Proof.
  intros u v t t' Hu Hv Hh. assert (u = v) by (eapply (proj1 HO); eassumption). subst v. rewrite Hu in Hv. injection Hv as <-. split; [unfold same_kind; destruct (rt_kind t); exact I|].
  intros h f f' et et' Hs Hn He He'. assert (f = f') by (eapply (proj2 HO); [apply saved_has; exact Hs|eapply new_has; eassumption]). subst f'. rewrite He in He'. injection He' as <-. destruct (rf_count f); auto.
Qed.
Lemma saved_new : forall ty h f, vb_saved E ty h f -> new_field E ty h = Some f.
Proof.
  intros ty h f H. destruct (find_complete E (proj1 HE) (S ty) ty h f (saved_has E _ _ _ H) ltac:(lia)) as [g Hg]. assert (g = f) by (eapply (proj2 HO); [eapply find_has; exact Hg|apply saved_has; exact H]). subst g. unfold new_field. rewrite Hg.
  assert (Hl : lasting (rf_flags f)) by (clear Hg; induction H; assumption). unfold lasting in Hl. rewrite Hl. reflexivity.
Qed.
Lemma matching_same : forall ty ty' d d' t t', matching E E ty ty' d d' t t' -> ty = ty' -> d = d' /\ t = t' /\ vb_leaf E ty d t.
Proof.
  induction 1 as [ty ty' t t' Ht Ht' Hc Hc'|ty ty' h f f' et et' i d d' t t' Hs Hn Het Het' Hh Hco Hm IH]; intros <-.
  - rewrite Ht in Ht'. injection Ht' as <-. split; [reflexivity|]. split; [reflexivity|]. constructor; assumption.
  - rewrite (saved_new _ _ _ Hs) in Hn. injection Hn as <-. rewrite Het in Het'. injection Het' as <-. destruct (IH eq_refl) as [-> [-> Hl]]. split; [reflexivity|]. split; [reflexivity|]. eapply vl_member; [exact Hs|exact Het| |exact Hl]. unfold common in Hco. destruct (rf_count f); tauto.
Qed.
Lemma leaf_matching : forall ty d t, vb_leaf E ty d t -> matching E E ty ty d d t t.
Proof.
  induction 1 as [ty t Ht Hc|ty h f et i d t Hs Het Hi Hl IH]; [constructor; assumption|]. eapply mt_member; [exact Hs|apply saved_new; exact Hs|exact Het|exact Het|reflexivity| |exact IH]. unfold common. destruct (rf_count f); [|exact Hi]. tauto.
Qed.
Lemma leaf_range : forall ty d t v, vb_leaf E ty d t -> nth_error E ty = Some v -> 0 <= d /\ d + rt_size t <= rt_size v /\ 0 < rt_size t.
Proof. intros ty d t v Hl Hv. eapply (matching_old E E HE); [apply leaf_matching; exact Hl|exact Hv]. Qed.
Lemma leaf_kind : forall ty d t, vb_leaf E ty d t -> is_class t = false /\ exists u, nth_error E u = Some t.
Proof. induction 1; [split; [assumption|eauto]|assumption]. Qed.
(* numbers and enums that hold one of their constants come back as they are *)
Lemma same_value : forall ty d t b, vb_savable E -> vb_leaf E ty d t -> zlen b = rt_size t -> Forall is_byte b -> (forall fl cs, rt_kind t = K_enum fl cs -> In (s32 (le_val b)) (constant_values cs)) -> converted t t b = Some b.
Proof.
  intros ty d t b HS Hl Hb HB Hen. destruct (leaf_kind _ _ _ Hl) as [Hc [u Hu]]. unfold converted. unfold is_class in Hc. pose proof (HS _ _ Hu) as HS'. pose proof (proj1 HE _ _ Hu) as [_ HW]. destruct (rt_kind t) as [|fl cs|] eqn:Hk; [rewrite Z.eqb_refl; reflexivity| |discriminate].
  specialize (Hen _ _ eq_refl). rewrite HS' in *. cbn [Z.eqb Pos.eqb]. unfold constant_hash. destruct (find (fun e => snd (snd e) =? s32 (le_val b)) cs) as [e|] eqn:Ef.
  - apply find_some in Ef. destruct Ef as [Hi Hv]. rewrite (lookup_const cs e) by first [exact Hi | exact (proj1 HW)]. destruct e as [h [nm v]]. cbn in Hv. apply Z.eqb_eq in Hv. subst v. cbn [snd]. apply (f_equal (@Some (list Z))).
    assert (Hlen : length b = 4%nat) by (unfold zlen in Hb; lia). rewrite <- (le_bytes_val b HB) at 2. rewrite Hlen.
    apply le_val_inj; [apply le_bytes_bytes|apply le_bytes_bytes|rewrite !le_bytes_length; reflexivity|]. rewrite !le_val_bytes. change (256 ^ Z.of_nat 4) with (2 ^ 32). unfold s32. rewrite Zminus_mod, Zmod_mod, <- Zminus_mod. f_equal. lia.
  - exfalso. unfold constant_values in Hen. apply in_map_iff in Hen. destruct Hen as [e [He Hi]]. pose proof (find_none _ _ Ef _ Hi) as Hf. cbn in Hf. lia.
Qed.
End One.
Theorem round_trip : forall E mem object ty t, vb_types_ok E -> vb_savable E -> one_meaning E -> nth_error E ty = Some t -> block mem object (rt_size t) -> Forall is_byte mem ->
  (forall d s fl cs, vb_leaf E ty d s -> rt_kind s = K_enum fl cs -> In (s32 (le_val (slice mem (object + d) 4))) (constant_values cs)) ->
  exists bytes, (forall n, (2 * ty + 2 <= n)%nat -> SaveVersionedBinary n E no_save mem object ty = Ok bytes) /\
  forall data pos object' mem', zlen data < 2 ^ 31 -> stands data pos bytes -> block mem' object' (rt_size t) ->
  exists mem2 k, (forall n, (k <= n)%nat -> LoadVersionedBinary n E no_load data (mk_vs pos mem') object' ty = Ok (mk_vs (pos + zlen bytes) mem2)) /\ zlen mem2 = zlen mem' /\
    (forall x, vb_carried E ty x -> znth mem2 (object' + x) = znth mem (object + x)) /\
    (forall x, ~ vb_carried E ty (x - object') -> znth mem2 x = znth mem' x).
Proof.
  intros E mem object ty t HE HS HO Ht HB HBy Hen. destruct (versions E E mem object ty ty t t HE HE HS (one_agree E HO) Ht Ht HB) as [bytes [cs [Hs [HR [Hcs Hl]]]]]. exists bytes. split; [exact Hs|]. destruct HB as [A1 [A2 A3]].
  assert (HG : forall c, In c cs <-> exists d s, vb_leaf E ty d s /\ c = (d, slice mem (object + d) (rt_size s))).
  { assert (HV : forall d s, vb_leaf E ty d s -> converted s s (slice mem (object + d) (rt_size s)) = Some (slice mem (object + d) (rt_size s))).
    { intros d s Hl0. destruct (leaf_range E HE HO _ _ _ _ Hl0 Ht) as [R1 [R2 R3]]. apply (same_value E HE ty d); [exact HS|exact Hl0|apply slice_length; lia| |].
      - apply Forall_forall. intros x Hx. apply (proj1 (Forall_forall _ _) HBy). apply In_znth in Hx. destruct Hx as [j Hj]. rewrite znth_slice in Hj by lia. destruct ((0 <=? j) && (j <? rt_size s)); [|discriminate]. eapply znth_In; exact Hj.
      - intros fl cc Hk. destruct (leaf_kind E _ _ _ Hl0) as [_ [u Hu]]. pose proof (HS _ _ Hu) as H4. rewrite Hk in H4. rewrite H4. eapply Hen; eassumption. }
    intros [c x]. rewrite Hcs. split.
    - intros [_ [d [s [s' [Hm Hv]]]]]. cbn [fst snd] in Hm, Hv. destruct (matching_same E HE HO _ _ _ _ _ _ Hm eq_refl) as [<- [<- Hl0]]. exists d, s. split; [exact Hl0|]. rewrite (HV _ _ Hl0) in Hv. congruence.
    - intros [d [s [Hl0 Hc]]]. injection Hc as -> ->. split; [reflexivity|]. exists d, s, s. cbn [fst snd]. split; [apply leaf_matching; assumption|apply HV; exact Hl0]. }
  intros data pos object' mem' Hd Hst HB'. destruct (Hl data pos object' mem' Hd Hst HB') as [k Hk]. exists (apply_copies cs object' mem'), k. split; [exact Hk|]. pose proof HB' as [B1 [B2 B3]]. pose proof (apply_zlen _ _ _ _ HR HB') as HZ. split; [exact HZ|]. split.
  - intros x [d [s [Hl0 Hx]]]. destruct (leaf_range E HE HO _ _ _ _ Hl0 Ht) as [R1 [R2 R3]]. apply (apply_inside (rt_size t)); [exact HR|exact HB'| |].
    + intros c Hc Hr. apply HG in Hc. destruct Hc as [d0 [s0 [Hl1 ->]]]. destruct (leaf_range E HE HO _ _ _ _ Hl1 Ht) as [Q1 [Q2 Q3]]. cbn [fst snd] in *. rewrite slice_length in Hr by lia. rewrite znth_slice by lia. replace ((0 <=? object' + x - (object' + d0)) && (object' + x - (object' + d0) <? rt_size s0)) with true by lia. f_equal. lia.
    + exists (d, slice mem (object + d) (rt_size s)). split; [apply HG; eauto|]. cbn [fst snd]. rewrite slice_length by lia. lia.
  - intros x Hx. apply (apply_outside (rt_size t)); [exact HR|exact HB'|]. intros c Hc Hr. apply HG in Hc. destruct Hc as [d0 [s0 [Hl1 ->]]]. destruct (leaf_range E HE HO _ _ _ _ Hl1 Ht) as [Q1 [Q2 Q3]]. cbn [fst snd] in Hr. rewrite slice_length in Hr by lia. apply Hx. exists d0, s0. split; [exact Hl1|lia].
Qed.

(* ---- arrays of another element type ---- *)
Lemma find_in : forall E ty t h f, vb_types_ok E -> nth_error E ty = Some t -> is_class t = true -> new_field E ty h = Some f -> vb_find (S (length E)) E ty h = Ok (Some f) /\ skipped (rf_flags f) = false.
Proof.
  intros E ty t h f HE Ht Hc Hn. assert (Hlt : (ty < length E)%nat) by (apply nth_error_Some; congruence). rewrite (vb_find_ok E HE _ (S ty) ty t h Ht Hc) by lia. unfold new_field in Hn. destruct (find_field (S ty) E ty h) as [g|]; [|discriminate].
  change (skipped (rf_flags f)) with (has_flag (rf_flags f) transient_bits). destruct (has_flag (rf_flags g) transient_bits) eqn:Eg; [discriminate|]. injection Hn as <-. auto.
Qed.
Theorem changed_element : forall E ty t h f cnt et, vb_types_ok E -> nth_error E ty = Some t -> is_class t = true -> new_field E ty h = Some f -> rf_count f = Some cnt -> nth_error E (rf_type f) = Some et ->
  forall n th vh vsize rest data pos object mem, is_u32 th -> is_u32 h -> is_u32 vh -> vh <> 0 -> vh <> rt_hash et -> is_u32 n -> is_u32 vsize -> zlen data < 2 ^ 31 ->
  stands data pos (chunk th h (le_bytes 4 n ++ le_bytes 4 0 ++ le_bytes 4 0 ++ le_bytes 4 vh ++ le_bytes 4 vsize ++ rest)) -> block mem object (rt_size t) ->
  forall fuel, vb_LoadClassField E data no_load (S fuel) (mk_vs pos mem) object ty =
    let end_pos := pos + 12 + 20 + zlen rest in if end_pos + 20 <=? zlen data then Ok (mk_vs (end_pos + 20) mem) else Trap.
Proof.
  intros E ty t h f cnt et HE Ht Hc Hn Hcnt Het n th vh vsize rest data pos object mem Hth Hh Hvh Hv0 Hvd Hu Hvs Hd Hst [B1 [B2 B3]] fuel. apply stands_at in Hst. destruct (chunk_at _ _ _ _ _ Hst Hth Hh Hd) as [R1 [R2 [R3 Hb]]]. rewrite class_field_S. cbn [vs_pos vs_mem].
  rewrite R1, bind_Ok. cbn [fst snd]. rewrite R2, bind_Ok. cbn [fst snd]. rewrite R3, bind_Ok. cbn [fst snd vs_pos vs_mem]. destruct (find_in _ _ _ _ _ HE Ht Hc Hn) as [Hf Hsk]. rewrite Hf, bind_Ok, Hsk, Hcnt. unfold get_type at 1. rewrite Het, bind_Ok.
  destruct (member_fits E HE _ _ _ _ (new_has E _ _ _ Hn) Ht) as [et0 [Het0 [_ [Ho _]]]].
  unfold vb_LoadFieldArray, array_of, get_type. cbn [no_load]. rewrite Het, !bind_Ok. unfold array_init, assert. replace (object + rf_offset f =? 0) with false by lia. cbn [negb]. rewrite !bind_Ok.
  rewrite !zlen_app, !le_bytes_zlen. change (Z.of_nat 4) with 4.
  apply at_app in Hb. destruct Hb as [H1 Hb]. apply at_app in Hb. destruct Hb as [H2 Hb]. apply at_app in Hb. destruct Hb as [H3 Hb]. apply at_app in Hb. destruct Hb as [H4 Hb]. apply at_app in Hb. destruct Hb as [H5 H6]. rewrite !le_bytes_zlen in *. change (Z.of_nat 4) with 4 in *.
  unfold vb_LoadContainer. cbn [vs_pos vs_mem]. rewrite (u32_at _ _ _ H1), bind_Ok. cbn [fst snd]. rewrite (u32_at _ _ _ H2), bind_Ok. cbn [fst snd]. rewrite (u32_at _ _ _ H3), bind_Ok. cbn [fst snd]. rewrite (u32_at _ _ _ H4), bind_Ok. cbn [fst snd]. rewrite (u32_at _ _ _ H5), bind_Ok. cbn [fst snd].
  unfold is_u32 in *. rewrite (u32_small vh) by lia. replace (vh =? 0) with false by lia. replace (vh =? rt_hash et) with false by lia. cbn [negb andb vs_pos vs_mem]. pose proof (zlen_nonneg _ rest). destruct H6 as [P6 [Q6 _]]. destruct H1 as [P1 _].
  unfold vb_seek, assert. rewrite s32_small by lia. cbv zeta. replace (pos + 12 + 4 + 4 + 4 + 4 + 4 + (4 + (4 + (4 + (4 + (4 + zlen rest)))))) with (pos + 12 + 20 + zlen rest + 20) by lia. destruct (pos + 12 + 20 + zlen rest + 20 <=? zlen data); reflexivity.
Qed.

(* ---- load_vbin functions ---- *)
Theorem custom_reader : forall E custom ty t h f run, vb_types_ok E -> nth_error E ty = Some t -> is_class t = true -> new_field E ty h = Some f -> custom f = Some run ->
  forall th body data pos object mem q mem2, is_u32 th -> is_u32 h -> zlen data < 2 ^ 31 -> stands data pos (chunk th h body) ->
  run object (object + rf_offset f) (pos + 12) mem = Ok (q, mem2) -> 0 <= q <= zlen data ->
  forall fuel, vb_LoadClassField E data custom (S fuel) (mk_vs pos mem) object ty = Ok (mk_vs (pos + 12 + zlen body) mem2).
Proof.
  intros E custom ty t h f run HE Ht Hc Hn Hcu th body data pos object mem q mem2 Hth Hh Hd Hst Hrun Hq fuel. apply stands_at in Hst. destruct (chunk_at _ _ _ _ _ Hst Hth Hh Hd) as [R1 [R2 [R3 Hb]]]. rewrite class_field_S. cbn [vs_pos vs_mem].
  rewrite R1, bind_Ok. cbn [fst snd]. rewrite R2, bind_Ok. cbn [fst snd]. rewrite R3, bind_Ok. cbn [fst snd vs_pos vs_mem]. destruct (find_in _ _ _ _ _ HE Ht Hc Hn) as [Hf Hsk]. rewrite Hf, bind_Ok, Hsk. cbv zeta. rewrite Hcu, Hrun, bind_Ok. cbn [fst snd].
  destruct Hb as [P1 [P2 _]]. pose proof (zlen_nonneg _ body). rewrite (u32_small (pos + 12)) by lia. rewrite (u32_small (pos + 12 + zlen body)), (u32_small q), !s32_small by lia. destruct (q =? pos + 12 + zlen body) eqn:Eq; [f_equal; f_equal; lia|].
  unfold vb_seek, assert. assert (Hs : s32 (pos + 12 + zlen body - q) = pos + 12 + zlen body - q) by (unfold s32; rewrite Z.mod_small by lia; lia). rewrite Hs. replace (q + (pos + 12 + zlen body - q) <=? zlen data) with true by lia. rewrite !bind_Ok. f_equal. f_equal. lia.
Qed.
(* the members of a type as a list *)
Fixpoint members (d : nat) (E : list rtype) (ty : nat) : list (entry rfield) :=
  match d with
  | O => []
  | S d => match nth_error E ty with
           | Some t => (match rt_kind t with K_class _ fs => fs | _ => [] end) ++ flat_map (members d E) (rt_bases t)
           | None => []
           end
  end.
Lemma members_all : forall E, wf_types E -> forall ty h f, has_member E ty h f -> forall d, (ty < d)%nat -> In (h, f) (members d E ty).
Proof.
  intros E HW ty h f H. induction H as [ty t fa fs h f Ht Hk Hi|ty t b h f Ht Hb H IH]; intros [|d] Hd; try lia; cbn [members]; rewrite Ht; apply in_or_app.
  - left. rewrite Hk. exact Hi.
  - right. apply in_flat_map. exists b. split; [exact Hb|]. apply IH. pose proof (proj1 (HW _ _ Ht) _ Hb). lia.
Qed.
