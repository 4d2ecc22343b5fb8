(* Versioned binary: what each saved object gives an object of another version, by induction on the types. *)
From Verif Require Import Base BaseProofs SearchModel SearchProofs RuntimeModel JsonLexModel JsonLexProofs JsonNumModel JsonNumProofs JsonObjModel JsonObjSpec JsonObjProofs JsonSaveProofs JsonStoreProofs VersBinModel VersBinSpec VersBinProofs.
Lemma slice_le : forall A (l : list A) o n, 0 <= n -> zlen (slice l o n) <= n.
Proof. intros A l o n Hn. unfold slice, zlen. rewrite firstn_length. lia. Qed.
Lemma converted_len : forall t t' b x, zlen b <= rt_size t -> converted t t' b = Some x -> zlen x <= rt_size t'.
Proof.
  intros t t' b x Hb H. unfold converted in H. destruct (rt_kind t), (rt_kind t'); try discriminate.
  - destruct (rt_size t =? rt_size t') eqn:Es; [|discriminate]. injection H as <-. lia.
  - destruct (rt_size t' =? 4) eqn:Es; [|discriminate]. destruct (lookup _ _) as [[? ?]|]; [|discriminate]. assert (Hx : x = le_bytes 4 z) by congruence. rewrite Hx, le_bytes_zlen. lia.
Qed.
Lemma enum_hash_spec : forall cs v, enum_hash cs v = constant_hash cs v.
Proof.
  intros cs v. unfold constant_hash. induction cs as [|[h [nm w]] cs IH]; [reflexivity|]. cbn [enum_hash find snd fst]. destruct (w =? v); [reflexivity|exact IH].
Qed.
Lemma constant_hash_u32 : forall cs v, (forall e : entry (list Z * Z), In e cs -> is_u32 (fst e)) -> is_u32 (constant_hash cs v).
Proof.
  intros cs v H. unfold constant_hash. destruct (find (fun e => snd (snd e) =? v) cs) as [e|] eqn:Ef; [|unfold is_u32; lia]. apply find_some in Ef. apply H, Ef.
Qed.

Section Core.
Variable E E' : list rtype.
Variable mem : list Z.
Hypothesis HE : vb_types_ok E.
Hypothesis HE' : vb_types_ok E'.
Hypothesis HS : vb_savable E.
Hypothesis HA : vb_agree E E'.

Lemma matching_old : forall ty ty' d d' t t', matching E E' ty ty' d d' t t' -> forall v, nth_error E ty = Some v -> 0 <= d /\ d + rt_size t <= rt_size v /\ 0 < rt_size t.
Proof.
  induction 1 as [ty ty' t t' Ht Ht' _ _|ty ty' h f f' et et' i d d' t t' Hs Hn Het Het' Hh Hc Hm IH]; intros v Hv.
  - rewrite Ht in Hv. injection Hv as <-. pose proof (proj2 HE _ _ Ht) as [Hsz _]. lia.
  - destruct (member_fits E HE _ _ _ _ (saved_has E _ _ _ Hs) Hv) as [et0 [He [_ [H1 [H2 _]]]]]. rewrite Het in He. injection He as <-. destruct (IH _ Het) as [I1 [I2 I3]]. unfold common in Hc. unfold vb_space in H2.
    destruct (rf_count f) as [n|], (rf_count f') as [n'|]; try contradiction; [|subst i; lia]. destruct Hc as [Hp [_ [Hi _]]]. rewrite Hp in H2. pose proof (proj2 HE _ _ Het) as [Hsz _]. nia.
Qed.
Lemma matching_new : forall ty ty' d d' t t', matching E E' ty ty' d d' t t' -> forall v, nth_error E' ty' = Some v -> 0 <= d' /\ d' + rt_size t' <= rt_size v.
Proof.
  induction 1 as [ty ty' t t' Ht Ht' _ _|ty ty' h f f' et et' i d d' t t' Hs Hn Het Het' Hh Hc Hm IH]; intros v Hv.
  - rewrite Ht' in Hv. injection Hv as <-. pose proof (proj2 HE' _ _ Ht') as [Hsz _]. lia.
  - destruct (member_fits E' HE' _ _ _ _ (new_has E' _ _ _ Hn) Hv) as [et0 [He [_ [H1 [H2 _]]]]]. rewrite Het' in He. injection He as <-. destruct (IH _ Het') as [I1 I2]. unfold common in Hc. unfold vb_space in H2.
    destruct (rf_count f) as [n|], (rf_count f') as [n'|]; try contradiction; [|subst i; lia]. destruct Hc as [_ [Hp [Hi Hi']]]. rewrite Hp in H2. pose proof (proj2 HE' _ _ Het') as [Hsz _]. nia.
Qed.
(* the bytes c an object of ty at obj gives one of ty' *)
Definition gives (obj : Z) (ty ty' : nat) (c : Z * list Z) : Prop := exists d t1 t1', matching E E' ty ty' d (fst c) t1 t1' /\ converted t1 t1' (slice mem (obj + d) (rt_size t1)) = Some (snd c).
Lemma gives_range : forall obj ty ty' t t' c, nth_error E ty = Some t -> nth_error E' ty' = Some t' -> gives obj ty ty' c -> in_range (rt_size t') c.
Proof.
  intros obj ty ty' t t' c Ht Ht' [d [t1 [t1' [Hm Hc]]]]. destruct (matching_new _ _ _ _ _ _ Hm _ Ht') as [H1 H2]. destruct (matching_old _ _ _ _ _ _ Hm _ Ht) as [_ [_ H3]].
  pose proof (converted_len _ _ _ _ (slice_le _ _ _ _ (Z.lt_le_incl _ _ H3)) Hc). split; lia.
Qed.

Definition loads (obj : Z) (ty : nat) (t : rtype) (bytes : list Z) : Prop := forall ty' t', nth_error E' ty' = Some t' -> rt_hash t = rt_hash t' -> exists cs, (forall c, In c cs <-> gives obj ty ty' c) /\
  forall obj' data pos m', zlen data < 2 ^ 31 -> at_ data pos bytes -> block m' obj' (rt_size t') ->
    exists k, forall n, (k <= n)%nat -> vb_LoadObject E' data no_load n (mk_vs pos m') obj' ty' (zlen bytes) (rt_hash t) = Ok (mk_vs (pos + zlen bytes) (apply_copies cs obj' m')).
Definition object_ok (obj : Z) (ty : nat) (t : rtype) (bytes : list Z) : Prop :=
  (forall n, (2 * ty + 2 <= n)%nat -> vb_SaveObject E mem no_save n obj ty = Ok bytes) /\ (is_class t = false -> zlen bytes = rt_size t) /\ loads obj ty t bytes.

Lemma matching_leaf : forall ty ty' t t' d d' t1 t1', nth_error E ty = Some t -> is_class t = false -> nth_error E' ty' = Some t' -> is_class t' = false ->
  (matching E E' ty ty' d d' t1 t1' <-> d = 0 /\ d' = 0 /\ t1 = t /\ t1' = t').
Proof.
  intros ty ty' t t' d d' t1 t1' Ht Hc Ht' Hc'. split.
  - intros H. inversion H as [? ? ? ? G1 G2|? ? h f f' et et' i ? ? ? ? Hs]; subst; [rewrite Ht in G1; rewrite Ht' in G2; injection G1 as <-; injection G2 as <-; auto|].
    exfalso. unfold is_class in Hc. inversion Hs as [? ? ? ? ? ? G1 G2|? ? ? ? ? ? ? G1 G2]; subst; rewrite Ht in G1; injection G1 as <-; rewrite G2 in Hc; discriminate.
  - intros [-> [-> [-> ->]]]. constructor; assumption.
Qed.
Lemma gives_leaf : forall obj ty ty' t t' c, nth_error E ty = Some t -> is_class t = false -> nth_error E' ty' = Some t' -> is_class t' = false ->
  (gives obj ty ty' c <-> fst c = 0 /\ converted t t' (slice mem obj (rt_size t)) = Some (snd c)).
Proof.
  intros obj ty ty' t t' c Ht Hc Ht' Hc'. unfold gives. split.
  - intros [d [t1 [t1' [Hm Hv]]]]. apply (matching_leaf _ _ _ _ _ _ _ _ Ht Hc Ht' Hc') in Hm. destruct Hm as [-> [Hd [-> ->]]]. rewrite Z.add_0_r in Hv. auto.
  - intros [Hd Hv]. exists 0, t, t'. rewrite Z.add_0_r. split; [|exact Hv]. apply (matching_leaf _ _ _ _ _ _ _ _ Ht Hc Ht' Hc'). auto.
Qed.
Lemma kinds : forall ty ty' t t', nth_error E ty = Some t -> nth_error E' ty' = Some t' -> rt_hash t = rt_hash t' -> same_kind t t'.
Proof. intros ty ty' t t' H1 H2 H3. exact (proj1 (HA _ _ _ _ H1 H2 H3)). Qed.

Lemma number_ok : forall ty t obj, nth_error E ty = Some t -> rt_kind t = K_type -> block mem obj (rt_size t) -> object_ok obj ty t (slice mem obj (rt_size t)).
Proof.
  intros ty t obj Ht Hk [B1 [B2 B3]]. pose proof (proj2 HE _ _ Ht) as [Hsz _]. assert (HL : zlen (slice mem obj (rt_size t)) = rt_size t) by (apply slice_length; lia). split; [|split].
  - intros [|n] Hn; [lia|]. rewrite save_object_S. unfold get_type. rewrite Ht, bind_Ok, Hk. unfold vb_SaveType, rd_bytes. rewrite u32_small by lia. replace ((0 <=? obj) && (0 <=? rt_size t) && (obj + rt_size t <=? zlen mem)) with true by lia. reflexivity.
  - intros _. exact HL.
  - intros ty' t' Ht' Hh. pose proof (kinds _ _ _ _ Ht Ht' Hh) as Hsk. unfold same_kind in Hsk. rewrite Hk in Hsk. destruct (rt_kind t') eqn:Hk'; try contradiction.
    assert (HG : forall c, gives obj ty ty' c <-> fst c = 0 /\ converted t t' (slice mem obj (rt_size t)) = Some (snd c)) by (intros c; apply gives_leaf; auto; unfold is_class; [rewrite Hk|rewrite Hk']; reflexivity).
    unfold converted in HG. rewrite Hk, Hk' in HG. exists (if rt_size t =? rt_size t' then [(0, slice mem obj (rt_size t))] else []). split.
    + intros [d b]. rewrite HG. cbn [fst snd]. destruct (rt_size t =? rt_size t'); cbn; split; try tauto; try (intros [? ?]; congruence).
      * intros [H|[]]. injection H as <- <-. auto.
      * intros [-> H]. injection H as <-. auto.
    + intros obj' data pos m' Hd Hat HB'. exists 1%nat. intros [|n] Hn; [lia|]. rewrite load_object_S. unfold get_type. rewrite Ht', bind_Ok. replace (rt_hash t =? rt_hash t') with true by lia. cbn [negb]. rewrite Hk'. unfold vb_LoadType. cbn [vs_pos vs_mem]. rewrite HL.
      replace (rt_size t' =? rt_size t) with (rt_size t =? rt_size t') by lia. destruct (rt_size t =? rt_size t') eqn:Es; cbn [negb].
      * assert (Heq : rt_size t = rt_size t') by lia. rewrite <- Heq, u32_small by lia. pose proof (read_at _ _ _ Hat) as HR. rewrite HL in HR. rewrite HR, bind_Ok. cbn [fst snd]. unfold wr_bytes. destruct HB' as [C1 [C2 C3]].
        rewrite HL. replace ((0 <=? obj') && (obj' + rt_size t <=? zlen m')) with true by lia. rewrite bind_Ok. cbn [apply_copies fold_left fst snd]. rewrite Z.add_0_r. reflexivity.
      * destruct Hat as [A1 [A2 _]]. rewrite HL in A2. rewrite seek_at by lia. reflexivity.
Qed.
Lemma enum_ok : forall ty t obj fl cs, nth_error E ty = Some t -> rt_kind t = K_enum fl cs -> block mem obj (rt_size t) ->
  object_ok obj ty t (le_bytes 4 (constant_hash cs (s32 (le_val (slice mem obj (rt_size t)))))).
Proof.
  intros ty t obj fl cs Ht Hk [B1 [B2 B3]]. pose proof (proj2 HE _ _ Ht) as [Hsz [_ [_ Hu]]]. rewrite Hk in Hu. destruct Hu as [_ Hu]. pose proof (HS _ _ Ht) as H4. rewrite Hk in H4. split; [|split].
  - intros [|n] Hn; [lia|]. rewrite save_object_S. unfold get_type. rewrite Ht, bind_Ok, Hk. unfold vb_SaveEnum, rd_bytes. replace ((0 <=? obj) && (0 <=? 4) && (obj + 4 <=? zlen mem)) with true by lia. rewrite bind_Ok, enum_hash_spec, H4. reflexivity.
  - intros _. rewrite le_bytes_zlen, H4. reflexivity.
  - set (h := constant_hash cs (s32 (le_val (slice mem obj (rt_size t))))). assert (Hh32 : is_u32 h) by (apply constant_hash_u32; exact Hu).
    intros ty' t' Ht' Hh. pose proof (kinds _ _ _ _ Ht Ht' Hh) as Hsk. unfold same_kind in Hsk. rewrite Hk in Hsk. destruct (rt_kind t') as [|fl' cs'|] eqn:Hk'; try contradiction.
    assert (HG : forall c, gives obj ty ty' c <-> fst c = 0 /\ converted t t' (slice mem obj (rt_size t)) = Some (snd c)) by (intros c; apply gives_leaf; auto; unfold is_class; [rewrite Hk|rewrite Hk']; reflexivity).
    unfold converted in HG. rewrite Hk, Hk' in HG. fold h in HG.
    exists (if rt_size t' =? 4 then match lookup cs' h with Some (_, v) => [(0, le_bytes 4 v)] | None => [] end else []). split.
    + intros [d b]. rewrite HG. cbn [fst snd]. destruct (rt_size t' =? 4); [destruct (lookup cs' h) as [[nm v]|]|]; cbn [In]; split; try tauto; try (intros [? ?]; congruence).
      * intros [H|[]]. split; congruence.
      * intros [-> H]. left. congruence.
    + intros obj' data pos m' Hd Hat HB'. exists 1%nat. intros [|n] Hn; [lia|]. rewrite load_object_S. unfold get_type. rewrite Ht', bind_Ok. replace (rt_hash t =? rt_hash t') with true by lia. cbn [negb]. rewrite Hk'. unfold vb_LoadEnum. cbn [vs_pos vs_mem]. rewrite le_bytes_zlen. change (Z.of_nat 4) with 4.
      destruct (rt_size t' =? 4) eqn:Es; cbn [negb].
      * rewrite (u32_at _ _ _ Hat), bind_Ok. cbn [fst snd]. rewrite (u32_small h) by (unfold is_u32 in Hh32; lia). destruct (proj1 HE' _ _ Ht') as [_ HW]. rewrite Hk' in HW. destruct HW as [Hst _]. destruct (lookup_ok _ cs' h Hst) as [e [HF HLk]]. rewrite HF, bind_Ok, <- HLk.
        destruct e as [[k [nm v]]|]; [|reflexivity]. cbn [option_map snd]. unfold wr_bytes. rewrite le_bytes_zlen. change (Z.of_nat 4) with 4. destruct HB' as [C1 [C2 C3]]. replace ((0 <=? obj') && (obj' + 4 <=? zlen m')) with true by lia. rewrite bind_Ok.
        cbn [apply_copies fold_left fst snd]. rewrite Z.add_0_r. reflexivity.
      * destruct Hat as [A1 [A2 _]]. rewrite le_bytes_zlen in A2. rewrite seek_at by lia. reflexivity.
Qed.

(* ---- arrays ---- *)
Definition elem (size : Z) (b : list Z) : list Z := if size =? 0 then sized b else b.
Lemma elements_save : forall save size A es cnt bs k, 0 < es -> 0 <= k -> k + zlen bs = cnt -> block mem A (cnt * es) ->
  (forall i b, nth_error bs i = Some b -> save (A + (k + Z.of_nat i) * es) = Ok b) ->
  vb_save_elements (length bs) save size false (mk_iter A es (k * es) (cnt * es)) = Ok (flat_map (elem size) bs).
Proof.
  intros save size A es cnt. induction bs as [|b bs IH]; intros k Hes Hk Hn [B1 [B2 B3]] Hs; [reflexivity|]. rewrite zlen_cons in Hn. pose proof (zlen_nonneg _ bs). cbn [length vb_save_elements flat_map]. unfold array_get, assert. cbn [it_pos it_size it_data].
  replace (k * es <? cnt * es) with true by nia. rewrite !bind_Ok. rewrite (u64_small (A + k * es)) by nia. pose proof (Hs O b eq_refl) as H0. cbn in H0. rewrite Z.add_0_r in H0. rewrite H0, bind_Ok. unfold array_next. cbn [it_pos it_size it_data it_esize].
  rewrite (u64_small (k * es + es)) by nia. replace (k * es + es) with ((k + 1) * es) by lia. rewrite IH; [reflexivity|lia|lia|lia|split; [lia|split; lia]|].
  intros i c Hi. replace (k + 1 + Z.of_nat i) with (k + Z.of_nat (S i)) by lia. apply Hs. exact Hi.
Qed.
Lemma pointers_save : forall save A cnt n k, 0 <= k -> k + Z.of_nat n = cnt -> block mem A (cnt * 8) -> vb_save_elements n save 8 true (mk_iter A 8 (k * 8) (cnt * 8)) = Ok [].
Proof.
  intros save A cnt. induction n as [|n IH]; intros k Hk Hn [B1 [B2 B3]]; [reflexivity|]. cbn [vb_save_elements]. unfold array_get, assert. cbn [it_pos it_size it_data]. replace (k * 8 <? cnt * 8) with true by lia. rewrite !bind_Ok.
  unfold array_next. cbn [it_pos it_size it_data it_esize]. rewrite (u64_small (k * 8 + 8)) by lia. replace (k * 8 + 8) with ((k + 1) * 8) by lia. rewrite IH; [reflexivity|lia|lia|split; [lia|split; lia]].
Qed.
Lemma pointers_load : forall data load A cnt n k s, 0 <= k -> k + Z.of_nat n <= cnt -> block (vs_mem s) A (cnt * 8) -> vb_load_elements data n load 8 true s (mk_iter A 8 (k * 8) (cnt * 8)) = Ok s.
Proof.
  intros data load A cnt. induction n as [|n IH]; intros k [pos m] Hk Hn [B1 [B2 B3]]; [reflexivity|]. cbn [vb_load_elements]. unfold array_add_empty, array_get, assert. cbn [it_pos it_size it_data]. replace (k * 8 <? cnt * 8) with true by lia. rewrite !bind_Ok.
  change (8 =? 0) with false. cbv match. rewrite bind_Ok. cbn [fst snd vs_pos vs_mem]. rewrite bind_Ok. unfold array_next. cbn [it_pos it_size it_data it_esize]. cbn in B2, B3. rewrite (u64_small (k * 8 + 8)) by lia. replace (k * 8 + 8) with ((k + 1) * 8) by lia. apply IH; [lia|lia|split; [lia|split; cbn; lia]].
Qed.
Lemma value_size_leaf : forall et ty, nth_error E ty = Some et -> value_size et false = if is_class et then 0 else rt_size et.
Proof.
  intros et ty Het. destruct (proj2 HE _ _ Het) as [Hsz [Hh [Hh0 _]]]. unfold value_size, is_class. replace (rt_hash et =? 0) with false by lia. cbn [orb]. destruct (rt_kind et); try reflexivity; apply u32_small; lia.
Qed.
Lemma sized_zlen : forall b, zlen (sized b) = 4 + zlen b.
Proof. intros b. unfold sized. rewrite zlen_app, le_bytes_zlen. reflexivity. Qed.

Lemma elements_load : forall ety et ety' et' A, nth_error E ety = Some et -> nth_error E' ety' = Some et' -> rt_hash et = rt_hash et' ->
  forall bs j, 0 <= j -> (forall i b, nth_error bs i = Some b -> loads (A + (j + Z.of_nat i) * rt_size et) ety et b /\ (is_class et = false -> zlen b = rt_size et)) ->
  exists cs, (forall c, In c cs <-> exists i, j <= i < j + zlen bs /\ gives (A + i * rt_size et) ety ety' (fst c - i * rt_size et', snd c)) /\
  forall A' cnt' data pos m', zlen data < 2 ^ 31 -> at_ data pos (flat_map (elem (value_size et false)) bs) -> j + zlen bs <= cnt' -> block m' A' (cnt' * rt_size et') ->
  exists k, forall n, (k <= n)%nat -> vb_load_elements data (length bs) (fun s o size => vb_LoadObject E' data no_load n s o ety' size (rt_hash et')) (value_size et false) false (mk_vs pos m')
      (mk_iter A' (rt_size et') (j * rt_size et') (cnt' * rt_size et')) = Ok (mk_vs (pos + zlen (flat_map (elem (value_size et false)) bs)) (apply_copies cs A' m')).
Proof.
  intros ety et ety' et' A Het Het' Hh. destruct (proj2 HE' _ _ Het') as [Hsz' _]. set (es := rt_size et). set (es' := rt_size et') in *. set (sz := value_size et false).
  induction bs as [|b bs IH]; intros j Hj HL.
  - exists []. split; [intros c; split; [intros []|intros [i [Hi _]]; unfold zlen in Hi; cbn in Hi; lia]|]. intros A' cnt' data pos m' _ _ _ _. exists O. intros n _. cbn. rewrite Z.add_0_r. reflexivity.
  - destruct (HL O b eq_refl) as [HB Hlen]. change (Z.of_nat 0) with 0 in HB. rewrite Z.add_0_r in HB. destruct (HB _ _ Het' Hh) as [cs0 [Hcs0 Hld]].
    destruct (IH (j + 1)) as [cs1 [Hcs1 HIH]]; [lia|intros i c Hi; replace (j + 1 + Z.of_nat i) with (j + Z.of_nat (S i)) by lia; apply (HL (S i)); exact Hi|]. clear IH.
    assert (HR : Forall (in_range (rt_size et')) cs0) by (apply Forall_forall; intros c Hc; apply Hcs0 in Hc; eapply gives_range; eassumption).
    exists (shift (j * es') cs0 ++ cs1). pose proof (zlen_nonneg _ bs) as Hbs. split.
    + intros [d x]. rewrite in_app_iff, in_shift, Hcs0, Hcs1, zlen_cons. cbn [fst snd]. split.
      * intros [H|[i [Hi H]]]; [exists j; split; [lia|exact H]|exists i; split; [lia|exact H]].
      * intros [i [Hi H]]. destruct (Z.eq_dec i j) as [->|Hne]; [left; exact H|right; exists i; split; [lia|exact H]].
    + intros A' cnt' data pos m' Hd Hat Hcnt HB'. rewrite zlen_cons in Hcnt. cbn [flat_map] in Hat. apply at_app in Hat. destruct Hat as [Hat0 Hat1]. pose proof HB' as [C1 [C2 C3]].
      assert (HF0 : Forall (in_range (rt_size et')) cs0) by exact HR.
      assert (HB0 : block m' (A' + j * es') (rt_size et')) by (fold es'; split; [nia|split; [nia|lia]]).
      assert (Hread : exists q, at_ data q b /\ (if sz =? 0 then vb_u32 data pos else Ok (sz, pos)) = Ok (zlen b, q) /\ pos + zlen (elem sz b) = q + zlen b).
      { unfold sz, elem in *. rewrite (value_size_leaf et ety Het) in *. destruct (is_class et) eqn:Ec.
        - cbn [Z.eqb] in *. unfold sized in Hat0. apply at_app in Hat0. destruct Hat0 as [Ha Hb]. rewrite le_bytes_zlen in Hb. change (Z.of_nat 4) with 4 in Hb. exists (pos + 4). split; [exact Hb|]. rewrite (u32_at _ _ _ Ha). split; [|rewrite sized_zlen; lia].
          destruct Hb as [Hb1 [Hb2 _]]. pose proof (zlen_nonneg _ b). pose proof (zlen_nonneg _ data). rewrite u32_small by (destruct Ha; lia). reflexivity.
        - specialize (Hlen eq_refl). destruct (proj2 HE _ _ Het) as [Hsz _]. replace (rt_size et =? 0) with false in * by lia. exists pos. split; [exact Hat0|]. rewrite Hlen. split; reflexivity. }
      destruct Hread as [q [Hq [Hrd Hpos]]]. destruct (Hld (A' + j * es') data q m' Hd Hq HB0) as [k0 Hk0].
      set (m1 := apply_copies cs0 (A' + j * es') m'). assert (Hm1 : block m1 A' (cnt' * es')). { unfold block, m1. rewrite (apply_zlen (rt_size et')) by assumption. exact HB'. }
      rewrite Hpos in Hat1. destruct (HIH A' cnt' data (q + zlen b) m1 Hd Hat1 ltac:(lia) Hm1) as [k1 Hk1]. exists (Nat.max k0 k1). intros n Hn. cbn [length vb_load_elements]. unfold array_add_empty, array_get, assert. cbn [it_pos it_size it_data].
      replace (j * es' <? cnt' * es') with true by nia. rewrite !bind_Ok. cbn [vs_pos vs_mem fst snd]. rewrite Hrd, bind_Ok. cbn [fst snd vs_pos vs_mem]. rewrite (u64_small (A' + j * es')) by nia. rewrite <- Hh, Hk0 by lia. rewrite bind_Ok.
      unfold array_next. cbn [it_pos it_size it_data it_esize]. rewrite (u64_small (j * es' + es')) by nia. replace (j * es' + es') with ((j + 1) * es') by lia. fold m1. rewrite Hh, Hk1 by lia.
      f_equal. cbn [flat_map]. rewrite zlen_app. f_equal; [lia|]. rewrite apply_app, apply_shift. reflexivity.
Qed.

(* ---- fields ---- *)
Lemma chunk_zlen : forall th h body, zlen (chunk th h body) = 12 + zlen body.
Proof. intros th h body. unfold chunk. rewrite !zlen_app, sized_zlen, !le_bytes_zlen. lia. Qed.
Lemma chunk_at : forall data pos th h body, at_ data pos (chunk th h body) -> is_u32 th -> is_u32 h -> zlen data < 2 ^ 31 ->
  vb_u32 data pos = Ok (th, pos + 4) /\ vb_u32 data (pos + 4) = Ok (h, pos + 8) /\ vb_u32 data (pos + 8) = Ok (zlen body, pos + 12) /\ at_ data (pos + 12) body.
Proof.
  intros data pos th h body H Ht Hh Hd. unfold chunk, sized in H. apply at_app in H. destruct H as [H1 H]. apply at_app in H. destruct H as [H2 H]. apply at_app in H. destruct H as [H3 H4]. rewrite !le_bytes_zlen in *. change (Z.of_nat 4) with 4 in *.
  replace (pos + 4 + 4) with (pos + 8) in * by lia. replace (pos + 8 + 4) with (pos + 12) in * by lia. pose proof (zlen_nonneg _ body). unfold is_u32 in *. destruct H1 as [H10 H11].
  rewrite (u32_at data pos th) by (split; assumption). rewrite (u32_at _ _ _ H2), (u32_at _ _ _ H3). pose proof H4 as [_ [H4' _]]. rewrite (u32_small th), (u32_small h), (u32_small (zlen body)) by lia. repeat split; try apply H4; f_equal; f_equal; lia.
Qed.
Lemma find_new : forall ty' t' h, nth_error E' ty' = Some t' -> is_class t' = true ->
  exists r, vb_find (S (length E')) E' ty' h = Ok r /\ match r with Some f => if skipped (rf_flags f) then new_field E' ty' h = None else new_field E' ty' h = Some f | None => new_field E' ty' h = None end.
Proof.
  intros ty' t' h Ht' Hc. exists (find_field (S ty') E' ty' h). assert (Hlt : (ty' < length E')%nat) by (apply nth_error_Some; congruence). split; [apply (vb_find_ok E' HE' _ _ _ t'); auto; lia|].
  unfold new_field. destruct (find_field (S ty') E' ty' h) as [f|]; [|reflexivity]. change (skipped (rf_flags f)) with (has_flag (rf_flags f) transient_bits). destruct (has_flag (rf_flags f) transient_bits); reflexivity.
Qed.
Lemma field_header : forall data pos th h body ty' t' n m obj', at_ data pos (chunk th h body) -> is_u32 th -> is_u32 h -> zlen data < 2 ^ 31 -> nth_error E' ty' = Some t' -> is_class t' = true ->
  vb_LoadClassField E' data no_load (S n) (mk_vs pos m) obj' ty' =
  match new_field E' ty' h with
  | None => Ok (mk_vs (pos + (12 + zlen body)) m)
  | Some f => match rf_count f with
              | Some count => do t <- get_type E' (rf_type f); vb_LoadFieldArray E' data (fun s o size => vb_LoadObject E' data no_load n s o (rf_type f) size (rt_hash t)) (mk_vs (pos + 12) m) (obj' + rf_offset f) f count (zlen body)
              | None => vb_LoadObject E' data no_load n (mk_vs (pos + 12) m) (obj' + rf_offset f) (rf_type f) (zlen body) th
              end
  end.
Proof.
  intros data pos th h body ty' t' n m obj' Hat Ht Hh Hd Ht' Hc. destruct (chunk_at _ _ _ _ _ Hat Ht Hh Hd) as [R1 [R2 [R3 Hb]]]. rewrite class_field_S. cbn [vs_pos vs_mem]. rewrite R1, bind_Ok. cbn [fst snd]. rewrite R2, bind_Ok. cbn [fst snd]. rewrite R3, bind_Ok. cbn [fst snd vs_pos vs_mem].
  destruct (find_new ty' t' h Ht' Hc) as [r [Hr Hnew]]. rewrite Hr, bind_Ok. pose proof (zlen_nonneg _ body). destruct Hb as [Hb1 [Hb2 _]]. assert (Hseek : vb_seek data (pos + 12) (zlen body) = Ok (pos + 12 + zlen body)) by (apply seek_at; lia).
  replace (pos + (12 + zlen body)) with (pos + 12 + zlen body) by lia. destruct r as [f|]; [|rewrite Hnew, Hseek; reflexivity]. destruct (skipped (rf_flags f)); rewrite Hnew; [rewrite Hseek; reflexivity|]. reflexivity.
Qed.

Lemma header_zlen : forall cnt et p, zlen (container_header cnt et p) = 20.
Proof. intros cnt et p. unfold container_header. rewrite !zlen_app, !le_bytes_zlen. reflexivity. Qed.
Lemma container_at : forall data pos cnt et p et' rest m load it exp, at_ data pos (container_header cnt et p ++ rest) -> zlen data < 2 ^ 31 -> is_u32 cnt -> is_u32 (rt_hash et) -> is_u32 (value_size et p) -> rt_hash et = rt_hash et' ->
  vb_LoadContainer data load (mk_vs pos m) it et' p (20 + zlen rest) exp =
  let count := if exp <? cnt then exp else cnt in
  do s <- vb_load_elements data (Z.to_nat count) load (value_size et p) p (mk_vs (pos + 20) m) it;
  let bytes_left := s32 (u32 (pos + (20 + zlen rest) - u32 (vs_pos s))) in
  if (bytes_left >? 0) && negb (cnt =? count) then do p <- vb_seek data (vs_pos s) bytes_left; Ok (mk_vs p (vs_mem s)) else Ok s.
Proof.
  intros data pos cnt et p et' rest m load it exp Hat Hd Hc Hh Hv Heq. unfold container_header in Hat. rewrite <- !app_assoc in Hat.
  apply at_app in Hat. destruct Hat as [H1 Hat]. apply at_app in Hat. destruct Hat as [H2 Hat]. apply at_app in Hat. destruct Hat as [H3 Hat]. apply at_app in Hat. destruct Hat as [H4 Hat]. apply at_app in Hat. destruct Hat as [H5 H6]. rewrite !le_bytes_zlen in *. change (Z.of_nat 4) with 4 in *.
  pose proof (zlen_nonneg _ rest). pose proof H6 as [_ [H6' _]]. pose proof H1 as [H1' _]. unfold is_u32 in *. unfold vb_LoadContainer. cbn [vs_pos vs_mem]. rewrite (u32_at _ _ _ H1), bind_Ok. cbn [fst snd]. rewrite (u32_at _ _ _ H2), bind_Ok. cbn [fst snd]. rewrite (u32_at _ _ _ H3), bind_Ok. cbn [fst snd].
  rewrite (u32_at _ _ _ H4), bind_Ok. cbn [fst snd]. rewrite (u32_at _ _ _ H5), bind_Ok. cbn [fst snd]. rewrite (u32_small cnt), (u32_small (rt_hash et)), (u32_small (value_size et p)) by lia. rewrite Heq at 2. rewrite Z.eqb_refl. cbn [negb]. rewrite Bool.andb_false_r. cbv zeta. replace (pos + 4 + 4 + 4 + 4 + 4) with (pos + 20) by lia.
  rewrite (u32_small pos) by lia. rewrite (u32_small (pos + (20 + zlen rest))) by lia. reflexivity.
Qed.

Definition agree_fields (f f' : rfield) (et et' : rtype) : Prop :=
  match rf_count f, rf_count f' with None, None => True | Some _, Some _ => rf_ptr f = rf_ptr f' /\ rt_hash et = rt_hash et' | _, _ => False end.
Definition field_gives (obj : Z) (ty' : nat) (h : Z) (f : rfield) (c : Z * list Z) : Prop := exists f' et et' i, new_field E' ty' h = Some f' /\ nth_error E (rf_type f) = Some et /\ nth_error E' (rf_type f') = Some et' /\ rt_hash et = rt_hash et' /\
  common f f' i /\ gives (obj + rf_offset f + i * rt_size et) (rf_type f) (rf_type f') (fst c - rf_offset f' - i * rt_size et', snd c).
Definition field_ok (obj : Z) (h : Z) (f : rfield) (th : Z) (body : list Z) : Prop := exists et, nth_error E (rf_type f) = Some et /\ th = rt_hash et /\
  forall ty' t', nth_error E' ty' = Some t' -> is_class t' = true -> (forall f' et', new_field E' ty' h = Some f' -> nth_error E' (rf_type f') = Some et' -> agree_fields f f' et et') ->
  exists cs, (forall c, In c cs <-> field_gives obj ty' h f c) /\
  forall obj' data pos m', zlen data < 2 ^ 31 -> at_ data pos (chunk th h body) -> block m' obj' (rt_size t') ->
    exists k, forall n, (k <= n)%nat -> vb_LoadClassField E' data no_load n (mk_vs pos m') obj' ty' = Ok (mk_vs (pos + zlen (chunk th h body)) (apply_copies cs obj' m')).
(* fields the new version has not got *)
Lemma field_absent : forall obj h f th body et ty' t', nth_error E (rf_type f) = Some et -> th = rt_hash et -> is_u32 h -> nth_error E' ty' = Some t' -> is_class t' = true -> new_field E' ty' h = None ->
  exists cs, (forall c, In c cs <-> field_gives obj ty' h f c) /\
  forall obj' data pos m', zlen data < 2 ^ 31 -> at_ data pos (chunk th h body) -> block m' obj' (rt_size t') ->
    exists k, forall n, (k <= n)%nat -> vb_LoadClassField E' data no_load n (mk_vs pos m') obj' ty' = Ok (mk_vs (pos + zlen (chunk th h body)) (apply_copies cs obj' m')).
Proof.
  intros obj h f th body et ty' t' Het -> Hh Ht' Hc Hn. exists []. split.
  - intros c. split; [intros []|]. intros [f' [? [? [? [H _]]]]]. congruence.
  - intros obj' data pos m' Hd Hat HB. exists 1%nat. intros [|n] Hk; [lia|]. destruct (proj2 HE _ _ Het) as [_ [Hth _]]. rewrite (field_header _ _ _ _ _ _ _ _ _ _ Hat Hth Hh Hd Ht' Hc), Hn, chunk_zlen. reflexivity.
Qed.

Definition types_before (i : nat) : Prop := forall u t obj, (u < i)%nat -> nth_error E u = Some t -> block mem obj (rt_size t) -> exists bytes, object_ok obj u t bytes.

Lemma field_saved : forall i t fa fs h f obj, types_before i -> nth_error E i = Some t -> rt_kind t = K_class fa fs -> In (h, f) fs -> lasting (rf_flags f) -> block mem obj (rt_size t) ->
  exists th body, (forall n, (2 * i <= n)%nat -> vb_SaveClassField E no_save (fun o => vb_SaveObject E mem no_save n o (rf_type f)) obj (h, f) = Ok (chunk th h body)) /\ field_ok obj h f th body.
Proof.
  intros i t fa fs h f obj HI Ht Hk Hin Hlast [B1 [B2 B3]].
  assert (Hm : has_member E i h f) by (eapply hm_own; eassumption). destruct (member_fits E HE _ _ _ _ Hm Ht) as [et [Het [Hh [Ho [Hsp Hcn]]]]]. destruct (proj2 HE _ _ Het) as [Hsz [Hth [Hth0 _]]].
  pose proof (HS _ _ Ht) as Hbefore. rewrite Hk in Hbefore. specialize (Hbefore _ _ Hin Hlast).
  assert (Hsv : forall save, vb_SaveClassField E no_save save obj (h, f) = do body <- match rf_count f with Some count => vb_SaveFieldArray E save (obj + rf_offset f) f count | None => save (obj + rf_offset f) end; Ok (chunk (rt_hash et) h body)).
  { intros save. unfold vb_SaveClassField. cbn [fst snd]. change (skipped (rf_flags f)) with (has_flag (rf_flags f) transient_bits). unfold lasting in Hlast. rewrite Hlast. unfold get_type. rewrite Het, bind_Ok. reflexivity. }
  exists (rt_hash et). destruct (rf_count f) as [cnt|] eqn:Ec.
  - (* arrays *)
    assert (Hc32 : u32 cnt = cnt) by (apply u32_small; unfold is_u32 in Hcn; lia). unfold vb_space in Hsp. rewrite Ec in Hsp. unfold is_u32 in Hcn.
    destruct (rf_ptr f) eqn:Ep.
    + (* of pointers: only the header is there *)
      exists (container_header cnt et true). split.
      * intros n Hn. rewrite Hsv. unfold vb_SaveFieldArray, array_of, get_type. rewrite Het, !bind_Ok. unfold array_init, assert. cbn [af_is_ptr af_size af_count]. rewrite Ep. replace (obj + rf_offset f =? 0) with false by lia. cbn [negb]. rewrite !bind_Ok, Hc32.
        rewrite (u64_small (cnt * 8)) by lia. change (value_size et true) with 8. rewrite (pointers_save _ _ cnt (Z.to_nat cnt) 0) by first [lia | split; [lia|split; lia]]. rewrite !bind_Ok, app_nil_r. reflexivity.
      * exists et. split; [exact Het|]. split; [reflexivity|]. intros ty' t' Ht' Hc Hag. destruct (new_field E' ty' h) as [f'|] eqn:En; [|apply (field_absent obj h f _ _ et); auto].
        destruct (member_fits E' HE' _ _ _ _ (new_has E' _ _ _ En) Ht') as [et' [Het' [_ [Ho' [Hsp' Hcn']]]]]. specialize (Hag _ _ eq_refl Het'). unfold agree_fields in Hag. rewrite Ec in Hag. destruct (rf_count f') as [cnt'|] eqn:Ec'; [|contradiction]. destruct Hag as [Hpp Hhh]. rewrite Ep in Hpp.
        exists []. split.
        -- intros c. split; [intros []|]. intros [g [e1 [e2 [j [G1 [_ [_ [_ [G2 _]]]]]]]]]. rewrite En in G1. injection G1 as <-. unfold common in G2. rewrite Ec, Ec' in G2. destruct G2 as [G2 _]. congruence.
        -- intros obj' data pos m' Hd Hat [C1 [C2 C3]]. exists 1%nat. intros [|n] Hn; [lia|]. rewrite (field_header _ _ _ _ _ _ _ _ _ _ Hat Hth Hh Hd Ht' Hc), En, Ec'. destruct (chunk_at _ _ _ _ _ Hat Hth Hh Hd) as [_ [_ [_ Hb]]].
           unfold vb_space in Hsp'. rewrite Ec' in Hsp'. rewrite <- Hpp in Hsp'. unfold is_u32 in Hcn'. assert (Hc32' : u32 cnt' = cnt') by (apply u32_small; lia).
           unfold vb_LoadFieldArray, array_of, get_type. rewrite Het', !bind_Ok. unfold array_init, assert. cbn [af_is_ptr af_size af_count]. rewrite <- Hpp. replace (obj' + rf_offset f' =? 0) with false by lia. cbn [negb]. rewrite !bind_Ok, Hc32', (u64_small (cnt' * 8)) by lia.
           rewrite header_zlen. replace (container_header cnt et true) with (container_header cnt et true ++ []) in Hb by apply app_nil_r. change 20 with (20 + zlen (@nil Z)) at 1.
           rewrite (container_at _ _ _ _ _ _ _ _ _ _ _ Hb Hd); [|unfold is_u32; lia|exact Hth|unfold value_size, is_u32; lia|exact Hhh]. cbv zeta. change (value_size et true) with 8.
           rewrite (pointers_load _ _ _ cnt' _ 0); [|lia|destruct (cnt' <? cnt) eqn:Ecc; lia|cbn [vs_mem]; split; [lia|split; lia]]. rewrite bind_Ok. cbn [vs_pos vs_mem]. pose proof Hb as [Hb1 [Hb2 _]]. rewrite app_nil_r, header_zlen in Hb2. change (zlen (@nil Z)) with 0.
           rewrite (u32_small (pos + 12 + 20)) by lia. replace (pos + 12 + (20 + 0) - (pos + 12 + 20)) with 0 by lia. cbn [andb]. change (s32 (u32 0) >? 0) with false. cbn [andb]. rewrite chunk_zlen, header_zlen. f_equal. f_equal. lia.
    + (* of values *)
      destruct Hbefore as [Hlt|[_ Hx]]; [|congruence].
      assert (Hbs : forall n k, (k + n = Z.to_nat cnt)%nat -> exists bs, length bs = n /\ forall j b, nth_error bs j = Some b -> object_ok (obj + rf_offset f + (Z.of_nat k + Z.of_nat j) * rt_size et) (rf_type f) et b).
      { induction n as [|n IHn]; intros k Hkn; [exists []; split; [reflexivity|intros [|j] b Hj; discriminate]|]. destruct (IHn (S k)) as [bs [Hl Hb]]; [lia|].
        destruct (HI (rf_type f) et (obj + rf_offset f + Z.of_nat k * rt_size et) Hlt Het) as [b Hb0]; [split; [nia|split; [nia|lia]]|]. exists (b :: bs). split; [cbn; lia|]. intros [|j] c Hj; cbn in Hj.
        - injection Hj as <-. change (Z.of_nat 0) with 0. rewrite Z.add_0_r. exact Hb0.
        - replace (Z.of_nat k + Z.of_nat (S j)) with (Z.of_nat (S k) + Z.of_nat j) by lia. apply Hb. exact Hj. }
      destruct (Hbs (Z.to_nat cnt) O ltac:(lia)) as [bs [Hlbs Hok]]. assert (Hzbs : zlen bs = cnt) by (unfold zlen; lia). clear Hbs.
      exists (container_header cnt et false ++ flat_map (elem (value_size et false)) bs). split.
      * intros n Hn. rewrite Hsv. unfold vb_SaveFieldArray, array_of, get_type. rewrite Het, !bind_Ok. unfold array_init, assert. cbn [af_is_ptr af_size af_count]. rewrite Ep. replace (obj + rf_offset f =? 0) with false by lia. cbn [negb]. rewrite !bind_Ok, Hc32.
        rewrite (u64_small (cnt * rt_size et)) by nia. rewrite <- Hlbs. rewrite (elements_save _ _ (obj + rf_offset f) (rt_size et) cnt bs 0); [reflexivity|lia|lia|lia|split; [lia|split; lia]|].
        intros j b Hj. destruct (Hok j b Hj) as [Hsave _]. apply Hsave. lia.
      * exists et. split; [exact Het|]. split; [reflexivity|]. intros ty' t' Ht' Hc Hag. destruct (new_field E' ty' h) as [f'|] eqn:En; [|apply (field_absent obj h f _ _ et); auto].
        destruct (member_fits E' HE' _ _ _ _ (new_has E' _ _ _ En) Ht') as [et' [Het' [_ [Ho' [Hsp' Hcn']]]]]. specialize (Hag _ _ eq_refl Het'). unfold agree_fields in Hag. rewrite Ec in Hag. destruct (rf_count f') as [cnt'|] eqn:Ec'; [|contradiction]. destruct Hag as [Hpp Hhh]. rewrite Ep in Hpp.
        destruct (proj2 HE' _ _ Het') as [Hsz' _]. unfold vb_space in Hsp'. rewrite Ec' in Hsp'. rewrite <- Hpp in Hsp'. unfold is_u32 in Hcn'. assert (Hc32' : u32 cnt' = cnt') by (apply u32_small; lia).
        set (count := if cnt' <? cnt then cnt' else cnt). assert (Hcount : 0 <= count /\ count <= cnt /\ count <= cnt' /\ (count = cnt \/ count = cnt')) by (unfold count; destruct (cnt' <? cnt) eqn:Ecc; lia).
        set (bs1 := firstn (Z.to_nat count) bs). set (bs2 := skipn (Z.to_nat count) bs). assert (Hbs12 : bs = bs1 ++ bs2) by (symmetry; apply firstn_skipn). assert (Hl1 : length bs1 = Z.to_nat count) by (unfold bs1; rewrite firstn_length; lia).
        assert (Hz1 : zlen bs1 = count) by (unfold zlen; lia).
        destruct (elements_load (rf_type f) et (rf_type f') et' (obj + rf_offset f) Het Het' Hhh bs1 0) as [cs [Hcs Hld]]; [lia| |].
        { intros j b Hj. assert (Hj' : nth_error bs j = Some b) by (rewrite Hbs12, nth_error_app1; [exact Hj|apply nth_error_Some; congruence]). destruct (Hok j b Hj') as [_ [HL1 HL2]]. change (Z.of_nat 0) with 0 in HL2. split; [exact HL2|exact HL1]. }
        exists (shift (rf_offset f') cs). split.
        -- intros [d x]. rewrite in_shift, Hcs. cbn [fst snd]. unfold field_gives. cbn [fst snd]. split.
           ++ intros [j [Hj Hg]]. exists f', et, et', j. split; [exact En|]. split; [exact Het|]. split; [exact Het'|]. split; [exact Hhh|]. split; [|exact Hg]. unfold common. rewrite Ec, Ec'. split; [exact Ep|]. split; [congruence|]. lia.
           ++ intros [g [e1 [e2 [j [G1 [G2 [G3 [_ [G4 G5]]]]]]]]]. rewrite En in G1. injection G1 as <-. rewrite Het in G2. injection G2 as <-. rewrite Het' in G3. injection G3 as <-. exists j. split; [|exact G5]. unfold common in G4. rewrite Ec, Ec' in G4. lia.
        -- intros obj' data pos m' Hd Hat [C1 [C2 C3]]. destruct (chunk_at _ _ _ _ _ Hat Hth Hh Hd) as [_ [_ [_ Hb]]]. pose proof Hb as Hb0. apply at_app in Hb0. destruct Hb0 as [_ Hb0]. rewrite header_zlen in Hb0. rewrite Hbs12, flat_map_app in Hb0. apply at_app in Hb0. destruct Hb0 as [Hb1 Hb2].
           destruct (Hld (obj' + rf_offset f') cnt' data (pos + 12 + 20) m' Hd Hb1 ltac:(lia)) as [k Hk']; [split; [lia|split; lia]|]. exists (S k). intros [|n] Hn; [lia|].
           rewrite (field_header _ _ _ _ _ _ _ _ _ _ Hat Hth Hh Hd Ht' Hc), En, Ec'. unfold vb_LoadFieldArray, array_of, get_type. rewrite Het', !bind_Ok. unfold array_init, assert. cbn [af_is_ptr af_size af_count]. rewrite <- Hpp. replace (obj' + rf_offset f' =? 0) with false by lia. cbn [negb]. rewrite !bind_Ok, Hc32', (u64_small (cnt' * rt_size et')) by nia.
           rewrite (zlen_app _ (container_header _ _ _)), header_zlen. rewrite (container_at _ _ _ _ _ _ _ _ _ _ _ Hb Hd); [|unfold is_u32; lia|exact Hth|unfold is_u32; rewrite (value_size_leaf _ _ Het); destruct (is_class et); lia|exact Hhh]. cbv zeta. fold count. rewrite <- Hl1.
           specialize (Hk' n ltac:(lia)). change (0 * rt_size et') with 0 in Hk'. rewrite Hk', bind_Ok. cbn [vs_pos vs_mem].
           set (z1 := zlen (flat_map (elem (value_size et false)) bs1)) in *. assert (Hz : zlen (flat_map (elem (value_size et false)) bs) = z1 + zlen (flat_map (elem (value_size et false)) bs2)) by (rewrite Hbs12 at 1; rewrite flat_map_app, zlen_app; reflexivity).
           set (z2 := zlen (flat_map (elem (value_size et false)) bs2)) in *. pose proof (zlen_nonneg _ (flat_map (elem (value_size et false)) bs2)) as Hz2n. assert (Hz1n : 0 <= z1) by apply zlen_nonneg. fold z2 in Hz2n.
           destruct Hb2 as [Hb21 [Hb22 _]]. fold z2 in Hb22. destruct Hb1 as [Hb11 _]. rewrite (u32_small (pos + 12 + 20 + z1)) by lia. replace (pos + 12 + (20 + zlen (flat_map (elem (value_size et false)) bs)) - (pos + 12 + 20 + z1)) with z2 by lia. rewrite (u32_small z2), (s32_small z2) by lia.
           rewrite apply_shift, chunk_zlen, zlen_app, header_zlen, Hz.
           destruct (cnt =? count) eqn:Ecq.
           ++ assert (Hb2e : bs2 = []) by (unfold bs2; apply skipn_all2; lia). assert (z2 = 0) by (unfold z2; rewrite Hb2e; reflexivity). cbn [negb]. rewrite Bool.andb_false_r. f_equal. f_equal. lia.
           ++ cbn [negb]. rewrite Bool.andb_true_r. destruct (z2 >? 0) eqn:Ez2; [rewrite seek_at by lia; rewrite bind_Ok|]; f_equal; f_equal; lia.
  - (* values *)
    destruct Hbefore as [Hlt|[Hx _]]; [|congruence]. unfold vb_space in Hsp. rewrite Ec in Hsp. destruct (HI (rf_type f) et (obj + rf_offset f) Hlt Het) as [body [Hsave [_ Hld]]]; [split; [lia|split; lia]|]. exists body. split.
    + intros n Hn. rewrite Hsv, Hsave by lia. reflexivity.
    + exists et. split; [exact Het|]. split; [reflexivity|]. intros ty' t' Ht' Hc Hag. destruct (new_field E' ty' h) as [f'|] eqn:En; [|apply (field_absent obj h f _ _ et); auto].
      destruct (member_fits E' HE' _ _ _ _ (new_has E' _ _ _ En) Ht') as [et' [Het' [_ [Ho' [Hsp' Hcn']]]]]. specialize (Hag _ _ eq_refl Het'). unfold agree_fields in Hag. rewrite Ec in Hag. destruct (rf_count f') as [cnt'|] eqn:Ec'; [contradiction|]. unfold vb_space in Hsp'. rewrite Ec' in Hsp'.
      destruct (Z.eq_dec (rt_hash et) (rt_hash et')) as [Hhh|Hhh].
      * destruct (Hld _ _ Het' Hhh) as [cs [Hcs Hl]]. exists (shift (rf_offset f') cs). split.
        -- intros [d x]. rewrite in_shift, Hcs. unfold field_gives. cbn [fst snd]. split.
           ++ intros Hg. exists f', et, et', 0. split; [exact En|]. split; [exact Het|]. split; [exact Het'|]. split; [exact Hhh|]. split; [unfold common; rewrite Ec, Ec'; reflexivity|]. rewrite !Z.mul_0_l, Z.add_0_r, Z.sub_0_r. exact Hg.
           ++ intros [g [e1 [e2 [j [G1 [G2 [G3 [_ [G4 G5]]]]]]]]]. rewrite En in G1. injection G1 as <-. unfold common in G4. rewrite Ec, Ec' in G4. subst j. rewrite !Z.mul_0_l, Z.add_0_r, Z.sub_0_r in G5. exact G5.
        -- intros obj' data pos m' Hd Hat [C1 [C2 C3]]. destruct (chunk_at _ _ _ _ _ Hat Hth Hh Hd) as [_ [_ [_ Hb]]]. destruct (Hl (obj' + rf_offset f') data (pos + 12) m' Hd Hb) as [k Hk']; [split; [lia|split; lia]|].
           exists (S k). intros [|n] Hn; [lia|]. rewrite (field_header _ _ _ _ _ _ _ _ _ _ Hat Hth Hh Hd Ht' Hc), En, Ec', Hk' by lia. rewrite apply_shift, chunk_zlen. f_equal. f_equal. lia.
      * exists []. split.
        -- intros c. split; [intros []|]. intros [g [e1 [e2 [j [G1 [G2 [G3 [G4 _]]]]]]]]. rewrite En in G1. injection G1 as <-. congruence.
        -- intros obj' data pos m' Hd Hat _. destruct (chunk_at _ _ _ _ _ Hat Hth Hh Hd) as [_ [_ [_ Hb]]]. exists 2%nat. intros [|[|n]] Hn; [lia|lia|]. rewrite (field_header _ _ _ _ _ _ _ _ _ _ Hat Hth Hh Hd Ht' Hc), En, Ec'. rewrite load_object_S. unfold get_type. rewrite Het', bind_Ok.
           replace (rt_hash et =? rt_hash et') with false by lia. cbn [negb vs_pos vs_mem]. pose proof (zlen_nonneg _ body). destruct Hb as [Hb1 [Hb2 _]]. rewrite seek_at by lia. rewrite bind_Ok, chunk_zlen. cbn [apply_copies fold_left]. f_equal. f_equal. lia.
Qed.

(* ---- classes ---- *)
Notation vchunk := (Z * Z * rfield * list Z)%type.
Definition chunk_bytes (c : vchunk) : list Z := let '(th, h, _, body) := c in chunk th h body.
Definition chunk_ok (obj : Z) (c : vchunk) : Prop := let '(th, h, f, body) := c in field_ok obj h f th body.
Definition chunk_named (c : vchunk) (h : Z) (f : rfield) : Prop := let '(_, h0, f0, _) := c in h = h0 /\ f = f0.
Definition class_chunks (obj : Z) (ty : nat) (cs : list vchunk) : Prop :=
  (forall n, (2 * ty + 1 <= n)%nat -> vb_SaveClass E mem no_save n obj ty = Ok (flat_map chunk_bytes cs)) /\ Forall (chunk_ok obj) cs /\
  forall h f, vb_saved E ty h f <-> exists c, In c cs /\ chunk_named c h f.

Lemma own_saved : forall i t fa fs obj, types_before i -> nth_error E i = Some t -> rt_kind t = K_class fa fs -> block mem obj (rt_size t) ->
  forall l, incl l fs -> exists cs, (forall n, (2 * i <= n)%nat -> append_all (fun e => vb_SaveClassField E no_save (fun o => vb_SaveObject E mem no_save n o (rf_type (snd e))) obj e) l = Ok (flat_map chunk_bytes cs)) /\
    Forall (chunk_ok obj) cs /\ forall h f, (In (h, f) l /\ lasting (rf_flags f)) <-> exists c, In c cs /\ chunk_named c h f.
Proof.
  intros i t fa fs obj HI Ht Hk HB. induction l as [|[h f] l IH]; intros Hl.
  - exists []. split; [reflexivity|]. split; [constructor|]. intros h f. split; [intros [[] _]|intros [c [[] _]]].
  - destruct IH as [cs [Hs [Hok Hin]]]; [intros x Hx; apply Hl; right; exact Hx|]. destruct (has_flag (rf_flags f) transient_bits) eqn:Ef.
    + exists cs. split; [|split; [exact Hok|]].
      * intros n Hn. cbn [append_all]. unfold vb_SaveClassField at 1. cbn [snd]. change (skipped (rf_flags f)) with (has_flag (rf_flags f) transient_bits). rewrite Ef, bind_Ok, Hs by exact Hn. reflexivity.
      * intros h0 f0. rewrite <- Hin. split; [intros [[H|H] Hf]; [injection H as <- <-; unfold lasting in Hf; congruence|auto]|intros [H Hf]; split; [right; exact H|exact Hf]].
    + destruct (field_saved i t fa fs h f obj HI Ht Hk (Hl _ (or_introl eq_refl)) Ef HB) as [th [body [Hs0 Hok0]]]. exists ((th, h, f, body) :: cs). split; [|split; [constructor; [exact Hok0|exact Hok]|]].
      * intros n Hn. cbn [append_all snd]. rewrite Hs0 by exact Hn. rewrite bind_Ok, Hs by exact Hn. reflexivity.
      * intros h0 f0. split.
        -- intros [[H|H] Hf]; [injection H as <- <-; exists (th, h, f, body); split; [left; reflexivity|split; reflexivity]|]. destruct (proj1 (Hin h0 f0) (conj H Hf)) as [c [Hc Hn]]. exists c. split; [right; exact Hc|exact Hn].
        -- intros [c [[<-|Hc] Hn]]; [destruct Hn as [-> ->]; split; [left; reflexivity|exact Ef]|]. destruct (proj2 (Hin h0 f0) (ex_intro _ c (conj Hc Hn))) as [H Hf]. split; [right; exact H|exact Hf].
Qed.
Lemma bases_saved : forall i obj, (forall b bt, (b < i)%nat -> nth_error E b = Some bt -> is_class bt = true -> block mem obj (rt_size bt) -> exists cs, class_chunks obj b cs) ->
  forall l, (forall b, In b l -> (b < i)%nat /\ exists bt, nth_error E b = Some bt /\ is_class bt = true /\ block mem obj (rt_size bt)) ->
  exists cs, (forall n, (2 * i <= n)%nat -> append_all (fun b => vb_SaveClass E mem no_save n obj b) l = Ok (flat_map chunk_bytes cs)) /\
    Forall (chunk_ok obj) cs /\ forall h f, (exists b, In b l /\ vb_saved E b h f) <-> exists c, In c cs /\ chunk_named c h f.
Proof.
  intros i obj HI. induction l as [|b l IH]; intros Hl.
  - exists []. split; [reflexivity|]. split; [constructor|]. intros h f. split; [intros [b [[] _]]|intros [c [[] _]]].
  - destruct IH as [cs [Hs [Hok Hin]]]; [intros x Hx; apply Hl; right; exact Hx|]. destruct (Hl b (or_introl eq_refl)) as [Hb [bt [Hbt [Hc HB]]]]. destruct (HI b bt Hb Hbt Hc HB) as [cs0 [Hs0 [Hok0 Hin0]]].
    exists (cs0 ++ cs). split; [|split; [apply Forall_app; split; assumption|]].
    + intros n Hn. cbn [append_all]. rewrite Hs0 by lia. rewrite bind_Ok, Hs by exact Hn. rewrite flat_map_app. reflexivity.
    + intros h f. split.
      * intros [x [[<-|Hx] Hv]].
        -- destruct (proj1 (Hin0 h f) Hv) as [c [H1 H2]]. exists c. split; [apply in_or_app; left; exact H1|exact H2].
        -- destruct (proj1 (Hin h f) (ex_intro _ x (conj Hx Hv))) as [c [H1 H2]]. exists c. split; [apply in_or_app; right; exact H1|exact H2].
      * intros [c [H1 H2]]. apply in_app_or in H1. destruct H1 as [H1|H1].
        -- exists b. split; [left; reflexivity|]. apply Hin0. exists c. auto.
        -- destruct (proj2 (Hin h f) (ex_intro _ c (conj H1 H2))) as [x [Hx Hv]]. exists x. split; [right; exact Hx|exact Hv].
Qed.
Lemma class_saved : forall i t obj, types_before i -> (forall b bt, (b < i)%nat -> nth_error E b = Some bt -> is_class bt = true -> block mem obj (rt_size bt) -> exists cs, class_chunks obj b cs) ->
  nth_error E i = Some t -> is_class t = true -> block mem obj (rt_size t) -> exists cs, class_chunks obj i cs.
Proof.
  intros i t obj HI HIb Ht Hc HB. unfold is_class in Hc. destruct (rt_kind t) as [| |fa fs] eqn:Hk; try discriminate. destruct (has_flag fa transient_bits) eqn:Ef.
  - exists []. split; [|split; [constructor|]].
    + intros [|n] Hn; [lia|]. rewrite save_class_S. unfold get_type. rewrite Ht, bind_Ok, Hk. change (skipped fa) with (has_flag fa transient_bits). rewrite Ef. reflexivity.
    + intros h f. split; [|intros [c [[] _]]]. intros Hv. exfalso. inversion Hv as [? ? ? ? ? ? G1 G2 G3|? ? ? ? ? ? ? G1 G2 G3]; subst; rewrite Ht in G1; injection G1 as <-; rewrite Hk in G2; injection G2 as <- <-; unfold lasting in G3; congruence.
  - destruct (own_saved i t fa fs obj HI Ht Hk HB fs (incl_refl fs)) as [cs1 [Hs1 [Hok1 Hin1]]].
    destruct (bases_saved i obj HIb (rt_bases t)) as [cs2 [Hs2 [Hok2 Hin2]]].
    { intros b Hb. destruct (proj2 HE _ _ Ht) as [_ [_ [_ Hty]]]. rewrite Hk in Hty. destruct Hty as [Hty _]. destruct (Hty b Hb) as [bt [Hbt [Hcb Hsz]]]. destruct (proj1 HE _ _ Ht) as [Hlt _]. split; [apply Hlt; exact Hb|]. exists bt. split; [exact Hbt|]. split; [exact Hcb|]. destruct HB as [B1 [B2 B3]]. split; [lia|split; lia]. }
    exists (cs1 ++ cs2). split; [|split; [apply Forall_app; split; assumption|]].
    + intros [|n] Hn; [lia|]. rewrite save_class_S. unfold get_type. rewrite Ht, bind_Ok, Hk. change (skipped fa) with (has_flag fa transient_bits). rewrite Ef, Hs1, bind_Ok, Hs2, bind_Ok, flat_map_app by lia. reflexivity.
    + intros h f. split.
      * intros Hv. inversion Hv as [? ? ? ? ? ? G1 G2 G3 G4 G5|? ? ? ? b ? ? G1 G2 G3 G4 G5]; subst; rewrite Ht in G1; injection G1 as <-; rewrite Hk in G2; injection G2 as <- <-.
        -- destruct (proj1 (Hin1 h f) (conj G4 G5)) as [c [H1 H2]]. exists c. split; [apply in_or_app; left; exact H1|exact H2].
        -- destruct (proj1 (Hin2 h f) (ex_intro _ b (conj G4 G5))) as [c [H1 H2]]. exists c. split; [apply in_or_app; right; exact H1|exact H2].
      * intros [c [H1 H2]]. apply in_app_or in H1. destruct H1 as [H1|H1].
        -- destruct (proj2 (Hin1 h f) (ex_intro _ c (conj H1 H2))) as [G1 G2]. eapply vs_own; eassumption.
        -- destruct (proj2 (Hin2 h f) (ex_intro _ c (conj H1 H2))) as [b [G1 G2]]. eapply vs_base; eassumption.
Qed.
Lemma gives_class : forall obj ty ty' t c, nth_error E ty = Some t -> is_class t = true -> (gives obj ty ty' c <-> exists h f, vb_saved E ty h f /\ field_gives obj ty' h f c).
Proof.
  intros obj ty ty' t [c x] Ht Hc. unfold gives, field_gives, gives. cbn [fst snd]. split.
  - intros [d [t1 [t1' [Hm Hv]]]]. inversion Hm as [? ? ? ? G1 G2 G3|? ? h f f' et et' i d0 d0' ? ? Hs Hn Het Het' Hh Hco Hm']; subst; [congruence|].
    exists h, f. split; [exact Hs|]. exists f', et, et', i. do 5 (split; [assumption|]). exists d0, t1, t1'. split; [replace (_ - _ - _) with d0' by lia; exact Hm'|]. rewrite <- Hv. f_equal. f_equal. lia.
  - intros [h [f [Hs [f' [et [et' [i [Hn [Het [Het' [Hh [Hco [d0 [t1 [t1' [Hm Hv]]]]]]]]]]]]]]]]. exists (rf_offset f + i * rt_size et + d0), t1, t1'. split.
    + replace c with (rf_offset f' + i * rt_size et' + (c - rf_offset f' - i * rt_size et')) by lia. eapply mt_member; eassumption.
    + rewrite <- Hv. f_equal. f_equal. lia.
Qed.
Lemma class_loaded : forall obj ty ty' t t', nth_error E ty = Some t -> is_class t = true -> nth_error E' ty' = Some t' -> is_class t' = true -> rt_hash t = rt_hash t' ->
  forall l, Forall (chunk_ok obj) l -> (forall c h f, In c l -> chunk_named c h f -> vb_saved E ty h f) ->
  exists cs, (forall c, In c cs <-> exists v h f, In v l /\ chunk_named v h f /\ field_gives obj ty' h f c) /\
  forall obj' data pos m', zlen data < 2 ^ 31 -> at_ data pos (flat_map chunk_bytes l) -> block m' obj' (rt_size t') ->
    exists k, forall n, (k <= n)%nat -> vb_class_loop E' data no_load n (mk_vs pos m') obj' ty' (pos + zlen (flat_map chunk_bytes l)) = Ok (mk_vs (pos + zlen (flat_map chunk_bytes l)) (apply_copies cs obj' m')).
Proof.
  intros obj ty ty' t t' Ht Hc Ht' Hc' Hh. induction l as [|[[[th h] f] body] l IH]; intros HF Hin.
  - exists []. split; [intros c; split; [intros []|intros [v [? [? [[] _]]]]]|]. intros obj' data pos m' Hd Hat _. exists 1%nat. intros [|n] Hn; [lia|]. rewrite class_loop_S. cbn [flat_map vs_pos]. change (zlen (@nil Z)) with 0. destruct Hat as [Hp [Hp2 _]]. cbn in Hp2. change (zlen (@nil Z)) with 0 in Hp2.
    rewrite Z.add_0_r, u32_small by lia. rewrite Z.ltb_irrefl. reflexivity.
  - inversion HF as [|? ? Hok HF']; subst. destruct IH as [cs1 [Hcs1 Hld1]]; [exact HF'|intros c h0 f0 Hi; apply Hin; right; exact Hi|].
    pose proof (Hin _ h f (or_introl eq_refl) (conj eq_refl eq_refl)) as Hs. destruct Hok as [et [Het [Hth Hok]]].
    destruct (Hok ty' t' Ht' Hc') as [cs0 [Hcs0 Hld0]]. { intros f' et' Hn Het'. unfold agree_fields. exact (proj2 (HA _ _ _ _ Ht Ht' Hh) _ _ _ _ _ Hs Hn Het Het'). }
    exists (cs0 ++ cs1). split.
    + intros c. rewrite in_app_iff, Hcs0, Hcs1. split.
      * intros [H|[v [h0 [f0 [H1 [H2 H3]]]]]]; [exists (th, h, f, body), h, f; split; [left; reflexivity|split; [split; reflexivity|exact H]]|exists v, h0, f0; split; [right; exact H1|auto]].
      * intros [v [h0 [f0 [[<-|H1] [H2 H3]]]]]; [left; destruct H2 as [-> ->]; exact H3|right; exists v, h0, f0; auto].
    + intros obj' data pos m' Hd Hat HB. cbn [flat_map] in Hat. apply at_app in Hat. destruct Hat as [Hat0 Hat1]. cbn [chunk_bytes] in Hat0, Hat1. destruct (Hld0 obj' data pos m' Hd Hat0 HB) as [k0 Hk0].
      assert (HR : Forall (in_range (rt_size t')) cs0). { apply Forall_forall. intros c Hcc. apply Hcs0 in Hcc. apply (gives_range obj ty ty' t t' c Ht Ht'). apply (gives_class obj ty ty' t c Ht Hc). exists h, f. auto. }
      destruct (Hld1 obj' data (pos + zlen (chunk th h body)) (apply_copies cs0 obj' m') Hd Hat1 (apply_block _ _ _ _ HR HB)) as [k1 Hk1].
      exists (S (Nat.max k0 k1)). intros [|n] Hn; [lia|]. rewrite class_loop_S. cbn [vs_pos flat_map]. rewrite zlen_app. cbn [chunk_bytes]. pose proof (zlen_nonneg _ (flat_map chunk_bytes l)). pose proof (chunk_zlen th h body) as Hcz. pose proof (zlen_nonneg _ body). destruct Hat0 as [Hp0 [Hp1 _]].
      rewrite u32_small by lia. replace (pos <? _) with true by lia. rewrite Hk0 by lia. rewrite bind_Ok. replace (pos + (zlen (chunk th h body) + zlen (flat_map chunk_bytes l))) with (pos + zlen (chunk th h body) + zlen (flat_map chunk_bytes l)) by lia. rewrite Hk1 by lia. rewrite apply_app. reflexivity.
Qed.
Theorem all_objects : forall i t obj, nth_error E i = Some t -> block mem obj (rt_size t) -> (exists bytes, object_ok obj i t bytes) /\ (is_class t = true -> exists cs, class_chunks obj i cs).
Proof.
  induction i as [i IH] using lt_wf_ind. intros t obj Ht HB.
  assert (HI : types_before i) by (intros u v o Hu Hv Ho; apply (IH u Hu v o Hv Ho)).
  assert (HIb : forall b bt, (b < i)%nat -> nth_error E b = Some bt -> is_class bt = true -> block mem obj (rt_size bt) -> exists cs, class_chunks obj b cs) by (intros b bt Hb Hbt Hc Ho; apply (IH b Hb bt obj Hbt Ho), Hc).
  destruct (is_class t) eqn:Ec.
  - destruct (class_saved i t obj HI HIb Ht Ec HB) as [cs Hcs]. split; [|intros _; exists cs; exact Hcs]. destruct Hcs as [Hs [Hok Hin]]. exists (flat_map chunk_bytes cs). split; [|split; [congruence|]].
    + intros [|n] Hn; [lia|]. rewrite save_object_S. unfold get_type. rewrite Ht, bind_Ok. unfold is_class in Ec. destruct (rt_kind t); try discriminate. apply Hs. lia.
    + intros ty' t' Ht' Hh. pose proof (kinds _ _ _ _ Ht Ht' Hh) as Hk. assert (Ec' : is_class t' = true) by (unfold same_kind in Hk; unfold is_class in *; destruct (rt_kind t), (rt_kind t'); auto; contradiction || discriminate).
      destruct (class_loaded obj i ty' t t' Ht Ec Ht' Ec' Hh cs Hok) as [cc [Hcc Hld]]; [intros c h f H1 H2; apply Hin; exists c; auto|]. exists cc. split.
      * intros c. rewrite Hcc, (gives_class obj i ty' t c Ht Ec). split.
        -- intros [v [h [f [H1 [H2 H3]]]]]. exists h, f. split; [apply Hin; exists v; auto|exact H3].
        -- intros [h [f [H1 H2]]]. apply Hin in H1. destruct H1 as [v [H1 H3]]. exists v, h, f. auto.
      * intros obj' data pos m' Hd Hat HB'. destruct (Hld obj' data pos m' Hd Hat HB') as [k Hk0]. exists (S k). intros [|n] Hn; [lia|]. rewrite load_object_S. unfold get_type. rewrite Ht', bind_Ok. rewrite <- Hh, Z.eqb_refl. cbn [negb vs_pos]. destruct Hat as [Hp0 [Hp1 _]]. pose proof (zlen_nonneg _ (flat_map chunk_bytes cs)).
        rewrite (u32_small pos) by lia. rewrite u32_small by lia. unfold is_class in Ec'. destruct (rt_kind t'); try discriminate. apply Hk0. lia.
  - split; [|congruence]. destruct (rt_kind t) as [|fl cs|] eqn:Hk; [| |unfold is_class in Ec; rewrite Hk in Ec; discriminate].
    + eexists. apply number_ok; assumption.
    + eexists. eapply enum_ok; eassumption.
Qed.
End Core.
