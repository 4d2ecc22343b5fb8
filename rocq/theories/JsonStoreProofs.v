(* Which bytes a load leaves alone *)
From Verif Require Import Base BaseProofs Text RuntimeModel JsonLexModel JsonLexSpec JsonNumModel JsonNumSpec JsonNumProofs JsonObjModel JsonObjSpec JsonObjProofs.

Section Frame.
Variable E : list rtype.
Variable F : floats.
Variable lut : list (option basic).
Variable tf : Z.
Hypothesis Hsz : forall t, In t E -> is_u32 (rt_size t).
(* m' is m apart from the bytes at P *)
Definition only (P : Z -> Prop) (m m' : list Z) : Prop := zlen m' = zlen m /\ forall x, ~ P x -> znth m' x = znth m x.
Lemma only_refl : forall P m, only P m m.
Proof. split; auto. Qed.
Lemma only_trans : forall P m m1 m2, only P m m1 -> only P m1 m2 -> only P m m2.
Proof. intros P m m1 m2 [H1 H2] [H3 H4]. split; [congruence|]. intros x Hx. rewrite H4, H2 by exact Hx. reflexivity. Qed.
Lemma only_weak : forall (P Q : Z -> Prop) m m', only P m m' -> (forall x, P x -> Q x) -> only Q m m'.
Proof. intros P Q m m' [H1 H2] H. split; [exact H1|]. intros x Hx. apply H2. auto. Qed.
Lemma only_written : forall m off bytes m', wr_bytes m off bytes = Ok m' -> only (fun x => off <= x < off + zlen bytes) m m'.
Proof. intros m off bytes m' H. destruct (written_splice _ _ _ _ H) as [H1 H2]. split; [exact H1|]. intros x Hx. rewrite H2. replace ((off <=? x) && (x <? off + zlen bytes)) with false by lia. reflexivity. Qed.
Lemma basic_pos : forall b, 0 < basic_size b.
Proof. destruct b; reflexivity. Qed.
Lemma load_integer_only : forall b m off v m', load_integer F b m off v = Ok m' -> only (fun x => off <= x < off + basic_size b) m m'.
Proof.
  intros b m off v m' H. pose proof (basic_pos b) as HP. assert (HG : forall n w, Z.of_nat n = basic_size b -> wr_bytes m off (le_bytes n w) = Ok m' -> only (fun x => off <= x < off + basic_size b) m m').
  { intros n w Hn HW. eapply only_weak; [exact (only_written _ _ _ _ HW)|]. intros x. cbv beta. rewrite le_bytes_zlen. lia. }
  destruct b; cbn [load_integer] in H; try (eapply HG; [|exact H]; reflexivity). eapply only_weak; [exact (only_written _ _ _ _ H)|]. intros x Hx. exact Hx.
Qed.
Lemma load_decimal_only : forall b m off v m', load_decimal F b m off v = Ok m' -> only (fun x => off <= x < off + basic_size b) m m'.
Proof.
  intros b m off v m' H. pose proof (basic_pos b) as HP. assert (HG : forall n w, Z.of_nat n = basic_size b -> wr_bytes m off (le_bytes n w) = Ok m' -> only (fun x => off <= x < off + basic_size b) m m').
  { intros n w Hn HW. eapply only_weak; [exact (only_written _ _ _ _ HW)|]. intros x. cbv beta. rewrite le_bytes_zlen. lia. }
  destruct b; cbn [load_decimal] in H; try (destruct (dtrunc F v) as [w|]; [|discriminate]; destruct (_ && _); [|discriminate]); try (eapply HG; [|exact H]; reflexivity). eapply only_weak; [exact (only_written _ _ _ _ H)|]. intros x Hx. exact Hx.
Qed.
Notation MS := (may_store E lut tf).
Notation MF := (may_store_field E lut tf).
Lemma field_stores : forall ty p name f a x, member_field E tf ty name = Some f -> MF f a x -> MS ty p a x.
Proof. intros ty p name f a x Hf [H|[n [t [i [H1 [H2 [H3 H4]]]]]]]; [eapply ms_field; eauto|eapply ms_element; eauto]. Qed.
Lemma integer_only : forall ty t v m a p m', nth_error E ty = Some t -> LoadInteger F lut v m a (Some (rt_hash t)) p = Ok m' -> only (MS ty p a) m m'.
Proof.
  intros ty t v m a p m' Ht H. cbn [LoadInteger] in H. destruct p.
  - eapply only_weak; [exact (only_written _ _ _ _ H)|]. intros x Hx. apply ms_pointer. exact Hx.
  - apply bind_inv in H. destruct H as [e [He H]]. destruct e as [b|]; [|injection H as <-; apply only_refl]. eapply only_weak; [exact (load_integer_only _ _ _ _ _ H)|]. intros x Hx. eapply ms_number; eauto.
Qed.

(* the elements of an array *)
Lemma elements_only : forall put (fty : nat) (p : bool) base es n, 0 <= es < 2 ^ 32 -> is_u32 n ->
  forall l, Forall (fun j => forall m a m', put j m a = Ok m' -> only (MS fty p a) m m') l ->
  forall m i m', 0 <= i <= n -> store_elements put l m (mk_iter base es (i * es) (u64 (u32 n * es))) = Ok m' ->
  only (fun x => exists i, 0 <= i < n /\ MS fty p (u64 (base + i * es)) x) m m'.
Proof.
  intros put fty p base es n Hes Hn l HF. assert (Hu : u64 (u32 n * es) = n * es). { unfold is_u32 in Hn. unfold u32, u64. rewrite (Z.mod_small n) by lia. apply Z.mod_small. nia. } rewrite Hu.
  induction HF as [|j l Hj HF IH]; intros m i m' Hi H; cbn [store_elements] in H; [injection H as <-; apply only_refl|].
  apply bind_inv in H. destruct H as [[at_ it] [HA H]]. apply bind_inv in H. destruct H as [m1 [HP H]]. unfold array_add_empty, array_get, array_next, assert in HA. cbn [it_pos it_size it_data it_esize] in HA. destruct (i * es <? n * es) eqn:El; [|discriminate]. cbn [obind] in HA. injection HA as <- <-. cbn [fst snd] in *.
  assert (Hi2 : i < n) by nia. assert (HU : u64 (i * es + es) = (i + 1) * es). { unfold is_u32 in Hn. unfold u64. rewrite Z.mod_small by nia. lia. } rewrite HU in H.
  eapply only_trans; [|exact (IH m1 (i + 1) m' ltac:(lia) H)]. eapply only_weak; [exact (Hj _ _ _ HP)|]. intros x Hx. exists i. split; [lia|exact Hx].
Qed.
(* the elements of an array or the field itself *)
Definition target (ty : nat) (p : bool) (field : option rfield) (a x : Z) : Prop :=
  MS ty p a x \/ match field with Some f => exists n t i, rf_count f = Some n /\ 0 <= i < n /\ nth_error E (rf_type f) = Some t /\ MS (rf_type f) (rf_ptr f) (u64 (a + i * (if rf_ptr f then 8 else rt_size t))) x | None => False end.
Hypothesis Hcount : forall t fa fs e n, In t E -> rt_kind t = K_class fa fs -> In e fs -> rf_count (snd e) = Some n -> is_u32 n.
Lemma find_in : forall d ty h f, find_field d E ty h = Some f -> exists t fa fs e, In t E /\ rt_kind t = K_class fa fs /\ In e fs /\ snd e = f.
Proof.
  induction d as [|d IH]; intros ty h f H; [discriminate|]. cbn [find_field] in H. destruct (nth_error E ty) as [t|] eqn:Et; [|discriminate]. pose proof (nth_error_In _ _ Et) as HI.
  assert (HB : forall bs, fold_left (fun r b => match r with Some f => Some f | None => find_field d E b h end) bs None = Some f -> exists t fa fs e, In t E /\ rt_kind t = K_class fa fs /\ In e fs /\ snd e = f).
  { induction bs as [|b bs IHb]; intros HH; [discriminate|]. cbn [fold_left] in HH. destruct (find_field d E b h) as [g|] eqn:Eg; [|exact (IHb HH)]. assert (g = f). { clear -HH. revert HH. induction bs as [|b2 bs IHb]; cbn [fold_left]; [congruence|exact IHb]. } subst g. exact (IH b h f Eg). }
  destruct (rt_kind t) as [|fl cs|fa fs] eqn:Ek; [exact (HB _ H)..|]. destruct (lookup fs h) as [g|] eqn:El; [|exact (HB _ H)]. injection H as <-. unfold lookup in El. destruct (find (fun e : Z * rfield => fst e =? h) fs) as [e|] eqn:Ef; [|discriminate]. cbn in El. injection El as <-. apply find_some in Ef. exists t, fa, fs, e. tauto.
Qed.
Lemma member_in : forall ty name f, member_field E tf ty name = Some f -> exists t fa fs e, In t E /\ rt_kind t = K_class fa fs /\ In e fs /\ snd e = f.
Proof.
  intros ty name f H. unfold member_field in H. destruct (nth_error E ty) as [[h sz k bs]|]; [|discriminate]. destruct k; try discriminate. destruct (find_field _ E ty _) as [g|] eqn:Ef; [|discriminate]. destruct (has_flag _ _); [discriminate|]. injection H as <-. exact (find_in _ _ _ _ Ef).
Qed.
Definition field_fine (type : option nat) (p : bool) (field : option rfield) : Prop :=
  match field with Some f => type = Some (rf_type f) /\ p = rf_ptr f /\ (forall n, rf_count f = Some n -> is_u32 n) | None => True end.
Lemma store_only : forall j m a ty p field m', field_fine (Some ty) p field -> store E F lut tf j m a (Some ty) p field = Ok m' -> only (target ty p field a) m m'.
Proof.
  assert (HMS : forall ty p field a m m', only (MS ty p a) m m' -> only (target ty p field a) m m') by (intros ty p field a m m' H; eapply only_weak; [exact H|]; intros x Hx; left; exact Hx).
  assert (HN : forall ty t, get_type E ty = Ok t -> nth_error E ty = Some t). { intros ty t H. unfold get_type in H. destruct (nth_error E ty); [congruence|discriminate]. }
  assert (HC : forall l m a ty p m', Forall (fun x => forall m a ty p field m', field_fine (Some ty) p field -> store E F lut tf (snd x) m a (Some ty) p field = Ok m' -> only (target ty p field a) m m') l -> store_each E tf (store E F lut tf) a ty l m = Ok m' -> only (MS ty p a) m m').
  { intros l m a ty p m' HF. revert m. induction HF as [|[name j] l Hx HF IH]; intros m H; cbn [store_each] in H; [injection H as <-; apply only_refl|]. apply bind_inv in H. destruct H as [m1 [H1 H]]. eapply only_trans; [|exact (IH m1 H)].
    destruct (member_field E tf ty name) as [f|] eqn:Ef; [|injection H1 as <-; apply only_refl]. cbn [snd] in Hx.
    assert (HFF : field_fine (Some (rf_type f)) (rf_ptr f) (Some f)). { split; [reflexivity|]. split; [reflexivity|]. intros n Hn. destruct (member_in _ _ _ Ef) as [t [fa [fs [e [M1 [M2 [M3 M4]]]]]]]. subst f. exact (Hcount t fa fs e n M1 M2 M3 Hn). }
    eapply only_weak; [exact (Hx _ _ _ _ _ _ HFF H1)|]. intros x HT. eapply field_stores; [exact Ef|]. exact HT. }
  induction j as [s|v|b| | | |l IH|l IH] using json_ind2; intros m a ty p field m' Hff H; cbn [store] in H; apply bind_inv in H; destruct H as [t [Ht H]]; pose proof (HN _ _ Ht) as HT.
  - apply HMS. destruct (rt_kind t) as [|fl cs|fa fs] eqn:Ek; try (injection H as <-; apply only_refl). unfold store_enum in H. destruct (enum_values fl cs s) as [|v r]; [injection H as <-; apply only_refl|]. eapply only_weak; [exact (only_written _ _ _ _ H)|]. intros x Hx. eapply ms_enum; [exact HT|exact Ek|exact Hx].
  - apply HMS. exact (integer_only _ _ _ _ _ _ _ HT H).
  - apply HMS. cbn in H. apply bind_inv in H. destruct H as [e [He H]]. destruct e as [bb|]; [|injection H as <-; apply only_refl]. eapply only_weak; [exact (load_decimal_only _ _ _ _ _ H)|]. intros x Hx. eapply ms_number; eauto.
  - apply HMS. exact (integer_only _ _ _ _ _ _ _ HT H).
  - apply HMS. exact (integer_only _ _ _ _ _ _ _ HT H).
  - apply HMS. exact (integer_only _ _ _ _ _ _ _ HT H).
  - destruct l as [|j l]; [injection H as <-; apply only_refl|]. destruct field as [[nm off fl fty ip cnt]|]; [|injection H as <-; apply only_refl]. destruct cnt as [n|]; [|injection H as <-; apply only_refl].
    destruct Hff as [Hf1 [Hf2 Hf3]]. cbn [rf_type rf_ptr rf_count] in *. injection Hf1 as ->. subst p. apply bind_inv in H. destruct H as [af [HA H]]. unfold array_of in HA. cbn [rf_type rf_ptr] in HA. rewrite Ht in HA. cbn [obind] in HA. injection HA as <-.
    apply bind_inv in H. destruct H as [it [HI H]]. unfold array_init, assert in HI. destruct (negb (a =? 0)); [|discriminate]. cbn [obind af_is_ptr af_size af_count] in HI. injection HI as <-. specialize (Hf3 n eq_refl). pose proof (Hsz t (nth_error_In _ _ HT)) as Hs.
    eapply only_weak.
    + eapply (elements_only (fun j mem at_ => store E F lut tf j mem at_ (Some fty) ip None) fty ip a (if ip then 8 else rt_size t) n) with (i := 0); [destruct ip; unfold is_u32 in Hs; lia|exact Hf3| |unfold is_u32 in Hf3; lia|exact H].
      eapply Forall_impl; [|exact IH]. intros y Hy m0 a0 m0' HH. pose proof (Hy m0 a0 fty ip None m0' I HH) as HO. eapply only_weak; [exact HO|]. intros x [Hx|[]]. exact Hx.
    + intros x [i [Hi Hx]]. right. exists n, t, i. cbn [rf_type rf_ptr rf_count]. auto.
  - apply HMS. destruct (rt_kind t) as [|fl cs|fa fs]; try (injection H as <-; apply only_refl). destruct (has_flag fa tf); [injection H as <-; apply only_refl|]. eapply HC; [exact IH|exact H].
Qed.
Lemma members_only : forall l m a ty m', store_members E F lut tf l m a ty = Ok m' -> only (fun x => exists name j f, In (name, j) l /\ member_field E tf ty name = Some f /\ MF f a x) m m'.
Proof.
  induction l as [|[name j] l IH]; intros m a ty m' H; unfold store_members in *; cbn [store_each] in H; [injection H as <-; apply only_refl|]. apply bind_inv in H. destruct H as [m1 [H1 H]].
  eapply only_trans; [|eapply only_weak; [exact (IH m1 a ty m' H)|]; intros x [n [jj [f [H2 H3]]]]; exists n, jj, f; split; [right; exact H2|exact H3]].
  destruct (member_field E tf ty name) as [f|] eqn:Ef; [|injection H1 as <-; apply only_refl].
  assert (HFF : field_fine (Some (rf_type f)) (rf_ptr f) (Some f)). { split; [reflexivity|]. split; [reflexivity|]. intros n Hn. destruct (member_in _ _ _ Ef) as [t [fa [fs [e [M1 [M2 [M3 M4]]]]]]]. subst f. exact (Hcount t fa fs e n M1 M2 M3 Hn). }
  eapply only_weak; [exact (store_only j m _ _ _ _ _ HFF H1)|]. intros x HT. exists name, j, f. split; [left; reflexivity|]. split; [exact Ef|exact HT].
Qed.
(* members that are not for a field change nothing *)
Lemma members_filter : forall l m a ty, store_members E F lut tf (filter (fun x => match member_field E tf ty (fst x) with Some _ => true | None => false end) l) m a ty = store_members E F lut tf l m a ty.
Proof.
  induction l as [|[name j] l IH]; intros m a ty; [reflexivity|]. unfold store_members in *. cbn [filter fst store_each]. destruct (member_field E tf ty name) as [f|] eqn:Ef.
  - cbn [store_each]. rewrite Ef. destruct (store E F lut tf j m _ _ _ _); cbn [obind]; [apply IH|reflexivity..].
  - cbn [obind]. apply IH.
Qed.
End Frame.
