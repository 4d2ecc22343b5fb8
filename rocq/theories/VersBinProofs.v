(* What a versioned binary holds and how it is read *)
From Verif Require Import Base BaseProofs SearchModel SearchProofs RuntimeModel JsonLexModel JsonLexProofs JsonNumModel JsonNumProofs JsonObjModel JsonObjSpec JsonObjProofs JsonSaveProofs JsonStoreProofs VersBinModel VersBinSpec.

(* ---- bytes in the data ---- *)
Definition at_ (data : list Z) (pos : Z) (bytes : list Z) : Prop :=
  0 <= pos /\ pos + zlen bytes <= zlen data /\ forall i, 0 <= i < zlen bytes -> znth data (pos + i) = znth bytes i.
Lemma at_app : forall data pos a b, at_ data pos (a ++ b) <-> at_ data pos a /\ at_ data (pos + zlen a) b.
Proof.
  intros data pos a b. unfold at_. rewrite zlen_app. pose proof (zlen_nonneg _ a). pose proof (zlen_nonneg _ b). split.
  - intros [H1 [H2 H3]]. split; (split; [lia|split; [lia|]]); intros i Hi.
    + rewrite H3 by lia. apply znth_app_l. lia.
    + replace (pos + zlen a + i) with (pos + (zlen a + i)) by lia. rewrite H3 by lia. rewrite znth_app_r by lia. f_equal. lia.
  - intros [[H1 [H2 H3]] [H4 [H5 H6]]]. split; [lia|]. split; [lia|]. intros i Hi. destruct (Z_lt_le_dec i (zlen a)).
    + rewrite znth_app_l by lia. apply H3. lia.
    + rewrite znth_app_r by lia. rewrite <- H6 by lia. f_equal. lia.
Qed.
Lemma stands_at : forall data pos bytes, stands data pos bytes -> at_ data pos bytes.
Proof.
  intros data pos bytes [pre [post [-> <-]]]. pose proof (zlen_nonneg _ pre). pose proof (zlen_nonneg _ post). unfold at_. rewrite !zlen_app. split; [lia|]. split; [lia|]. intros i Hi.
  rewrite znth_app_r by lia. replace (zlen pre + i - zlen pre) with i by lia. apply znth_app_l. lia.
Qed.
Lemma at_slice : forall data pos bytes, at_ data pos bytes -> slice data pos (zlen bytes) = bytes.
Proof.
  intros data pos bytes [H1 [H2 H3]]. pose proof (zlen_nonneg _ bytes). apply znth_ext. intros i. rewrite znth_slice by lia. destruct ((0 <=? i) && (i <? zlen bytes)) eqn:Ei; [apply H3; lia|].
  symmetry. apply znth_none. lia.
Qed.
Lemma read_at : forall data pos bytes, at_ data pos bytes -> vb_read data pos (zlen bytes) = Ok (bytes, pos + zlen bytes).
Proof.
  intros data pos bytes H. pose proof H as [H1 [H2 _]]. unfold vb_read, assert. replace (pos + zlen bytes <=? zlen data) with true by lia. cbn [obind]. replace (pos <? 0) with false by lia.
  rewrite at_slice by exact H. reflexivity.
Qed.
Lemma u32_at : forall data pos v, at_ data pos (le_bytes 4 v) -> vb_u32 data pos = Ok (u32 v, pos + 4).
Proof.
  intros data pos v H. unfold vb_u32. pose proof (read_at _ _ _ H) as HR. rewrite le_bytes_zlen in HR. change (Z.of_nat 4) with 4 in HR. rewrite HR. cbn [obind fst snd]. rewrite le_val_bytes. reflexivity.
Qed.
Lemma s32_small : forall x, 0 <= x < 2 ^ 31 -> s32 x = x.
Proof. intros x Hx. unfold s32. rewrite (Z.mod_small (x + 2147483648)) by lia. lia. Qed.
Lemma u32_small : forall x, 0 <= x < 2 ^ 32 -> u32 x = x.
Proof. intros x Hx. unfold u32. apply Z.mod_small. lia. Qed.
Lemma u64_small : forall x, 0 <= x < 2 ^ 63 -> u64 x = x.
Proof. intros x Hx. unfold u64. apply Z.mod_small. lia. Qed.
Lemma seek_at : forall data pos n, 0 <= n < 2 ^ 31 -> pos + n <= zlen data -> vb_seek data pos n = Ok (pos + n).
Proof. intros data pos n Hn Hp. unfold vb_seek, assert. rewrite s32_small by exact Hn. replace (pos + n <=? zlen data) with true by lia. reflexivity. Qed.

(* ---- what loading stores ---- *)
Definition apply_copies (cs : list (Z * list Z)) (object : Z) (m : list Z) : list Z := fold_left (fun m c => splice m (object + fst c) (snd c)) cs m.
Definition in_range (n : Z) (c : Z * list Z) : Prop := 0 <= fst c /\ fst c + zlen (snd c) <= n.
Definition shift (o : Z) (cs : list (Z * list Z)) : list (Z * list Z) := map (fun c => (o + fst c, snd c)) cs.
Lemma apply_app : forall a b object m, apply_copies (a ++ b) object m = apply_copies b object (apply_copies a object m).
Proof. intros a b object m. apply fold_left_app. Qed.
Lemma apply_shift : forall o cs object m, apply_copies (shift o cs) object m = apply_copies cs (object + o) m.
Proof.
  intros o cs. induction cs as [|c cs IH]; intros object m; [reflexivity|]. cbn [shift map apply_copies fold_left fst snd]. unfold apply_copies, shift in IH. rewrite IH. cbn [fst]. f_equal. f_equal. lia.
Qed.
Lemma apply_zlen : forall n cs object m, Forall (in_range n) cs -> block m object n -> zlen (apply_copies cs object m) = zlen m.
Proof.
  intros n cs. induction cs as [|c cs IH]; intros object m HF [H1 [H2 H3]]; [reflexivity|]. inversion HF as [|? ? [Hc1 Hc2] HF']; subst. pose proof (zlen_nonneg _ (snd c)). cbn [apply_copies fold_left].
  assert (HZ : zlen (splice m (object + fst c) (snd c)) = zlen m) by (apply splice_zlen; lia). unfold apply_copies in IH. rewrite IH; [exact HZ|exact HF'|]. split; [lia|]. split; lia.
Qed.
Lemma apply_block : forall n cs object m, Forall (in_range n) cs -> block m object n -> block (apply_copies cs object m) object n.
Proof. intros n cs object m HF HB. unfold block. rewrite (apply_zlen n) by assumption. exact HB. Qed.
Lemma in_shift : forall o cs d b, In (d, b) (shift o cs) <-> In (d - o, b) cs.
Proof.
  intros o cs d b. unfold shift. rewrite in_map_iff. split.
  - intros [[d0 b0] [H H0]]. cbn in H. injection H as <- <-. replace (o + d0 - o) with d0 by lia. exact H0.
  - intros H. exists (d - o, b). cbn. split; [f_equal; lia|exact H].
Qed.

Definition no_save : custom_save := fun _ => None.
Definition no_load : custom_load := fun _ => None.

(* ---- unfolding ---- *)
Lemma save_object_S : forall E mem cu n object ty, vb_SaveObject E mem cu (S n) object ty =
  do t <- get_type E ty;
  match rt_kind t with
  | K_type => vb_SaveType mem object t
  | K_enum _ constants => vb_SaveEnum mem object constants
  | K_class _ _ => vb_SaveClass E mem cu n object ty
  end.
Proof. reflexivity. Qed.
Lemma save_class_S : forall E mem cu n object ty, vb_SaveClass E mem cu (S n) object ty =
  do t <- get_type E ty;
  match rt_kind t with
  | K_class flag_attributes fields =>
      if skipped flag_attributes then Ok []
      else
        do own <- append_all (fun e => vb_SaveClassField E cu (fun o => vb_SaveObject E mem cu n o (rf_type (snd e))) object e) fields;
        do base <- append_all (fun b => vb_SaveClass E mem cu n object b) (rt_bases t);
        Ok (own ++ base)
  | _ => Trap
  end.
Proof. reflexivity. Qed.
Lemma load_object_S : forall E data cu n s object ty data_size type_hash, vb_LoadObject E data cu (S n) s object ty data_size type_hash =
  do t <- get_type E ty;
  if negb (type_hash =? rt_hash t) then do p <- vb_seek data (vs_pos s) data_size; Ok (mk_vs p (vs_mem s))
  else
  match rt_kind t with
  | K_type => vb_LoadType data s object t data_size
  | K_enum _ constants => vb_LoadEnum data s object t constants data_size
  | K_class _ _ => vb_class_loop E data cu n s object ty (u32 (u32 (vs_pos s) + data_size))
  end.
Proof. reflexivity. Qed.
Lemma class_loop_S : forall E data cu n s object ty end_pos, vb_class_loop E data cu (S n) s object ty end_pos =
  if u32 (vs_pos s) <? end_pos then
    do s <- vb_LoadClassField E data cu n s object ty;
    vb_class_loop E data cu n s object ty end_pos
  else Ok s.
Proof. reflexivity. Qed.
Lemma class_field_S : forall E data cu n s object ty, vb_LoadClassField E data cu (S n) s object ty =
  do type_hash <- vb_u32 data (vs_pos s);
  do name_hash <- vb_u32 data (snd type_hash);
  do data_size <- vb_u32 data (snd name_hash);
  let s := mk_vs (snd data_size) (vs_mem s) in
  do field <- vb_find (S (length E)) E ty (fst name_hash);
  match field with
  | None => do p <- vb_seek data (vs_pos s) (fst data_size); Ok (mk_vs p (vs_mem s))
  | Some f =>
      if skipped (rf_flags f) then do p <- vb_seek data (vs_pos s) (fst data_size); Ok (mk_vs p (vs_mem s))
      else
      let field_object := object + rf_offset f in
      match cu f with
      | Some run =>
          let end_pos := s32 (u32 (u32 (vs_pos s) + fst data_size)) in
          do x <- run object field_object (vs_pos s) (vs_mem s);
          let position := s32 (u32 (fst x)) in
          if position =? end_pos then Ok (mk_vs (fst x) (snd x))
          else do p <- vb_seek data (fst x) (end_pos - position); Ok (mk_vs p (snd x))
      | None =>
          match rf_count f with
          | Some count =>
              do t <- get_type E (rf_type f);
              vb_LoadFieldArray E data (fun s o size => vb_LoadObject E data cu n s o (rf_type f) size (rt_hash t)) s field_object f count (fst data_size)
          | None => vb_LoadObject E data cu n s field_object (rf_type f) (fst data_size) (fst type_hash)
          end
      end
  end.
Proof. reflexivity. Qed.

(* ---- lookups ---- *)
Section Types.
Variable E : list rtype.
Hypothesis HE : vb_types_ok E.

Fixpoint vb_find_bases (depth : nat) (l : list nat) (h : Z) : outcome (option rfield) :=
  match l with
  | [] => Ok None
  | b :: r => do field <- vb_find depth E b h;
              match field with Some f => Ok (Some f) | None => vb_find_bases depth r h end
  end.
Lemma vb_find_step : forall depth ty h, vb_find (S depth) E ty h =
  do t <- get_type E ty;
  match rt_kind t with
  | K_class _ fields =>
      do field <- FindPrimitive fields h;
      match field with Some e => Ok (Some (snd e)) | None => vb_find_bases depth (rt_bases t) h end
  | _ => Trap
  end.
Proof.
  intros depth ty h. cbn [vb_find]. destruct (get_type E ty) as [t| | |]; try reflexivity. cbn [obind]. destruct (rt_kind t) as [| |fa fs]; try reflexivity. apply bind_ext. intros [e|]; [reflexivity|].
  induction (rt_bases t) as [|b r IH]; [reflexivity|]. cbn [vb_find_bases]. apply bind_ext. intros [f|]; [reflexivity|exact IH].
Qed.
Lemma vb_find_ok : forall depth1 depth2 ty t h, nth_error E ty = Some t -> is_class t = true -> (ty < depth1)%nat -> (ty < depth2)%nat ->
  vb_find depth1 E ty h = Ok (find_field depth2 E ty h).
Proof.
  destruct HE as [HW HV].
  induction depth1 as [|d1 IH]; intros [|d2] ty t h Et Hc H1 H2; try lia. rewrite vb_find_step. cbn [find_field]. unfold get_type. rewrite Et, bind_Ok. destruct (HW _ _ Et) as [Hb Hk]. destruct (HV _ _ Et) as [_ [_ [_ Hv]]].
  unfold is_class in Hc. destruct (rt_kind t) as [| |fa fs]; try discriminate. destruct Hv as [Hv _]. destruct Hk as [Hs _]. destruct (lookup_ok _ fs h Hs) as [e [HF HL]]. rewrite HF, bind_Ok, <- HL. destruct e as [[k f]|]; [reflexivity|]. cbn [option_map].
  assert (HB : forall l, (forall b, In b l -> In b (rt_bases t)) -> vb_find_bases d1 l h = Ok (fold_left (fun r b => match r with Some f => Some f | None => find_field d2 E b h end) l None)).
  { induction l as [|b l IHl]; intros Hl; [reflexivity|]. cbn [vb_find_bases fold_left]. assert (Hb0 : In b (rt_bases t)) by (apply Hl; left; reflexivity). specialize (Hb _ Hb0). destruct (Hv _ Hb0) as [bt [Hbt [Hbc _]]].
    rewrite (IH d2 b bt h Hbt Hbc) by lia. rewrite bind_Ok. destruct (find_field d2 E b h) as [f|]; [rewrite fold_some; reflexivity|]. apply IHl. intros b' Hb'. apply Hl. right. exact Hb'. }
  apply HB. auto.
Qed.
(* where fields lie *)
Lemma member_fits : forall ty h f t, has_member E ty h f -> nth_error E ty = Some t -> exists et, nth_error E (rf_type f) = Some et /\ is_u32 h /\ 0 <= rf_offset f /\ rf_offset f + vb_space f et <= rt_size t /\
  match rf_count f with Some n => is_u32 n | None => True end.
Proof.
  destruct HE as [HW HV]. intros ty h f t Hm. revert t. induction Hm as [ty t0 fa fs h f Ht Hk Hi|ty t0 b h f Ht Hb Hm IH]; intros t Ht'; rewrite Ht in Ht'; injection Ht' as <-.
  - destruct (HW _ _ Ht) as [_ Hk']. rewrite Hk in Hk'. destruct Hk' as [_ Hk']. specialize (Hk' _ Hi). cbn in Hk'. destruct (nth_error E (rf_type f)) as [et|] eqn:Et; [|apply nth_error_None in Et; lia].
    destruct (HV _ _ Ht) as [_ [_ [_ Hv]]]. rewrite Hk in Hv. destruct Hv as [_ Hv]. exists et. split; [reflexivity|]. exact (Hv _ _ _ Hi Et).
  - destruct (HV _ _ Ht) as [_ [_ [_ Hv]]]. destruct (rt_kind t0) as [| |fa fs] eqn:Ek; [rewrite Hv in Hb; contradiction|destruct Hv as [Hv _]; rewrite Hv in Hb; contradiction|].
    destruct Hv as [Hv _]. destruct (Hv _ Hb) as [bt [Hbt [_ Hle]]]. destruct (IH _ Hbt) as [et [H1 [H2 [H3 [H4 H5]]]]]. exists et. split; [exact H1|]. split; [exact H2|]. split; [exact H3|]. split; [lia|exact H5].
Qed.
Lemma saved_has : forall ty h f, vb_saved E ty h f -> has_member E ty h f.
Proof. induction 1; [eapply hm_own; eauto|eapply hm_base; eauto]. Qed.
Lemma new_has : forall ty h f, new_field E ty h = Some f -> has_member E ty h f.
Proof.
  intros ty h f H. unfold new_field in H. destruct (find_field (S ty) E ty h) as [g|] eqn:Eg; [|discriminate]. destruct (has_flag (rf_flags g) transient_bits); [discriminate|]. injection H as <-. eapply find_has. exact Eg.
Qed.
End Types.
