From Verif Require Import Base BaseProofs MmapModel MmapSpec.

(* ---- patching a list of places ---- *)
Fixpoint foldg (g : list Z -> Z -> outcome (list Z)) (l : list Z) (img : list Z) : outcome (list Z) :=
  match l with [] => Ok img | p :: r => do img' <- g img p; foldg g r img' end.
Lemma foldg_app : forall g a b img, foldg g (a ++ b) img = do img' <- foldg g a img; foldg g b img'.
Proof. induction a as [|p a IH]; intros b img; cbn [app foldg obind]; [reflexivity|]. destruct (g img p); cbn [obind]; auto. Qed.

Definition touched (p : Z) (F : Z -> Z) (img img' : list Z) : Prop :=
  zlen img' = zlen img /\ Forall is_byte img' /\ ptr_at img' p = F (ptr_at img p) /\
  (forall i, ~ (p <= i < p + 8) -> znth img' i = znth img i).
Lemma ptr_at_ext : forall a b p, 0 <= p -> (forall i, p <= i < p + 8 -> znth a i = znth b i) -> ptr_at a p = ptr_at b p.
Proof.
  intros a b p Hp H. unfold ptr_at. f_equal. apply znth_ext. intros i. rewrite !znth_slice by lia.
  destruct ((0 <=? i) && (i <? 8)) eqn:E; [|reflexivity]. apply H. lia.
Qed.
Lemma ptr_at_range : forall img p, Forall is_byte img -> 0 <= ptr_at img p < 2 ^ 64.
Proof.
  intros img p Hb. unfold ptr_at. assert (Hs : Forall is_byte (slice img p 8)).
  { unfold slice. apply Forall_forall. intros x Hx. rewrite Forall_forall in Hb. apply Hb.
    assert (In x (skipn (Z.to_nat p) img)) by (rewrite <- (firstn_skipn (Z.to_nat 8) (skipn _ _)); apply in_or_app; auto).
    rewrite <- (firstn_skipn (Z.to_nat p) img). apply in_or_app. auto. }
  pose proof (le_val_range _ Hs) as Hr. assert (zlen (slice img p 8) <= 8).
  { unfold slice, zlen. rewrite firstn_length. lia. }
  pose proof (Z.pow_le_mono_r 256 (zlen (slice img p 8)) 8 ltac:(lia) ltac:(lia)). change (256 ^ 8) with (2 ^ 64) in *. lia.
Qed.
Lemma Forall_firstn : forall A (P : A -> Prop) n l, Forall P l -> Forall P (firstn n l).
Proof. intros A P n l H. rewrite <- (firstn_skipn n l) in H. apply Forall_app in H. tauto. Qed.
Lemma Forall_skipn : forall A (P : A -> Prop) n l, Forall P l -> Forall P (skipn n l).
Proof. intros A P n l H. rewrite <- (firstn_skipn n l) in H. apply Forall_app in H. tauto. Qed.
Lemma splice_bytes : forall l off bs, Forall is_byte l -> Forall is_byte bs -> Forall is_byte (splice l off bs).
Proof. intros. unfold splice. repeat (apply Forall_app; split); auto using Forall_firstn, Forall_skipn. Qed.
Lemma write_touched : forall img p v, Forall is_byte img -> 0 <= p -> p + 8 <= zlen img -> 0 <= v < 2 ^ 64 ->
  wr_bytes img p (le_bytes 8 v) = Ok (splice img p (le_bytes 8 v)) /\ touched p (fun _ => v) img (splice img p (le_bytes 8 v)).
Proof.
  intros img p v Hb Hp Hs Hv. pose proof (le_bytes_zlen 8 v) as Hl. change (Z.of_nat 8) with 8 in Hl. split.
  - unfold wr_bytes. rewrite Hl. replace ((0 <=? p) && (p + 8 <=? zlen img)) with true by lia. reflexivity.
  - split; [apply splice_zlen; lia|]. split; [apply splice_bytes; [exact Hb|apply le_bytes_bytes]|]. split.
    + unfold ptr_at. assert (E : slice (splice img p (le_bytes 8 v)) p 8 = le_bytes 8 v).
      { apply znth_ext. intros i. rewrite znth_slice by lia. destruct ((0 <=? i) && (i <? 8)) eqn:E.
        - rewrite znth_splice by lia. rewrite Hl. replace ((p <=? p + i) && (p + i <? p + 8)) with true by lia. f_equal. lia.
        - symmetry. apply znth_none. lia. }
      rewrite E. apply le_val_bytes_small. exact Hv.
    + intros i Hi. rewrite znth_splice by lia. rewrite Hl. replace ((p <=? i) && (i <? p + 8)) with false by lia. reflexivity.
Qed.

Lemma foldg_ok : forall g (C : Z -> Prop) F size, 
  (forall img p, Forall is_byte img -> zlen img = size -> 0 <= p -> p + 8 <= size -> C (ptr_at img p) ->
     exists img', g img p = Ok img' /\ touched p F img img') ->
  forall l img, Forall is_byte img -> zlen img = size -> slots_ok size l -> (forall p, In p l -> C (ptr_at img p)) ->
  exists img', foldg g l img = Ok img' /\ zlen img' = size /\ Forall is_byte img' /\
    (forall p, In p l -> ptr_at img' p = F (ptr_at img p)) /\
    (forall i, (forall p, In p l -> ~ (p <= i < p + 8)) -> znth img' i = znth img i).
Proof.
  intros g C F size Hg. induction l as [|p l IH]; intros img Hb Hz [Hr Hd] HC; cbn [foldg].
  - exists img. split; [reflexivity|]. split; [exact Hz|]. split; [exact Hb|]. split; [intros ? []|auto].
  - inversion Hd as [|x y Hp Hl]; subst x y. rewrite Forall_forall in Hp. destruct (Hr p (or_introl eq_refl)) as [Hp0 Hp8].
    destruct (Hg img p Hb Hz Hp0 Hp8 (HC p (or_introl eq_refl))) as [img1 [E [T1 [T2 [T3 T4]]]]]. rewrite E. cbn [obind].
    assert (Hsame : forall q, In q l -> ptr_at img1 q = ptr_at img q).
    { intros q Hq. apply ptr_at_ext; [apply Hr; right; exact Hq|]. intros i Hi. apply T4. pose proof (Hp q Hq). cbn beta in *. lia. }
    destruct (IH img1 T2 ltac:(lia)) as [img' [A1 [A2 [A3 [A4 A5]]]]].
    + split; [intros q Hq; apply Hr; right; exact Hq|exact Hl].
    + intros q Hq. rewrite Hsame by exact Hq. apply HC. right. exact Hq.
    + exists img'. split; [exact A1|]. split; [exact A2|]. split; [exact A3|]. split.
      * intros q [<-|Hq].
        -- rewrite <- T3. apply ptr_at_ext; [exact Hp0|]. intros i Hi. apply A5. intros q Hq. pose proof (Hp q Hq). cbn beta in *. lia.
        -- rewrite A4 by exact Hq. rewrite Hsame by exact Hq. reflexivity.
      * intros i Hi. rewrite A5 by (intros q Hq; apply Hi; right; exact Hq). apply T4. apply Hi. left. reflexivity.
Qed.

(* ---- the exporter's loops list the slots ---- *)
Lemma rel_object_fold : forall start size oo offs img, (forall p, In p (object_slots oo offs) -> 0 <= p < 2 ^ 32) ->
  rel_object start size oo offs img = foldg (rel_ptr start size) (object_slots oo offs) img.
Proof.
  induction offs as [|o offs IH]; intros img H; cbn [rel_object object_slots map foldg]; [reflexivity|].
  pose proof (H (oo + o) (or_introl eq_refl)) as Ho. unfold u64. rewrite (Z.mod_small (oo + o)) by lia. unfold u32. rewrite (Z.mod_small (oo + o)) by lia.
  destruct (rel_ptr start size img (oo + o)); cbn [obind]; auto. apply IH. intros p Hp. apply H. right. exact Hp.
Qed.
Definition objs_slots (off stride : Z) (offs : list Z) (j n : nat) : list Z :=
  flat_map (fun j => object_slots (off + Z.of_nat j * stride) offs) (seq j n).
Lemma rel_objects_fold : forall start size r s n j img,
  is_u64 (rl_offset r) -> is_u64 (sc_stride s) -> Forall is_u64 (sc_offsets s) -> sc_offsets s <> [] ->
  (forall p, In p (objs_slots (rl_offset r) (sc_stride s) (sc_offsets s) j n) -> p < 2 ^ 32) ->
  rel_objects start size r s (Z.of_nat j) n img = foldg (rel_ptr start size) (objs_slots (rl_offset r) (sc_stride s) (sc_offsets s) j n) img.
Proof.
  intros start size r s. induction n as [|n IH]; intros j img Ho Hs Hf Hne H; cbn [rel_objects]; [reflexivity|].
  unfold objs_slots in *. cbn [seq flat_map] in *. rewrite foldg_app.
  assert (Hfirst : forall p, In p (object_slots (rl_offset r + Z.of_nat j * sc_stride s) (sc_offsets s)) -> 0 <= p < 2 ^ 32).
  { intros p Hp. split; [|apply H; apply in_or_app; auto]. unfold object_slots in Hp. apply in_map_iff in Hp. destruct Hp as [o [<- Hin]].
    rewrite Forall_forall in Hf. pose proof (Hf o Hin). unfold is_u64 in *. nia. }
  assert (Hoo : 0 <= rl_offset r + Z.of_nat j * sc_stride s < 2 ^ 32 /\ 0 <= Z.of_nat j * sc_stride s).
  { destruct (sc_offsets s) as [|o os]; [contradiction|]. pose proof (Hfirst _ (or_introl eq_refl)). inversion Hf; subst. unfold is_u64 in *. nia. }
  unfold u64. rewrite (Z.mod_small (Z.of_nat j * _)) by (unfold is_u64 in *; lia). rewrite Z.mod_small by lia.
  rewrite rel_object_fold by exact Hfirst. destruct (foldg _ _ img); cbn [obind]; try reflexivity.
  replace (Z.of_nat j + 1) with (Z.of_nat (S j)) by lia. apply IH; auto. intros p Hp. apply H. apply in_or_app. auto.
Qed.
Definition schema_ok (s : schema) : Prop := is_u64 (sc_stride s) /\ sc_offsets s <> [] /\ Forall is_u64 (sc_offsets s).
Lemma make_relative_fold : forall start size ss rs img, Forall schema_ok ss ->
  Forall (fun r => 0 <= rl_handle r < zlen ss /\ is_u64 (rl_offset r)) rs ->
  (forall p, In p (slots ss rs) -> p < 2 ^ 32) ->
  MakeRelative start size ss rs img = foldg (rel_ptr start size) (slots ss rs) img.
Proof.
  intros start size ss rs img Hss. revert img. induction rs as [|r rs IH]; intros img Hrs H; cbn [MakeRelative]; [reflexivity|].
  inversion Hrs as [|x y [Hh Ho] Hr]; subst x y. unfold slots in *. cbn [flat_map] in *. rewrite foldg_app. unfold rd, reloc_slots at 1.
  destruct (znth_in _ ss (rl_handle r) Hh) as [s Es]. rewrite Es. cbn [obind].
  assert (Hs : schema_ok s) by (rewrite Forall_forall in Hss; apply Hss; eapply znth_In; eauto). destruct Hs as [S1 [S2 S3]].
  change (rel_objects start size r s 0) with (rel_objects start size r s (Z.of_nat 0)).
  rewrite (rel_objects_fold start size r s (Z.to_nat (rl_nb r)) 0 img Ho S1 S3 S2).
  - unfold objs_slots. destruct (foldg _ _ img); cbn [obind]; try reflexivity. apply IH; [exact Hr|]. intros p Hp. apply H. apply in_or_app. auto.
  - intros p Hp. apply H. apply in_or_app. left. unfold reloc_slots. rewrite Es. exact Hp.
Qed.
Lemma rel_ptr_ok : forall start size img p, Forall is_byte img -> zlen img = size -> 0 <= p -> p + 8 <= size ->
  0 <= start -> size < 2 ^ 32 ->
  ptr_at img p = 0 \/ start < ptr_at img p <= start + size ->
  exists img', rel_ptr start size img p = Ok img' /\ touched p (fun v => if v =? 0 then 0 else v - start) img img'.
Proof.
  intros start size img p Hb Hz Hp0 Hp8 Hst Hsz HC. unfold rel_ptr, rd_bytes.
  replace ((0 <=? p) && (0 <=? 8) && (p + 8 <=? zlen img)) with true by lia. cbn [obind]. fold (ptr_at img p).
  destruct (Z.eqb_spec (ptr_at img p) 0) as [E|E].
  - exists img. split; [reflexivity|]. unfold touched. rewrite E. cbn. auto.
  - destruct HC as [HC|HC]; [contradiction|].
    assert (Hd : u64 (ptr_at img p - start) = ptr_at img p - start) by (unfold u64; apply Z.mod_small; lia). rewrite Hd.
    replace (ptr_at img p - start <=? size) with true by lia. cbn [assert obind].
    destruct (write_touched img p (ptr_at img p - start) Hb Hp0 ltac:(lia) ltac:(lia)) as [W [T1 [T2 [T3 T4]]]].
    eexists. split; [exact W|]. split; [exact T1|]. split; [exact T2|]. split; [|exact T4]. rewrite T3. replace (ptr_at img p =? 0) with false by lia. reflexivity.
Qed.
Lemma patch_ptr_ok : forall base size img p, Forall is_byte img -> zlen img = size -> 0 <= p -> p + 8 <= size ->
  0 <= base -> base + size < 2 ^ 64 -> ptr_at img p <= size ->
  exists img', patch_ptr base size img p = Ok img' /\ touched p (fun v => if v =? 0 then 0 else v + base) img img'.
Proof.
  intros base size img p Hb Hz Hp0 Hp8 Hst Hsz HC. unfold patch_ptr, rd_bytes.
  replace ((0 <=? p) && (0 <=? 8) && (p + 8 <=? zlen img)) with true by lia. cbn [obind]. fold (ptr_at img p).
  replace (ptr_at img p <=? size) with true by lia. cbn [assert obind]. pose proof (ptr_at_range img p Hb).
  destruct (Z.eqb_spec (ptr_at img p) 0) as [E|E].
  - exists img. split; [reflexivity|]. unfold touched. rewrite E. cbn. auto.
  - assert (Hd : u64 (ptr_at img p + base) = ptr_at img p + base) by (unfold u64; apply Z.mod_small; lia). rewrite Hd.
    destruct (write_touched img p (ptr_at img p + base) Hb Hp0 ltac:(lia) ltac:(lia)) as [W [T1 [T2 [T3 T4]]]].
    eexists. split; [exact W|]. split; [exact T1|]. split; [exact T2|]. split; [|exact T4]. rewrite T3. replace (ptr_at img p =? 0) with false by lia. reflexivity.
Qed.

(* ---- the file format ---- *)
Lemma slice_mid : forall A (a b c : list A) off len, off = zlen a -> len = zlen b -> slice (a ++ b ++ c) off len = b.
Proof. intros; subst. apply slice_app_exact. Qed.
Lemma slice_app_off : forall A (a b : list A) off len, zlen a <= off -> slice (a ++ b) off len = slice b (off - zlen a) len.
Proof.
  intros A a b off len H. unfold slice. rewrite skipn_app. rewrite skipn_all2 by (unfold zlen in H; lia). cbn [app]. f_equal. f_equal. unfold zlen in *. lia.
Qed.
Lemma slice_head : forall A (b c : list A) len, len = zlen b -> slice (b ++ c) 0 len = b.
Proof. intros A b c len H. exact (slice_mid A [] b c 0 len eq_refl H). Qed.
Ltac leb := change 4 with (Z.of_nat 4); change 8 with (Z.of_nat 8).
Lemma le4_zlen : forall z, zlen (le_bytes 4 z) = 4. Proof. intros. apply (le_bytes_zlen 4). Qed.
Lemma le8_zlen : forall z, zlen (le_bytes 8 z) = 8. Proof. intros. apply (le_bytes_zlen 8). Qed.
Lemma le4_val : forall z, is_u32 z -> le_val (le_bytes 4 z) = z.
Proof. intros z H. apply le_val_bytes_small. unfold is_u32 in H. change (256 ^ Z.of_nat 4) with 4294967296. lia. Qed.
Lemma le8_val : forall z, is_u64 z -> le_val (le_bytes 8 z) = z.
Proof. intros z H. apply le_val_bytes_small. unfold is_u64 in H. change (256 ^ Z.of_nat 8) with 18446744073709551616. lia. Qed.
Lemma le4_s32 : forall z, is_s32 z -> s32 (le_val (le_bytes 4 z)) = z.
Proof.
  intros z H. rewrite le_val_bytes. change (256 ^ Z.of_nat 4) with 4294967296. unfold is_s32, s32 in *.
  rewrite Z.add_mod_idemp_l by lia. rewrite Z.mod_small by lia. lia.
Qed.
Opaque le_bytes.
Definition header_ok (h : header) : Prop := is_u32 (h_sig0 h) /\ is_u32 (h_sig1 h) /\ is_u32 (h_version h) /\
  is_s32 (h_schemas h) /\ is_s32 (h_offsets h) /\ is_s32 (h_relocs h) /\ is_u64 (h_size h).
Lemma header_zlen : forall h, zlen (header_bytes h) = 32.
Proof. intros. unfold header_bytes. rewrite !zlen_app, !le4_zlen, le8_zlen. reflexivity. Qed.
Lemma parse_header_ok : forall h, header_ok h -> parse_header (header_bytes h) = h.
Proof.
  intros h [H0 [H1 [H2 [H3 [H4 [H5 H6]]]]]]. unfold parse_header, header_bytes.
  rewrite slice_head by (rewrite le4_zlen; reflexivity).
  rewrite !(slice_app_off _ (le_bytes 4 (h_sig0 h))) by (rewrite le4_zlen; lia).
  rewrite !le4_zlen. change (4 - 4) with 0. change (8 - 4) with 4. change (12 - 4) with 8. change (16 - 4) with 12. change (20 - 4) with 16. change (24 - 4) with 20.
  rewrite slice_head by (rewrite le4_zlen; reflexivity).
  rewrite !(slice_app_off _ (le_bytes 4 (h_sig1 h))) by (rewrite le4_zlen; lia).
  rewrite !le4_zlen. change (4 - 4) with 0. change (8 - 4) with 4. change (12 - 4) with 8. change (16 - 4) with 12. change (20 - 4) with 16.
  rewrite slice_head by (rewrite le4_zlen; reflexivity).
  rewrite !(slice_app_off _ (le_bytes 4 (h_version h))) by (rewrite le4_zlen; lia).
  rewrite !le4_zlen. change (4 - 4) with 0. change (8 - 4) with 4. change (12 - 4) with 8. change (16 - 4) with 12.
  rewrite slice_head by (rewrite le4_zlen; reflexivity).
  rewrite !(slice_app_off _ (le_bytes 4 (h_schemas h))) by (rewrite le4_zlen; lia).
  rewrite !le4_zlen. change (4 - 4) with 0. change (8 - 4) with 4. change (12 - 4) with 8.
  rewrite slice_head by (rewrite le4_zlen; reflexivity).
  rewrite !(slice_app_off _ (le_bytes 4 (h_offsets h))) by (rewrite le4_zlen; lia).
  rewrite !le4_zlen. change (4 - 4) with 0. change (8 - 4) with 4.
  rewrite slice_head by (rewrite le4_zlen; reflexivity).
  rewrite (slice_app_off _ (le_bytes 4 (h_relocs h))) by (rewrite le4_zlen; lia).
  rewrite !le4_zlen. change (4 - 4) with 0.
  rewrite <- (app_nil_r (le_bytes 8 (h_size h))). rewrite slice_head by (rewrite le8_zlen; reflexivity).
  rewrite !le4_val, !le4_s32, le8_val by assumption. destruct h; reflexivity.
Qed.

Lemma chunks_flat : forall A (f : A -> list Z) sz l rest, (forall a, In a l -> length (f a) = sz) -> chunks (length l) sz (flat_map f l ++ rest) = map f l.
Proof.
  induction l as [|a l IH]; intros rest H; cbn [chunks length flat_map map]; [reflexivity|].
  pose proof (H a (or_introl eq_refl)) as Ha. rewrite <- app_assoc. rewrite firstn_app, <- Ha, firstn_all, Nat.sub_diag. cbn [firstn]. rewrite app_nil_r.
  rewrite skipn_app, skipn_all, Nat.sub_diag. cbn [skipn app]. rewrite Ha. f_equal. apply IH. intros. apply H. right. assumption.
Qed.
Definition rts (first : Z) (s : schema) : rt_schema := mk_rts (sc_stride s) first (zlen (sc_offsets s)).
Fixpoint rt_schemas (first : Z) (ss : list schema) : list rt_schema :=
  match ss with [] => [] | s :: r => rts first s :: rt_schemas (first + zlen (sc_offsets s)) r end.
Definition rts_bytes (s : rt_schema) : list Z := le_bytes 8 (rs_stride s) ++ le_bytes 8 (rs_first s) ++ le_bytes 8 (rs_count s).
Lemma schema_table_flat : forall ss first, schema_table first ss = flat_map rts_bytes (rt_schemas first ss).
Proof.
  induction ss as [|s ss IH]; intros first; cbn [schema_table rt_schemas flat_map]; [reflexivity|]. rewrite IH. unfold rts_bytes at 2. cbn. rewrite <- !app_assoc. reflexivity.
Qed.
Definition rtr (r : reloc) : rt_reloc := mk_rtr (rl_handle r) (rl_offset r) (rl_nb r).
Lemma parse_schema_ok : forall s, is_u64 (rs_stride s) -> is_u64 (rs_first s) -> is_u64 (rs_count s) -> parse_schema (rts_bytes s) = s.
Proof.
  intros s H1 H2 H3. unfold parse_schema, rts_bytes. rewrite slice_head by (rewrite le8_zlen; reflexivity).
  rewrite !(slice_app_off _ (le_bytes 8 (rs_stride s))) by (rewrite le8_zlen; lia). rewrite le8_zlen. change (8 - 8) with 0. change (16 - 8) with 8.
  rewrite slice_head by (rewrite le8_zlen; reflexivity). rewrite slice_app_off by (rewrite le8_zlen; lia). rewrite le8_zlen. change (8 - 8) with 0.
  rewrite <- (app_nil_r (le_bytes 8 (rs_count s))). rewrite slice_head by (rewrite le8_zlen; reflexivity). rewrite !le8_val by assumption. destruct s; reflexivity.
Qed.
Lemma parse_reloc_ok : forall r, is_s32 (rl_handle r) -> is_u64 (rl_offset r) -> is_s32 (rl_nb r) -> length (rl_pad0 r) = 4%nat ->
  parse_reloc (reloc_bytes r) = rtr r.
Proof.
  intros r H1 H2 H3 H4. assert (Hp : zlen (rl_pad0 r) = 4) by (unfold zlen; lia). unfold parse_reloc, reloc_bytes.
  rewrite slice_head by (rewrite le4_zlen; reflexivity).
  rewrite !(slice_app_off _ (le_bytes 4 (rl_handle r))) by (rewrite le4_zlen; lia). rewrite le4_zlen. change (8 - 4) with 4. change (16 - 4) with 12.
  rewrite !(slice_app_off _ (rl_pad0 r)) by lia. rewrite Hp. change (4 - 4) with 0. change (12 - 4) with 8.
  rewrite slice_head by (rewrite le8_zlen; reflexivity). rewrite slice_app_off by (rewrite le8_zlen; lia). rewrite le8_zlen. change (8 - 8) with 0.
  rewrite slice_head by (rewrite le4_zlen; reflexivity). rewrite !le4_s32, le8_val by assumption. reflexivity.
Qed.
Lemma rts_bytes_length : forall s, length (rts_bytes s) = 24%nat.
Proof. intros. unfold rts_bytes. rewrite !app_length, !le_bytes_length. reflexivity. Qed.
Lemma reloc_bytes_length : forall r, length (rl_pad0 r) = 4%nat -> length (rl_pad1 r) = 4%nat -> length (reloc_bytes r) = 24%nat.
Proof. intros r H1 H2. unfold reloc_bytes. rewrite !app_length, !le_bytes_length, H1, H2. reflexivity. Qed.
Lemma offset_table_ok : forall ss, Forall schema_ok ss -> offset_table ss = Ok (flat_map (le_bytes 8) (flat_map sc_offsets ss)).
Proof.
  induction ss as [|s ss IH]; intros H; cbn [offset_table flat_map]; [reflexivity|]. inversion H as [|x y [_ [Hn _]] Hr]; subst x y.
  unfold front_ok. destruct (sc_offsets s) as [|o os] eqn:E; [contradiction|]. cbn [obind]. rewrite IH by exact Hr. cbn [obind]. rewrite flat_map_app. reflexivity.
Qed.

(* ---- the loader's loops list the same slots ---- *)
Lemma rt_schemas_zlen : forall ss first, zlen (rt_schemas first ss) = zlen ss.
Proof. induction ss as [|s ss IH]; intros; cbn [rt_schemas]; [reflexivity|]. rewrite !zlen_cons, IH. reflexivity. Qed.
Lemma rt_schemas_nth : forall ss first h s, znth ss h = Some s ->
  exists a b, flat_map sc_offsets ss = a ++ sc_offsets s ++ b /\ znth (rt_schemas first ss) h = Some (rts (first + zlen a) s).
Proof.
  induction ss as [|s0 ss IH]; intros first h s H.
  - apply znth_range in H. cbn in H. lia.
  - destruct (Z.eq_dec h 0) as [->|Hh].
    + rewrite znth_0 in H. injection H as ->. exists [], (flat_map sc_offsets ss). split; [reflexivity|]. cbn. rewrite Z.add_0_r. reflexivity.
    + pose proof (znth_range _ _ _ _ H). rewrite znth_cons in H by lia. destruct (IH (first + zlen (sc_offsets s0)) (h - 1) s H) as [a [b [E1 E2]]].
      exists (sc_offsets s0 ++ a), b. cbn [flat_map rt_schemas]. rewrite E1, <- app_assoc. split; [reflexivity|].
      rewrite znth_cons by lia. rewrite E2, zlen_app. do 2 f_equal. lia.
Qed.
Lemma patch_object_fold : forall base size oo all first count b n k a offs img,
  all = a ++ offs ++ b -> first = zlen a - k -> 0 <= k -> 0 <= first -> count = k + zlen offs -> zlen all < 2 ^ 31 -> n = length offs ->
  (forall p, In p (object_slots oo offs) -> 0 <= p < 2 ^ 32) ->
  patch_object base size oo all first count k n img = foldg (patch_ptr base size) (object_slots oo offs) img.
Proof.
  intros base size oo all first count b. induction n as [|n IH]; intros k a offs img Ha Hf Hk Hf0 Hc Hz Hn H.
  - destruct offs; [reflexivity|discriminate].
  - destruct offs as [|o offs]; [discriminate|]. cbn [length] in Hn. cbn [patch_object object_slots map foldg].
    assert (Hlen : zlen all = zlen a + 1 + zlen offs + zlen b) by (rewrite Ha, zlen_app; cbn [app]; rewrite zlen_cons, zlen_app; lia).
    pose proof (zlen_nonneg _ a). pose proof (zlen_nonneg _ offs). pose proof (zlen_nonneg _ b). rewrite zlen_cons in Hc.
    unfold u32. rewrite !(Z.mod_small _ 4294967296) by lia. replace (k <? count) with true by lia. cbn [assert obind].
    unfold rd. replace (first + k) with (zlen a) by lia. rewrite Ha at 1. rewrite znth_app_r by lia. rewrite Z.sub_diag. cbn [app]. rewrite znth_0. cbn [obind].
    pose proof (H (oo + o) (or_introl eq_refl)). unfold u64. rewrite Z.mod_small by lia.
    destruct (patch_ptr base size img (oo + o)) as [img1| | |]; cbn [obind]; try reflexivity.
    apply (IH (k + 1) (a ++ [o]) offs img1); try lia.
    + rewrite Ha, <- app_assoc. reflexivity.
    + rewrite zlen_app, zlen_cons, zlen_nil. lia.
    + intros p Hp. apply H. right. exact Hp.
Qed.
Lemma patch_objects_fold : forall base size r s a b all n j img,
  all = a ++ sc_offsets s ++ b -> zlen all < 2 ^ 31 ->
  is_u64 (rl_offset r) -> is_u64 (sc_stride s) -> Forall is_u64 (sc_offsets s) -> sc_offsets s <> [] ->
  (forall p, In p (objs_slots (rl_offset r) (sc_stride s) (sc_offsets s) j n) -> p < 2 ^ 32) ->
  patch_objects base size (rtr r) (rts (zlen a) s) all (Z.of_nat j) n img =
  foldg (patch_ptr base size) (objs_slots (rl_offset r) (sc_stride s) (sc_offsets s) j n) img.
Proof.
  intros base size r s a b all. induction n as [|n IH]; intros j img Ha Hz Ho Hs Hf Hne H; cbn [patch_objects]; [reflexivity|].
  unfold objs_slots in *. cbn [seq flat_map] in *. rewrite foldg_app.
  assert (Hfirst : forall p, In p (object_slots (rl_offset r + Z.of_nat j * sc_stride s) (sc_offsets s)) -> 0 <= p < 2 ^ 32).
  { intros p Hp. split; [|apply H; apply in_or_app; auto]. unfold object_slots in Hp. apply in_map_iff in Hp. destruct Hp as [o [<- Hin]].
    rewrite Forall_forall in Hf. pose proof (Hf o Hin). unfold is_u64 in *. nia. }
  assert (Hoo : 0 <= rl_offset r + Z.of_nat j * sc_stride s < 2 ^ 32 /\ 0 <= Z.of_nat j * sc_stride s).
  { destruct (sc_offsets s) as [|o os]; [contradiction|]. pose proof (Hfirst _ (or_introl eq_refl)). inversion Hf; subst. unfold is_u64 in *. nia. }
  cbn [rtr rts rr_offset rs_stride rs_first rs_count]. unfold u64. rewrite (Z.mod_small (Z.of_nat j * _)) by (unfold is_u64 in *; lia). rewrite Z.mod_small by lia.
  assert (Hlen : zlen all = zlen a + zlen (sc_offsets s) + zlen b) by (rewrite Ha, !zlen_app; lia).
  pose proof (zlen_nonneg _ a). pose proof (zlen_nonneg _ (sc_offsets s)). pose proof (zlen_nonneg _ b).
  unfold u32 at 1. rewrite (Z.mod_small (zlen a)) by lia.
  rewrite (patch_object_fold base size _ all (zlen a) (zlen (sc_offsets s)) b _ 0 a (sc_offsets s) img) by (try lia; auto; unfold zlen; lia).
  destruct (foldg _ _ img); cbn [obind]; try reflexivity.
  replace (Z.of_nat j + 1) with (Z.of_nat (S j)) by lia. apply IH; auto. intros p Hp. apply H. apply in_or_app. auto.
Qed.
Lemma patch_all_fold : forall base size ss rs0 n i pre rs img, Forall schema_ok ss -> zlen (flat_map sc_offsets ss) < 2 ^ 31 -> zlen ss < 2 ^ 31 ->
  zlen rs0 < 2 ^ 31 -> rs0 = pre ++ rs -> i = zlen pre -> n = length rs ->
  Forall (fun r => 0 <= rl_handle r < zlen ss /\ is_u64 (rl_offset r)) rs ->
  (forall p, In p (slots ss rs) -> p < 2 ^ 32) ->
  patch_all base size (rt_schemas 0 ss) (flat_map sc_offsets ss) (map rtr rs0) i n img = foldg (patch_ptr base size) (slots ss rs) img.
Proof.
  intros base size ss rs0. induction n as [|n IH]; intros i pre rs img Hss Hof Hsz Hrz Hrs0 Hi Hn Hrs H.
  - destruct rs; [reflexivity|discriminate].
  - destruct rs as [|r rs]; [discriminate|]. cbn [length] in Hn. cbn [patch_all].
    assert (Hl : zlen rs0 = zlen pre + 1 + zlen rs) by (rewrite Hrs0, zlen_app, zlen_cons; lia).
    pose proof (zlen_nonneg _ pre). pose proof (zlen_nonneg _ rs).
    inversion Hrs as [|x y [Hh Ho] Hr]; subst x y. unfold slots in *. cbn [flat_map] in *. rewrite foldg_app.
    unfold rdA at 1. unfold u32 at 1. rewrite (Z.mod_small i) by lia. rewrite znth_map, Hrs0, znth_app_r by lia. replace (i - zlen pre) with 0 by lia. rewrite znth_0. cbn [obind].
    cbn [rtr rr_handle]. unfold u32 at 1. rewrite (Z.mod_small (rl_handle r)) by lia.
    destruct (znth_in _ ss (rl_handle r) Hh) as [s Es]. destruct (rt_schemas_nth ss 0 (rl_handle r) s Es) as [a [b [Eab En]]]. cbn [Z.add] in En.
    unfold rdA at 1. rewrite En. cbn [obind].
    assert (Hs : schema_ok s) by (rewrite Forall_forall in Hss; apply Hss; eapply znth_In; eauto). destruct Hs as [S1 [S2 S3]].
    assert (Hlen : zlen (flat_map sc_offsets ss) = zlen a + zlen (sc_offsets s) + zlen b) by (rewrite Eab, !zlen_app; lia).
    pose proof (zlen_nonneg _ a). pose proof (zlen_nonneg _ b).
    assert (0 < zlen (sc_offsets s)) by (destruct (sc_offsets s); [contradiction|rewrite zlen_cons; pose proof (zlen_nonneg _ l); lia]).
    cbn [rts rs_first]. unfold u32 at 1. rewrite (Z.mod_small (zlen a)) by lia. unfold rdA at 1.
    destruct (znth_in _ (flat_map sc_offsets ss) (zlen a) ltac:(lia)) as [o Eo]. rewrite Eo. cbn [obind].
    unfold reloc_slots at 1. rewrite Es. cbn [rr_nb]. 
    change (mk_rts (sc_stride s) (zlen a) (zlen (sc_offsets s))) with (rts (zlen a) s). change (mk_rtr (rl_handle r) (rl_offset r) (rl_nb r)) with (rtr r).
    change (patch_objects base size (rtr r) (rts (zlen a) s) (flat_map sc_offsets ss) 0) with (patch_objects base size (rtr r) (rts (zlen a) s) (flat_map sc_offsets ss) (Z.of_nat 0)).
    change (rr_nb (rtr r)) with (rl_nb r).
    rewrite (patch_objects_fold base size r s a b (flat_map sc_offsets ss) (Z.to_nat (rl_nb r)) 0 img Eab Hof Ho S1 S3 S2).
    + unfold objs_slots. destruct (foldg _ _ img) as [img1| | |]; cbn [obind]; try reflexivity. rewrite <- Hrs0.
      apply (IH (i + 1) (pre ++ [r]) rs img1); auto; try lia.
      * rewrite Hrs0, <- app_assoc. reflexivity.
      * rewrite zlen_app, zlen_cons, zlen_nil. lia.
      * intros p Hp. apply H. apply in_or_app. auto.
    + intros p Hp. apply H. apply in_or_app. left. unfold reloc_slots. rewrite Es. exact Hp.
Qed.

(* ---- saving and loading ---- *)
Lemma save_ok : forall start ss rs img, tables_ok ss rs -> Forall is_byte img -> zlen img < 2 ^ 32 -> 0 <= start ->
  slots_ok (zlen img) (slots ss rs) -> pointers_ok start img (slots ss rs) ->
  exists img', SaveFile start ss rs img =
    Ok (header_bytes (mk_header SIG0 SIG1 VERSION (zlen ss) (zlen (flat_map sc_offsets ss)) (zlen rs) (zlen img)) ++ img' ++
        flat_map rts_bytes (rt_schemas 0 ss) ++ flat_map (le_bytes 8) (flat_map sc_offsets ss) ++ flat_map reloc_bytes rs) /\
    zlen img' = zlen img /\ Forall is_byte img' /\
    (forall p, In p (slots ss rs) -> ptr_at img' p = if ptr_at img p =? 0 then 0 else ptr_at img p - start) /\
    (forall i, (forall p, In p (slots ss rs) -> ~ (p <= i < p + 8)) -> znth img' i = znth img i).
Proof.
  intros start ss rs img [T1 [T2 [T3 [T4 [T5 [T6 T7]]]]]] Hb Hz Hst Hsl Hp.
  destruct (foldg_ok (rel_ptr start (zlen img)) (fun v => v = 0 \/ start < v <= start + zlen img) (fun v => if v =? 0 then 0 else v - start) (zlen img))
    with (l := slots ss rs) (img := img) as [img' [A1 [A2 [A3 [A4 A5]]]]]; auto.
  { intros im p Hbi Hzi Hp0 Hp8 HC. apply rel_ptr_ok; auto. }
  exists img'. split; [|auto]. unfold SaveFile. rewrite make_relative_fold.
  - rewrite A1. cbn [obind]. rewrite (offset_table_ok ss T6). cbn [obind]. unfold front_ok. destruct rs; [contradiction|]. cbn [obind]. rewrite schema_table_flat. reflexivity.
  - exact T6.
  - eapply Forall_impl; [|exact T7]. cbn. tauto.
  - intros p Hin. destruct Hsl as [Hs _]. specialize (Hs p Hin). lia.
Qed.

Lemma read_app : forall a b n next live, n = zlen a -> file_read (mk_env (a ++ b) next live) n = (Some a, mk_env b next live).
Proof.
  intros a b n next live ->. unfold file_read. cbn [e_file e_next e_live]. rewrite zlen_app. pose proof (zlen_nonneg _ b).
  replace (zlen a <=? zlen a + zlen b) with true by lia. unfold zlen. rewrite Nat2Z.id, firstn_app, firstn_all, Nat.sub_diag. cbn [firstn]. rewrite app_nil_r.
  rewrite skipn_app, skipn_all, Nat.sub_diag. reflexivity.
Qed.
Lemma read_short : forall f n next live, zlen f < n -> file_read (mk_env f next live) n = (None, mk_env f next live).
Proof. intros f n next live H. unfold file_read. cbn [e_file]. replace (n <=? zlen f) with false by lia. reflexivity. Qed.
Lemma read_array_ok : forall A T (f : A -> list Z) (g : A -> T) (parse : list Z -> T) sz l rest next live,
  (forall a, In a l -> length (f a) = sz /\ parse (f a) = g a) -> zlen l < 2 ^ 31 -> Z.of_nat sz <= 24 ->
  ReadArray sz parse (zlen l) (mk_env (flat_map f l ++ rest) next live) =
  Ok (Some (next, map g l), mk_env rest (next + 1) (live ++ [next])).
Proof.
  intros A T f g parse sz l rest next live H Hz Hs. unfold ReadArray, alloc. cbn [e_file e_next e_live].
  assert (Hlen : zlen (flat_map f l) = zlen l * Z.of_nat sz).
  { clear Hz. induction l as [|a l IH]; [reflexivity|]. cbn [flat_map]. rewrite zlen_app, zlen_cons, IH by (intros; apply H; right; assumption).
    destruct (H a (or_introl eq_refl)) as [E _]. unfold zlen at 1. rewrite E. lia. }
  pose proof (zlen_nonneg _ l). unfold u32. rewrite (Z.mod_small (zlen l)) by lia. unfold u64. rewrite Z.mod_small by nia.
  rewrite read_app by lia. do 3 f_equal. replace (Z.to_nat (zlen l)) with (length l) by (unfold zlen; lia).
  rewrite <- (app_nil_r (flat_map f l)). rewrite chunks_flat by (intros; apply H; assumption). rewrite map_map. f_equal. apply map_ext_in. intros a Ha. apply H. exact Ha.
Qed.
Lemma read_array_short : forall T (parse : list Z -> T) sz nb f next live, 0 <= nb < 2 ^ 31 -> Z.of_nat sz <= 24 -> zlen f < nb * Z.of_nat sz ->
  ~ In next live ->
  ReadArray sz parse nb (mk_env f next live) = Ok (None, mk_env f (next + 1) live).
Proof.
  intros T parse sz nb f next live Hn Hs Hz Hl. unfold ReadArray, alloc. cbn [e_file e_next e_live]. unfold u32. rewrite (Z.mod_small nb) by lia.
  unfold u64. rewrite Z.mod_small by nia. rewrite read_short by lia. unfold free. cbn [e_live].
  replace (existsb (Z.eqb next) (live ++ [next])) with true by (symmetry; apply existsb_exists; exists next; split; [apply in_or_app; right; left; reflexivity|apply Z.eqb_refl]).
  cbn [obind e_file e_next]. do 3 f_equal. rewrite filter_app. cbn [filter]. rewrite Z.eqb_refl. cbn [negb]. rewrite app_nil_r.
  induction live as [|x live IH]; [reflexivity|]. cbn [filter]. destruct (Z.eqb_spec x next) as [->|E]; [exfalso; apply Hl; left; reflexivity|]. cbn [negb]. f_equal. apply IH. intros X. apply Hl. right. exact X.
Qed.

(* ---- any file ---- *)
Lemma filter_fresh : forall live b, ~ In b live -> filter (fun x => negb (x =? b)) live = live.
Proof.
  induction live as [|x live IH]; intros b H; [reflexivity|]. cbn [filter]. destruct (Z.eqb_spec x b) as [->|E]; [exfalso; apply H; left; reflexivity|].
  cbn [negb]. f_equal. apply IH. intros X. apply H. right. exact X.
Qed.
Lemma free_last : forall f n live b, ~ In b live -> free (mk_env f n (live ++ [b])) b = Ok (mk_env f n live).
Proof.
  intros f n live b H. unfold free. cbn [e_file e_next e_live].
  replace (existsb (Z.eqb b) (live ++ [b])) with true by (symmetry; apply existsb_exists; exists b; split; [apply in_or_app; right; left; reflexivity|apply Z.eqb_refl]).
  do 2 f_equal. rewrite filter_app, filter_fresh by exact H. cbn [filter]. rewrite Z.eqb_refl. apply app_nil_r.
Qed.
Lemma read_array_cases : forall T (parse : list Z -> T) sz nb f next live, Z.of_nat sz <= 24 -> ~ In next live ->
  (u32 nb * Z.of_nat sz <= zlen f /\ exists l, ReadArray sz parse nb (mk_env f next live) =
     Ok (Some (next, l), mk_env (skipn (Z.to_nat (u32 nb * Z.of_nat sz)) f) (next + 1) (live ++ [next]))) \/
  (zlen f < u32 nb * Z.of_nat sz /\ ReadArray sz parse nb (mk_env f next live) = Ok (None, mk_env f (next + 1) live)).
Proof.
  intros T parse sz nb f next live Hs Hn. unfold ReadArray, alloc. cbn [e_file e_next e_live].
  assert (0 <= u32 nb < 2 ^ 32) by (unfold u32; apply Z.mod_pos_bound; lia).
  assert (Hu : u64 (u32 nb * Z.of_nat sz) = u32 nb * Z.of_nat sz) by (unfold u64; apply Z.mod_small; nia). rewrite Hu.
  unfold file_read. cbn [e_file e_next e_live]. destruct (Z.leb_spec (u32 nb * Z.of_nat sz) (zlen f)).
  - left. split; [lia|]. eexists. reflexivity.
  - right. split; [lia|]. rewrite free_last by exact Hn. reflexivity.
Qed.
Lemma slice_firstn : forall A (l : list A) n off len, 0 <= off -> 0 <= len -> off + len <= n -> slice (firstn (Z.to_nat n) l) off len = slice l off len.
Proof.
  intros A l n off len H1 H2 H3. apply znth_ext. intros i. rewrite !znth_slice by lia. destruct ((0 <=? i) && (i <? len)) eqn:E; [|reflexivity].
  unfold znth. replace (off + i <? 0) with false by lia. rewrite <- (firstn_skipn (Z.to_nat n) l) at 2.
  destruct (Nat.lt_ge_cases (Z.to_nat (off + i)) (length (firstn (Z.to_nat n) l))) as [Hl|Hl].
  - rewrite nth_error_app1 by exact Hl. reflexivity.
  - rewrite firstn_length in Hl. assert (length l <= Z.to_nat (off + i))%nat by lia.
    rewrite (proj2 (nth_error_None _ _)) by (rewrite firstn_length; lia). symmetry. apply nth_error_None. rewrite firstn_skipn. lia.
Qed.
Lemma s32_u32 : forall z, u32 (s32 z) = u32 z.
Proof.
  intros z. unfold u32, s32. rewrite Zminus_mod, Z.mod_mod by lia. rewrite <- Zminus_mod. f_equal. lia.
Qed.
Lemma le_val4 : forall f off, Forall is_byte f -> 0 <= le_val (slice f off 4) < 2 ^ 32.
Proof.
  intros f off H. assert (Hs : Forall is_byte (slice f off 4)) by (unfold slice; auto using Forall_firstn, Forall_skipn).
  pose proof (le_val_range _ Hs). assert (zlen (slice f off 4) <= 4) by (unfold slice, zlen; rewrite firstn_length; lia).
  pose proof (Z.pow_le_mono_r 256 (zlen (slice f off 4)) 4 ltac:(lia) ltac:(lia)). change (256 ^ 4) with (2 ^ 32) in *. lia.
Qed.
Transparent le_bytes.
Lemma app_inj_len : forall A (a b c d : list A), length a = length c -> a ++ b = c ++ d -> a = c /\ b = d.
Proof.
  induction a as [|x a IH]; intros b c d Hl H; destruct c as [|y c]; try discriminate Hl; [auto|]. cbn [app] in H. injection H as -> H.
  destruct (IH b c d ltac:(cbn in Hl; lia) H) as [-> ->]. auto.
Qed.
Lemma magic_iff : forall f, Forall is_byte f -> 32 <= zlen f ->
  firstn 12 f = magic <-> (le_val (slice f 0 4) = SIG0 /\ le_val (slice f 4 4) = SIG1 /\ le_val (slice f 8 4) = VERSION).
Proof.
  intros f Hb Hz. assert (Hf : firstn 12 f = slice f 0 4 ++ slice f 4 4 ++ slice f 8 4).
  { unfold slice. change (Z.to_nat 0) with 0%nat. change (Z.to_nat 4) with 4%nat. change (Z.to_nat 8) with 8%nat. clear Hb.
    do 12 (destruct f as [|? f]; [cbn in Hz; lia|]). reflexivity. }
  assert (Hl : forall off, 0 <= off -> off + 4 <= 32 -> Forall is_byte (slice f off 4) /\ length (slice f off 4) = 4%nat).
  { intros off H1 H2. split; [unfold slice; auto using Forall_firstn, Forall_skipn|]. pose proof (slice_length _ f off 4 H1 ltac:(lia) ltac:(lia)) as X. unfold zlen in X. lia. }
  destruct (Hl 0 ltac:(lia) ltac:(lia)) as [B0 L0]. destruct (Hl 4 ltac:(lia) ltac:(lia)) as [B1 L1]. destruct (Hl 8 ltac:(lia) ltac:(lia)) as [B2 L2].
  assert (Hm : magic = le_bytes 4 SIG0 ++ le_bytes 4 SIG1 ++ le_bytes 4 VERSION) by reflexivity.
  rewrite Hf, Hm. split.
  - intros E. assert (E0 : slice f 0 4 = le_bytes 4 SIG0 /\ slice f 4 4 ++ slice f 8 4 = le_bytes 4 SIG1 ++ le_bytes 4 VERSION).
    { apply app_inj_len; [rewrite L0; reflexivity|exact E]. }
    destruct E0 as [E0 E']. assert (E1 : slice f 4 4 = le_bytes 4 SIG1 /\ slice f 8 4 = le_bytes 4 VERSION).
    { apply app_inj_len; [rewrite L1; reflexivity|exact E']. }
    destruct E1 as [E1 E2]. rewrite E0, E1, E2. repeat split; reflexivity.
  - intros [E0 [E1 E2]]. rewrite <- (le_bytes_val _ B0), <- (le_bytes_val _ B1), <- (le_bytes_val _ B2), L0, L1, L2, E0, E1, E2. reflexivity.
Qed.

Lemma skipn_skipn' : forall A (l : list A) a b, skipn a (skipn b l) = skipn (b + a) l.
Proof. intros A l a b. revert l. induction b as [|b IH]; intros l; [reflexivity|]. destruct l; [rewrite !skipn_nil; reflexivity|]. cbn [skipn Nat.add]. apply IH. Qed.
Lemma load_any : forall addr e, Forall is_byte (e_file e) -> env_ok e ->
  ((zlen (e_file e) < 32 \/ firstn 12 (e_file e) <> magic) /\
     exists f', LoadMemoryMappedDatabase addr e = Ok (None, mk_env f' (e_next e) (e_live e))) \/
  (32 <= zlen (e_file e) < full_length (e_file e) /\ firstn 12 (e_file e) = magic /\
     exists f' n, LoadMemoryMappedDatabase addr e = Ok (None, mk_env f' n (e_live e ++ leaked (e_next e) (e_file e)))) \/
  (32 <= zlen (e_file e) /\ full_length (e_file e) <= zlen (e_file e) /\ firstn 12 (e_file e) = magic /\
     ((exists img', LoadMemoryMappedDatabase addr e =
        Ok (Some (e_next e, img'), mk_env (skipn (Z.to_nat (full_length (e_file e))) (e_file e)) (e_next e + 4) (e_live e ++ [e_next e]))) \/
      LoadMemoryMappedDatabase addr e = Trap \/ LoadMemoryMappedDatabase addr e = UB \/ LoadMemoryMappedDatabase addr e = Fuel)).
Proof.
  intros addr [f next live] Hb He. cbn [e_file e_next e_live] in *. unfold env_ok in He. cbn [e_next e_live] in He.
  assert (Hfresh : forall k, 0 <= k -> ~ In (next + k) live) by (intros k Hk Hin; rewrite Forall_forall in He; specialize (He _ Hin); lia).
  assert (Hf0 : ~ In next live) by (rewrite <- (Z.add_0_r next); apply Hfresh; lia).
  remember (LoadMemoryMappedDatabase addr (mk_env f next live)) as R eqn:HR. unfold LoadMemoryMappedDatabase in HR. destruct (Z.le_gt_cases 32 (zlen f)) as [Hz|Hz].
  2: { left. split; [left; lia|]. rewrite read_short in HR by lia. eexists. exact HR. }
  unfold file_read at 1 in HR. cbn [e_file e_next e_live] in HR. replace (32 <=? zlen f) with true in HR by lia.
  assert (Hph : parse_header (firstn (Z.to_nat 32) f) = parse_header f) by (unfold parse_header; rewrite !slice_firstn by lia; reflexivity). rewrite Hph in HR.
  pose proof (magic_iff f Hb Hz) as Hm. cbv zeta in HR.
  change (h_version (parse_header f)) with (le_val (slice f 8 4)) in HR. change (h_sig0 (parse_header f)) with (le_val (slice f 0 4)) in HR. change (h_sig1 (parse_header f)) with (le_val (slice f 4 4)) in HR.
  destruct (Z.eqb_spec (le_val (slice f 8 4)) VERSION) as [Ev|Ev]; cbn [negb] in HR.
  2: { left. split; [right; tauto|]. eexists. exact HR. }
  destruct (Z.eqb_spec (le_val (slice f 0 4)) SIG0) as [E0|E0]; cbn [negb orb] in HR.
  2: { left. split; [right; tauto|]. eexists. exact HR. }
  destruct (Z.eqb_spec (le_val (slice f 4 4)) SIG1) as [E1|E1]; cbn [negb] in HR.
  2: { left. split; [right; tauto|]. eexists. exact HR. }
  right. assert (Hmag : firstn 12 f = magic) by tauto. clear Hm.
  set (nsize := le_val (slice f 24 8)). set (nsch := le_val (slice f 12 4)). set (noff := le_val (slice f 16 4)). set (nrel := le_val (slice f 20 4)).
  pose proof (le_val4 f 12 Hb) as Rsch. pose proof (le_val4 f 16 Hb) as Roff. pose proof (le_val4 f 20 Hb) as Rrel. fold nsch in Rsch. fold noff in Roff. fold nrel in Rrel.
  pose proof (ptr_at_range f 24 Hb) as Rsize. unfold ptr_at in Rsize. fold nsize in Rsize.
  assert (Hh : parse_header f = mk_header SIG0 SIG1 VERSION (s32 nsch) (s32 noff) (s32 nrel) nsize) by (unfold parse_header; rewrite Ev, E0, E1; reflexivity).
  rewrite Hh in HR. cbn [h_size h_schemas h_offsets h_relocs] in HR. clear Hh Hph.
  assert (Hlk : leaked next f = if zlen f <? 32 + nsize + 24 * nsch then [next] else if zlen f <? 32 + nsize + 24 * nsch + 8 * noff then [next; next + 1] else [next; next + 1; next + 2]).
  { unfold leaked. replace (zlen f <? 32) with false by lia. destruct (list_eq_dec Z.eq_dec (firstn 12 f) magic); [|contradiction]. reflexivity. }
  assert (Hfl : full_length f = 32 + nsize + 24 * nsch + 8 * noff + 24 * nrel) by reflexivity.
  rewrite Hlk, Hfl. clear Hlk Hfl. unfold alloc in HR. cbn [e_file e_next e_live] in HR.
  set (f1 := skipn (Z.to_nat 32) f) in *. assert (Z1 : zlen f1 = zlen f - 32) by (unfold f1, zlen in *; rewrite skipn_length; lia).
  unfold file_read at 1 in HR. cbn [e_file e_next e_live] in HR. destruct (Z.leb_spec nsize (zlen f1)) as [H1|H1].
  2: { left. split; [lia|]. split; [exact Hmag|]. exists f1, (next + 1). replace (zlen f <? 32 + nsize + 24 * nsch) with true by lia. exact HR. }
  set (f2 := skipn (Z.to_nat nsize) f1) in *. assert (Z2 : zlen f2 = zlen f - 32 - nsize) by (unfold f2, zlen in *; rewrite skipn_length; lia).
  assert (Usch : u32 (s32 nsch) = nsch) by (rewrite s32_u32; unfold u32; apply Z.mod_small; lia).
  assert (Uoff : u32 (s32 noff) = noff) by (rewrite s32_u32; unfold u32; apply Z.mod_small; lia).
  assert (Urel : u32 (s32 nrel) = nrel) by (rewrite s32_u32; unfold u32; apply Z.mod_small; lia).
  assert (N1 : ~ In (next + 1) (live ++ [next])).
  { intros X. apply in_app_or in X. destruct X as [X|[X|[]]]; [apply (Hfresh 1 ltac:(lia) X)|lia]. }
  assert (N2 : ~ In (next + 1 + 1) ((live ++ [next]) ++ [next + 1])).
  { intros X. apply in_app_or in X. destruct X as [X|[X|[]]]; [|lia]. apply in_app_or in X. destruct X as [X|[X|[]]]; [|lia]. apply (Hfresh 2); [lia|]. replace (next + 2) with (next + 1 + 1) by lia. exact X. }
  assert (N3 : ~ In (next + 1 + 1 + 1) (((live ++ [next]) ++ [next + 1]) ++ [next + 1 + 1])).
  { intros X. apply in_app_or in X. destruct X as [X|[X|[]]]; [|lia]. apply in_app_or in X. destruct X as [X|[X|[]]]; [|lia]. apply in_app_or in X. destruct X as [X|[X|[]]]; [|lia]. apply (Hfresh 3); [lia|]. replace (next + 3) with (next + 1 + 1 + 1) by lia. exact X. }
  destruct (read_array_cases rt_schema parse_schema 24 (s32 nsch) f2 (next + 1) (live ++ [next]) ltac:(lia) N1) as [[C1 [ss R1]]|[C1 R1]];
    rewrite Usch in *; rewrite R1 in HR; cbn [obind] in HR.
  2: { left. split; [lia|]. split; [exact Hmag|]. eexists. eexists. replace (zlen f <? 32 + nsize + 24 * nsch) with true by lia. exact HR. }
  set (f3 := skipn (Z.to_nat (nsch * Z.of_nat 24)) f2) in *. assert (Z3 : zlen f3 = zlen f - 32 - nsize - 24 * nsch) by (unfold f3, zlen in *; rewrite skipn_length; lia).
  destruct (read_array_cases Z le_val 8 (s32 noff) f3 (next + 1 + 1) ((live ++ [next]) ++ [next + 1]) ltac:(lia) N2) as [[C2 [os R2]]|[C2 R2]];
    rewrite Uoff in *; rewrite R2 in HR; cbn [obind] in HR.
  2: { left. split; [lia|]. split; [exact Hmag|]. eexists. eexists. replace (zlen f <? 32 + nsize + 24 * nsch) with false by lia.
       replace (zlen f <? 32 + nsize + 24 * nsch + 8 * noff) with true by lia. rewrite <- app_assoc in HR. exact HR. }
  set (f4 := skipn (Z.to_nat (noff * Z.of_nat 8)) f3) in *. assert (Z4 : zlen f4 = zlen f - 32 - nsize - 24 * nsch - 8 * noff) by (unfold f4, zlen in *; rewrite skipn_length; lia).
  destruct (read_array_cases rt_reloc parse_reloc 24 (s32 nrel) f4 (next + 1 + 1 + 1) (((live ++ [next]) ++ [next + 1]) ++ [next + 1 + 1]) ltac:(lia) N3) as [[C3 [rs R3]]|[C3 R3]];
    rewrite Urel in *; rewrite R3 in HR; cbn [obind] in HR.
  2: { left. split; [lia|]. split; [exact Hmag|]. eexists. eexists. replace (zlen f <? 32 + nsize + 24 * nsch) with false by lia.
       replace (zlen f <? 32 + nsize + 24 * nsch + 8 * noff) with false by lia. rewrite <- !app_assoc in HR. cbn [app] in HR. replace (next + 1 + 1) with (next + 2) in HR by lia. exact HR. }
  right. split; [lia|]. split; [lia|]. split; [exact Hmag|].
  destruct (patch_all _ _ _ _ _ _ _ _) as [img'| | |]; cbn [obind] in HR; [|auto|auto|auto]. left. exists img'.
  rewrite free_last in HR by exact N3. cbn [obind] in HR. rewrite free_last in HR by exact N2. cbn [obind] in HR. rewrite free_last in HR by exact N1. cbn [obind] in HR.
  rewrite HR. do 3 f_equal; [|lia]. unfold f4, f3, f2, f1. rewrite !skipn_skipn'. f_equal. lia.
Qed.

(* ---- exported files ---- *)
Opaque le_bytes.
Lemma rt_schemas_ok : forall ss first, Forall schema_ok ss -> 0 <= first -> first + zlen (flat_map sc_offsets ss) < 2 ^ 31 ->
  Forall (fun s => is_u64 (rs_stride s) /\ is_u64 (rs_first s) /\ is_u64 (rs_count s)) (rt_schemas first ss).
Proof.
  induction ss as [|s ss IH]; intros first H Hf Hz; cbn [rt_schemas]; [constructor|]. inversion H as [|x y [H1 [H2 H3]] Hr]; subst x y.
  cbn [flat_map] in Hz. rewrite zlen_app in Hz. pose proof (zlen_nonneg _ (sc_offsets s)). pose proof (zlen_nonneg _ (flat_map sc_offsets ss)). constructor.
  - cbn. unfold is_u64 in *. lia.
  - apply IH; [assumption|lia|lia].
Qed.
Lemma load_saved_bytes : forall addr start ss rs img rest next live file, tables_ok ss rs -> Forall is_byte img -> zlen img < 2 ^ 32 -> 0 <= start ->
  slots_ok (zlen img) (slots ss rs) -> pointers_ok start img (slots ss rs) ->
  SaveFile start ss rs img = Ok file ->
  0 <= addr next -> addr next + zlen img < 2 ^ 64 -> Forall (fun b => b < next) live ->
  exists img', LoadMemoryMappedDatabase addr (mk_env (file ++ rest) next live) = Ok (Some (next, img'), mk_env rest (next + 4) (live ++ [next])) /\
    moved start (addr next) (slots ss rs) img img' /\ Forall is_byte img'.
Proof.
  intros addr start ss rs img rest next live file HT Hb Hz Hst Hsl Hp Hs Ha0 Ha Hl.
  destruct (save_ok start ss rs img HT Hb Hz Hst Hsl Hp) as [im [E [I1 [I2 [I3 I4]]]]]. rewrite E in Hs. injection Hs as <-. clear E.
  destruct HT as [T1 [T2 [T3 [T4 [T5 [T6 T7]]]]]].
  destruct (foldg_ok (patch_ptr (addr next) (zlen img)) (fun v => v <= zlen img) (fun v => if v =? 0 then 0 else v + addr next) (zlen img))
    with (l := slots ss rs) (img := im) as [img' [A1 [A2 [A3 [A4 A5]]]]]; auto.
  { intros i p Hbi Hzi Hp0 Hp8 HC. apply patch_ptr_ok; auto. }
  { intros p Hin. rewrite (I3 p Hin). pose proof (zlen_nonneg _ img). destruct (Hp p Hin) as [X|X]; [rewrite X; cbn; lia|]. destruct (ptr_at img p =? 0); lia. }
  exists img'. split.
  - assert (Hfresh : forall k, 0 <= k -> ~ In (next + k) live) by (intros k Hk Hin; rewrite Forall_forall in Hl; specialize (Hl _ Hin); lia).
    unfold LoadMemoryMappedDatabase. rewrite <- !app_assoc. rewrite read_app by (rewrite header_zlen; reflexivity).
    pose proof (zlen_nonneg _ img). pose proof (zlen_nonneg _ ss). pose proof (zlen_nonneg _ rs). pose proof (zlen_nonneg _ (flat_map sc_offsets ss)).
    rewrite parse_header_ok by (unfold header_ok, is_u32, is_s32, is_u64, SIG0, SIG1, VERSION; cbn; lia). cbv zeta. cbn [h_version h_sig0 h_sig1 h_size h_schemas h_offsets h_relocs].
    rewrite !Z.eqb_refl. cbn [negb orb]. unfold alloc. cbn [e_file e_next e_live]. rewrite read_app by lia.
    rewrite <- (rt_schemas_zlen ss 0). pose proof (rt_schemas_ok ss 0 T6 ltac:(lia) ltac:(lia)) as Hrt. rewrite Forall_forall in Hrt.
    assert (Q1 : forall a, In a (rt_schemas 0 ss) -> length (rts_bytes a) = 24%nat /\ parse_schema (rts_bytes a) = a).
    { intros a Hin. split; [apply rts_bytes_length|apply parse_schema_ok; apply Hrt; exact Hin]. }
    assert (Q2 : forall a, In a (flat_map sc_offsets ss) -> length (le_bytes 8 a) = 8%nat /\ le_val (le_bytes 8 a) = a).
    { intros a Hin. split; [apply le_bytes_length|apply le8_val]. apply in_flat_map in Hin. destruct Hin as [s [Hs Hin]].
      rewrite Forall_forall in T6. destruct (T6 s Hs) as [_ [_ X]]. rewrite Forall_forall in X. auto. }
    assert (Q3 : forall r, In r rs -> length (reloc_bytes r) = 24%nat /\ parse_reloc (reloc_bytes r) = rtr r).
    { intros r Hin. rewrite Forall_forall in T7. destruct (T7 r Hin) as [X1 [X2 [X3 [X4 X5]]]]. split; [apply reloc_bytes_length; assumption|].
      apply parse_reloc_ok; auto. unfold is_s32. lia. }
    assert (Q0 : zlen (rt_schemas 0 ss) < 2 ^ 31) by (rewrite rt_schemas_zlen; lia).
    rewrite (read_array_ok rt_schema rt_schema rts_bytes (fun x => x) parse_schema 24 _ _ _ _ Q1 Q0 ltac:(lia)). cbn [obind].
    rewrite (read_array_ok Z Z (le_bytes 8) (fun x => x) le_val 8 _ _ _ _ Q2 T5 ltac:(lia)). cbn [obind].
    rewrite (read_array_ok reloc rt_reloc reloc_bytes rtr parse_reloc 24 _ _ _ _ Q3 T4 ltac:(lia)). cbn [obind]. rewrite !map_id.
    rewrite (patch_all_fold (addr next) (zlen img) ss rs _ 0 [] rs im T6 T5 T3 T4 eq_refl eq_refl).
    + rewrite A1. cbn [obind].
      rewrite free_last. cbn [obind]. rewrite free_last. cbn [obind]. rewrite free_last. cbn [obind].
      * do 3 f_equal. lia.
      * intros X. rewrite !in_app_iff in X. cbn [In] in X. destruct X as [X|[X|[]]]; [|lia]. apply (Hfresh 1); [lia|exact X].
      * intros X. rewrite !in_app_iff in X. cbn [In] in X. destruct X as [[X|[X|[]]]|[X|[]]]; try lia. apply (Hfresh 2); [lia|]. replace (next + 2) with (next + 1 + 1) by lia. exact X.
      * intros X. rewrite !in_app_iff in X. cbn [In] in X. destruct X as [[[X|[X|[]]]|[X|[]]]|[X|[]]]; try lia. apply (Hfresh 3); [lia|]. replace (next + 3) with (next + 1 + 1 + 1) by lia. exact X.
    + unfold zlen. lia.
    + eapply Forall_impl; [|exact T7]. cbn. tauto.
    + intros p Hin. destruct Hsl as [Hs _]. specialize (Hs p Hin). lia.
  - split; [|exact A3]. split; [lia|]. split.
    + intros p Hin. rewrite (A4 p Hin), (I3 p Hin). destruct (Z.eqb_spec (ptr_at img p) 0) as [X|X]; [reflexivity|].
      destruct (Hp p Hin) as [Y|Y]; [contradiction|]. replace (ptr_at img p - start =? 0) with false by lia. reflexivity.
    + intros i Hi. rewrite A5, I4 by exact Hi. reflexivity.
Qed.
Lemma load_saved : forall addr start ss rs img rest next live file, tables_ok ss rs -> Forall is_byte img -> zlen img < 2 ^ 32 -> 0 <= start ->
  slots_ok (zlen img) (slots ss rs) -> pointers_ok start img (slots ss rs) ->
  SaveFile start ss rs img = Ok file ->
  0 <= addr next -> addr next + zlen img < 2 ^ 64 -> Forall (fun b => b < next) live ->
  exists img', LoadMemoryMappedDatabase addr (mk_env (file ++ rest) next live) = Ok (Some (next, img'), mk_env rest (next + 4) (live ++ [next])) /\
    moved start (addr next) (slots ss rs) img img'.
Proof.
  intros addr start ss rs img rest next live file HT Hb Hz Hst Hsl Hp Hs Ha0 Ha Hl.
  destruct (load_saved_bytes addr start ss rs img rest next live file HT Hb Hz Hst Hsl Hp Hs Ha0 Ha Hl) as [img' [E [M _]]]. exists img'. split; assumption.
Qed.
Lemma saved_magic : forall h rest, h_sig0 h = SIG0 -> h_sig1 h = SIG1 -> h_version h = VERSION -> firstn 12 (header_bytes h ++ rest) = magic.
Proof. intros h rest E0 E1 E2. unfold header_bytes. rewrite E0, E1, E2. reflexivity. Qed.
Lemma load_truncated : forall addr start ss rs img next live file n, tables_ok ss rs -> Forall is_byte img -> zlen img < 2 ^ 32 -> 0 <= start ->
  slots_ok (zlen img) (slots ss rs) -> pointers_ok start img (slots ss rs) -> Forall (fun r => Forall is_byte (rl_pad0 r ++ rl_pad1 r)) rs ->
  SaveFile start ss rs img = Ok file -> (n < length file)%nat -> Forall (fun b => b < next) live ->
  exists e, LoadMemoryMappedDatabase addr (mk_env (firstn n file) next live) = Ok (None, e).
Proof.
  intros addr start ss rs img next live file n HT Hb Hz Hst Hsl Hp Hpad Hs Hn Hl.
  destruct (save_ok start ss rs img HT Hb Hz Hst Hsl Hp) as [im [E [I1 [I2 _]]]]. rewrite E in Hs. injection Hs as <-. clear E.
  destruct HT as [T1 [T2 [T3 [T4 [T5 [T6 T7]]]]]].
  set (h := mk_header SIG0 SIG1 VERSION (zlen ss) (zlen (flat_map sc_offsets ss)) (zlen rs) (zlen img)) in *.
  set (body := im ++ flat_map rts_bytes (rt_schemas 0 ss) ++ flat_map (le_bytes 8) (flat_map sc_offsets ss) ++ flat_map reloc_bytes rs) in *.
  assert (Hbytes : Forall is_byte (header_bytes h ++ body)).
  { unfold header_bytes, body, rts_bytes, reloc_bytes. repeat (apply Forall_app; split); auto using le_bytes_bytes; apply Forall_flat_map; apply Forall_forall; intros x Hx.
    - repeat (apply Forall_app; split); apply le_bytes_bytes.
    - apply le_bytes_bytes.
    - rewrite Forall_forall in Hpad. specialize (Hpad x Hx). apply Forall_app in Hpad. destruct Hpad. repeat (apply Forall_app; split); auto using le_bytes_bytes. }
  assert (Hflat : forall A (f : A -> list Z) sz l, (forall a, In a l -> length (f a) = sz) -> zlen (flat_map f l) = zlen l * Z.of_nat sz).
  { intros A f sz. induction l as [|a l IH]; intros H; [reflexivity|]. cbn [flat_map]. rewrite zlen_app, zlen_cons, IH by (intros; apply H; right; assumption).
    unfold zlen at 1. rewrite (H a (or_introl eq_refl)). lia. }
  assert (Hlen : zlen (header_bytes h ++ body) = 32 + zlen img + 24 * zlen ss + 8 * zlen (flat_map sc_offsets ss) + 24 * zlen rs).
  { unfold body. rewrite !zlen_app, header_zlen, (Hflat _ rts_bytes 24%nat) by (intros; apply rts_bytes_length).
    rewrite (Hflat _ (le_bytes 8) 8%nat) by (intros; apply le_bytes_length).
    rewrite (Hflat _ reloc_bytes 24%nat) by (intros r Hr; rewrite Forall_forall in T7; destruct (T7 r Hr) as [_ [_ [_ [X Y]]]]; apply reloc_bytes_length; assumption).
    rewrite rt_schemas_zlen. lia. }
  assert (Hzn : zlen (firstn n (header_bytes h ++ body)) = Z.of_nat n) by (unfold zlen; rewrite firstn_length; lia).
  assert (Hzl : Z.of_nat n < zlen (header_bytes h ++ body)) by (unfold zlen; lia).
  destruct (load_any addr (mk_env (firstn n (header_bytes h ++ body)) next live)) as [[_ [f' X]]|[[_ [_ [f' [k X]]]]|[X1 [X2 [X3 _]]]]]; cbn [e_file e_next e_live] in *.
  - apply Forall_firstn. exact Hbytes.
  - exact Hl.
  - eexists. exact X.
  - eexists. exact X.
  - exfalso. rewrite Hzn in *. unfold full_length in X2. replace n with (Z.to_nat (Z.of_nat n)) in X2 by lia. rewrite !slice_firstn in X2 by lia.
    pose proof (zlen_nonneg _ img). pose proof (zlen_nonneg _ ss). pose proof (zlen_nonneg _ rs). pose proof (zlen_nonneg _ (flat_map sc_offsets ss)).
    assert (Hok : header_ok h) by (unfold header_ok, h, is_u32, is_s32, is_u64, SIG0, SIG1, VERSION; cbn; lia).
    assert (Hph : parse_header (header_bytes h ++ body) = h).
    { rewrite <- (parse_header_ok h Hok) at 2. unfold parse_header.
      assert (Hsl' : forall off len, 0 <= off -> 0 <= len -> off + len <= 32 -> slice (header_bytes h ++ body) off len = slice (header_bytes h) off len).
      { intros off len A B C. rewrite <- (slice_firstn _ (header_bytes h ++ body) 32 off len A B C). reflexivity. }
      rewrite !Hsl' by lia. reflexivity. }
    assert (F24 : le_val (slice (header_bytes h ++ body) 24 8) = zlen img) by (change (h_size (parse_header (header_bytes h ++ body)) = zlen img); rewrite Hph; reflexivity).
    assert (U : forall off k, 0 <= k < 2 ^ 31 -> s32 (le_val (slice (header_bytes h ++ body) off 4)) = k -> le_val (slice (header_bytes h ++ body) off 4) = k).
    { intros off k Hk HE. pose proof (le_val4 (header_bytes h ++ body) off Hbytes) as R. assert (Q : u32 (s32 (le_val (slice (header_bytes h ++ body) off 4))) = k) by (rewrite HE; unfold u32; apply Z.mod_small; lia).
      rewrite s32_u32 in Q. unfold u32 in Q. rewrite Z.mod_small in Q by lia. exact Q. }
    rewrite F24 in X2.
    rewrite (U 12 (zlen ss) ltac:(lia)) in X2 by (change (h_schemas (parse_header (header_bytes h ++ body)) = zlen ss); rewrite Hph; reflexivity).
    rewrite (U 16 (zlen (flat_map sc_offsets ss)) ltac:(lia)) in X2 by (change (h_offsets (parse_header (header_bytes h ++ body)) = zlen (flat_map sc_offsets ss)); rewrite Hph; reflexivity).
    rewrite (U 20 (zlen rs) ltac:(lia)) in X2 by (change (h_relocs (parse_header (header_bytes h ++ body)) = zlen rs); rewrite Hph; reflexivity).
    lia.
Qed.
