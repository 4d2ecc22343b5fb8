(* Versioned binary: loading arbitrary bytes. *)
From Verif Require Import Base BaseProofs SearchModel SearchProofs RuntimeModel JsonLexModel JsonLexProofs JsonNumModel JsonNumProofs JsonObjModel JsonObjSpec JsonObjProofs JsonSaveProofs JsonStoreProofs VersBinModel VersBinSpec VersBinProofs VersBinCoreProofs.

Section Safe.
Variable E : list rtype.
Variable data : list Z.
Hypothesis HE : vb_types_ok E.
Hypothesis HN : enums_wide E.
Hypothesis HD : Forall is_byte data.
Definition sm : Prop := zlen data < 2 ^ 31 /\ Forall (fun b => b < 128) data.
Definition good (enough : Prop) (obj size : Z) (s : vstate) (o : outcome vstate) : Prop :=
  match o with
  | Ok s' => only (fun x => obj <= x < obj + size) (vs_mem s) (vs_mem s') /\ (sm -> vs_pos s <= vs_pos s' <= zlen data)
  | Trap => True
  | UB => ~ sm
  | Fuel => ~ (sm /\ enough)
  end.
Definition start (s : vstate) : Prop := sm -> 0 <= vs_pos s <= zlen data.
Lemma good_mono : forall (e1 e2 : Prop) obj size s o, good e1 obj size s o -> (sm -> e2 -> e1) -> good e2 obj size s o.
Proof. intros e1 e2 obj size s [s'| | |] H He; cbn in *; tauto. Qed.
Lemma good_trans : forall e obj size s o k, good e obj size s o ->
  (forall s1, zlen (vs_mem s1) = zlen (vs_mem s) -> (sm -> vs_pos s <= vs_pos s1 <= zlen data) -> good e obj size s1 (k s1)) -> good e obj size s (obind o k).
Proof.
  intros e obj size s [s1| | |] k H Hk; cbn [obind]; try exact H. destruct H as [H1 H2]. specialize (Hk s1 (proj1 H1) H2). destruct (k s1) as [s2| | |]; cbn in *; try tauto. destruct Hk as [K1 K2]. split; [exact (only_trans _ _ _ _ H1 K1)|]. intros Hs. specialize (H2 Hs). specialize (K2 Hs). lia.
Qed.
Lemma good_from : forall e obj size p q m o, good e obj size (mk_vs q m) o -> (sm -> p <= q) -> good e obj size (mk_vs p m) o.
Proof. intros e obj size p q m [s| | |] H Hp; cbn in *; try tauto. destruct H as [H1 H2]. split; [exact H1|]. intros Hs. specialize (H2 Hs). specialize (Hp Hs). lia. Qed.
Lemma good_wide : forall e obj size obj' size' s o, good e obj' size' s o -> obj <= obj' -> obj' + size' <= obj + size -> good e obj size s o.
Proof. intros e obj size obj' size' s [s1| | |] H H1 H2; cbn in *; try tauto. destruct H as [H H3]. split; [|exact H3]. eapply only_weak; [exact H|]. cbv beta. intros x Hx. lia. Qed.
Lemma le4 : forall l, length l = 4%nat -> Forall is_byte l -> 0 <= le_val l < 2 ^ 32 /\ (Forall (fun b => b < 128) l -> le_val l < 2 ^ 31).
Proof.
  intros l Hl HB. pose proof (le_val_range l HB) as HR. unfold zlen in HR. rewrite Hl in HR. change (256 ^ Z.of_nat 4) with (2 ^ 32) in HR. split; [exact HR|]. intros HS. destruct l as [|a [|b [|c [|d [|]]]]]; try discriminate.
  inversion HB as [|? ? Ha HB1]; inversion HB1 as [|? ? Hb HB2]; inversion HB2 as [|? ? Hc HB3]; inversion HB3 as [|? ? Hd HB4]; subst. inversion HS as [|? ? _ HS1]; inversion HS1 as [|? ? _ HS2]; inversion HS2 as [|? ? _ HS3]; inversion HS3 as [|? ? Hd' _]; subst. unfold is_byte in *. cbn [le_val]. change (2 ^ 31) with 2147483648. lia.
Qed.
Lemma slice_all : forall (P : Z -> Prop) (l : list Z) o n, Forall P l -> Forall P (slice l o n).
Proof. intros P l o n H. unfold slice. apply Forall_forall. intros x Hx. apply (proj1 (Forall_forall _ _) H). rewrite <- (firstn_skipn (Z.to_nat o) l). apply in_or_app. right. rewrite <- (firstn_skipn (Z.to_nat n) (skipn (Z.to_nat o) l)). apply in_or_app. left. exact Hx. Qed.
Lemma good_u32 : forall e obj size s pos k, start s -> (sm -> 0 <= pos) ->
  (forall v, 0 <= pos -> pos + 4 <= zlen data -> 0 <= v < 2 ^ 32 -> (sm -> v < 2 ^ 31) -> good e obj size s (k (v, pos + 4))) -> good e obj size s (obind (vb_u32 data pos) k).
Proof.
  intros e obj size s pos k Hst Hp Hk. unfold vb_u32, vb_read, assert. destruct (pos + 4 <=? zlen data) eqn:El; [|exact I]. cbn [obind]. destruct (pos <? 0) eqn:Ep; [cbn; intros Hs; specialize (Hp Hs); lia|]. cbn [obind fst snd].
  assert (HL : length (slice data pos 4) = 4%nat) by (pose proof (slice_length _ data pos 4 ltac:(lia) ltac:(lia) ltac:(lia)) as H; unfold zlen in H; lia). destruct (le4 _ HL (slice_all _ _ _ _ HD)) as [L1 L2]. apply Hk; try lia. intros [_ Hs]. apply L2, slice_all, Hs.
Qed.
Lemma good_seek : forall e obj size p m n, (sm -> 0 <= n < 2 ^ 31) -> good e obj size (mk_vs p m) (do q <- vb_seek data p n; Ok (mk_vs q m)).
Proof.
  intros e obj size p m n Hn. unfold vb_seek, assert. destruct (p + s32 n <=? zlen data) eqn:El; [|exact I]. cbn. split; [apply only_refl|]. intros Hs. specialize (Hn Hs). rewrite s32_small in * by exact Hn. lia.
Qed.
Lemma good_ok : forall e obj size s, start s -> good e obj size s (Ok s).
Proof. intros e obj size s Hs. cbn. split; [apply only_refl|]. intros H. specialize (Hs H). lia. Qed.
Lemma good_write : forall e obj size p q m bytes, block m obj size -> zlen bytes <= size -> (sm -> p <= q <= zlen data) -> good e obj size (mk_vs p m) (do m' <- wr_bytes m obj bytes; Ok (mk_vs q m')).
Proof.
  intros e obj size p q m bytes [B1 [B2 B3]] Hb Hq. destruct (wr_bytes m obj bytes) as [m'| | |] eqn:Ew; unfold wr_bytes in Ew; replace ((0 <=? obj) && (obj + zlen bytes <=? zlen m)) with true in Ew by lia; try discriminate. cbn. split; [|exact Hq].
  eapply only_weak; [apply (only_written m obj bytes m'); unfold wr_bytes; replace ((0 <=? obj) && (obj + zlen bytes <=? zlen m)) with true by lia; exact Ew|]. cbv beta. intros x Hx. lia.
Qed.
Lemma good_type : forall e t obj s dsz, 0 < rt_size t < 2 ^ 32 -> start s -> block (vs_mem s) obj (rt_size t) -> (sm -> 0 <= dsz < 2 ^ 31) -> good e obj (rt_size t) s (vb_LoadType data s obj t dsz).
Proof.
  intros e t obj [p m] dsz Ht Hst HB Hn. unfold vb_LoadType. destruct (rt_size t =? dsz); cbn [negb vs_pos vs_mem]; [|apply good_seek; exact Hn].
  unfold vb_read, assert. rewrite u32_small by lia. destruct (p + rt_size t <=? zlen data) eqn:El; [|exact I]. cbn [obind]. destruct (p <? 0) eqn:Ep; [cbn; intros Hs; specialize (Hst Hs); cbn in Hst; lia|]. cbn [obind fst snd].
  apply good_write; [exact HB|apply slice_le; lia|]. intros _. lia.
Qed.
Lemma good_enum : forall e t cs obj s dsz, strict cs -> 4 <= rt_size t -> start s -> block (vs_mem s) obj (rt_size t) -> (sm -> 0 <= dsz < 2 ^ 31) -> good e obj (rt_size t) s (vb_LoadEnum data s obj t cs dsz).
Proof.
  intros e t cs obj [p m] dsz Hcs Ht Hst HB Hn. unfold vb_LoadEnum. destruct (rt_size t =? dsz); cbn [negb vs_pos vs_mem]; [|apply good_seek; exact Hn].
  apply good_u32; [exact Hst|intros Hs; specialize (Hst Hs); cbn in Hst; lia|]. intros v Hp Hp4 Hv Hv'. cbn [fst snd]. destruct (lookup_ok _ cs v Hcs) as [c [Hc _]]. rewrite Hc. cbn [obind]. destruct c as [[h [nm x]]|].
  - apply good_write; [exact HB|rewrite le_bytes_zlen; lia|]. intros _. lia.
  - cbn. split; [apply only_refl|]. intros _. lia.
Qed.
Lemma good_elements : forall e (load : vstate -> Z -> Z -> outcome vstate) size p A es cnt, 0 < es -> is_u32 size -> (sm -> size < 2 ^ 31) ->
  (forall s i dsz, p = false -> start s -> 0 <= i < cnt -> block (vs_mem s) A (cnt * es) -> (sm -> 0 <= dsz < 2 ^ 31) -> good (e s) (A + i * es) es s (load s (A + i * es) dsz)) ->
  (forall s s1, vs_pos s <= vs_pos s1 -> e s -> e s1) ->
  forall n i s, start s -> 0 <= i -> i + Z.of_nat n <= cnt -> block (vs_mem s) A (cnt * es) -> good (e s) A (cnt * es) s (vb_load_elements data n load size p s (mk_iter A es (i * es) (cnt * es))).
Proof.
  intros e load size p A es cnt Hes Hsz Hsz' HL He. induction n as [|n IH]; intros i s Hst Hi Hn HB; [apply good_ok; exact Hst|]. cbn [vb_load_elements]. unfold array_add_empty, array_get, assert. cbn [it_pos it_size it_data]. pose proof HB as [B1 [B2 B3]].
  replace (i * es <? cnt * es) with true by nia. cbn [obind fst snd]. rewrite (u64_small (A + i * es)) by nia. unfold array_next. cbn [it_pos it_size it_data it_esize]. rewrite (u64_small (i * es + es)) by nia. replace (i * es + es) with ((i + 1) * es) by lia.
  assert (HK : forall v q, (sm -> vs_pos s <= q <= zlen data) -> (sm -> 0 <= v < 2 ^ 31) -> good (e s) A (cnt * es) s (do s0 <- (if p then Ok (mk_vs q (vs_mem s)) else load (mk_vs q (vs_mem s)) (A + i * es) v); vb_load_elements data n load size p s0 (mk_iter A es ((i + 1) * es) (cnt * es)))).
  { intros v q Hq Hv. destruct s as [ps m]. cbn [vs_pos vs_mem] in *. assert (Hst' : start (mk_vs q m)) by (intros Hs; specialize (Hst Hs); specialize (Hq Hs); cbn in *; lia). apply (good_from _ _ _ ps q); [|intros Hs; specialize (Hq Hs); lia].
    apply good_trans.
    - destruct p; [apply good_ok; exact Hst'|]. apply (good_wide _ _ _ (A + i * es) es); [|nia|nia]. eapply good_mono; [apply HL; [reflexivity|exact Hst'|lia|exact HB|exact Hv]|]. intros Hs. apply He. cbn. specialize (Hq Hs). lia.
    - intros s1 Hz Hp. eapply good_mono; [apply IH|].
      + intros Hs. specialize (Hp Hs). specialize (Hst' Hs). cbn in *. lia.
      + lia.
      + lia.
      + unfold block. rewrite Hz. exact HB.
      + intros Hs. apply He. cbn. specialize (Hq Hs). specialize (Hp Hs). cbn in Hp. lia. }
  destruct (size =? 0).
  - apply good_u32; [exact Hst|intros Hs; apply Hst, Hs|]. intros v Hp Hp4 Hv Hv'. cbn [fst snd]. apply HK; intros Hs; [lia|specialize (Hv' Hs); lia].
  - cbn [obind fst snd]. apply HK; intros Hs; [specialize (Hst Hs); lia|specialize (Hsz' Hs); unfold is_u32 in Hsz; lia].
Qed.
Lemma good_container : forall (e : vstate -> Prop) load p A es cnt t s dsz, 0 < es -> 0 <= cnt ->
  (forall s i dsz, p = false -> start s -> 0 <= i < cnt -> block (vs_mem s) A (cnt * es) -> (sm -> 0 <= dsz < 2 ^ 31) -> good (e s) (A + i * es) es s (load s (A + i * es) dsz)) ->
  (forall s s1, vs_pos s <= vs_pos s1 -> e s -> e s1) -> start s -> block (vs_mem s) A (cnt * es) -> (sm -> 0 <= dsz < 2 ^ 31) ->
  good (e s) A (cnt * es) s (vb_LoadContainer data load s (mk_iter A es 0 (cnt * es)) t p dsz cnt).
Proof.
  intros e load p A es cnt t [ps m] dsz Hes Hcnt HL He Hst HB Hd. unfold vb_LoadContainer. cbn [vs_pos vs_mem] in *.
  assert (Hq : forall k, (sm -> 0 <= ps + k) \/ k < 0) by (intros k; destruct (Z_lt_le_dec k 0); [right; assumption|left; intros Hs; specialize (Hst Hs); cbn in Hst; lia]).
  apply good_u32; [exact Hst|intros Hs; specialize (Hst Hs); exact (proj1 Hst)|]. intros hc P0 P1 V1 W1. cbn [fst snd]. apply good_u32; [exact Hst|intros _; lia|]. intros kh _ P2 V2 W2. cbn [fst snd]. apply good_u32; [exact Hst|intros _; lia|]. intros ks _ P3 V3 W3. cbn [fst snd].
  apply good_u32; [exact Hst|intros _; lia|]. intros vh _ P4 V4 W4. cbn [fst snd]. apply good_u32; [exact Hst|intros _; lia|]. intros vz _ P5 V5 W5. cbn [fst snd vs_pos vs_mem]. apply (good_from _ _ _ ps (ps + 4 + 4 + 4 + 4 + 4)); [|intros _; lia]. set (q := ps + 4 + 4 + 4 + 4 + 4) in *. assert (Hst' : start (mk_vs q m)) by (intros _; cbn; lia).
  destruct (negb (vh =? 0) && negb (vh =? rt_hash t)); [apply good_seek; exact Hd|]. cbv zeta. set (count := if cnt <? hc then cnt else hc). assert (Hc : 0 <= count <= cnt) by (unfold count; destruct (cnt <? hc) eqn:Ec; lia).
  apply good_trans.
  - change 0 with (0 * es) at 1. eapply good_mono; [apply (good_elements e); try assumption; try lia|]. intros _. apply He. cbn. lia.
  - intros [p1 m1] Hz Hp. cbn [vs_pos vs_mem] in *. set (bl := s32 (u32 (u32 (u32 ps + dsz) - u32 p1))). destruct ((bl >? 0) && negb (hc =? count)) eqn:Eb.
    + apply good_seek. intros _. assert (HR : - 2 ^ 31 <= bl < 2 ^ 31) by (unfold bl, s32; pose proof (Z.mod_pos_bound (u32 (u32 (u32 ps + dsz) - u32 p1) + 2 ^ 31) (2 ^ 32)); lia). lia.
    + apply good_ok. intros Hs. specialize (Hp Hs). cbn. lia.
Qed.
Lemma good_array : forall (e : vstate -> Prop) load f et cnt A s dsz, rf_count f = Some cnt -> nth_error E (rf_type f) = Some et -> is_u32 cnt -> 0 < A ->
  (forall s o dsz, rf_ptr f = false -> start s -> block (vs_mem s) o (rt_size et) -> (sm -> 0 <= dsz < 2 ^ 31) -> good (e s) o (rt_size et) s (load s o dsz)) ->
  (forall s s1, vs_pos s <= vs_pos s1 -> e s -> e s1) -> start s -> block (vs_mem s) A (vb_space f et) -> (sm -> 0 <= dsz < 2 ^ 31) ->
  good (e s) A (vb_space f et) s (vb_LoadFieldArray E data load s A f cnt dsz).
Proof.
  intros e load f et cnt A s dsz Hc Het Hcn HA HL He Hst HB Hd. unfold vb_LoadFieldArray, array_of, get_type. rewrite Het, !bind_Ok. unfold array_init, assert. cbn [af_is_ptr af_size af_count]. replace (A =? 0) with false by lia. cbn [negb]. rewrite !bind_Ok. unfold is_u32 in Hcn. rewrite (u32_small cnt) by lia.
  unfold vb_space in *. rewrite Hc in *. pose proof (proj2 HE _ _ Het) as [Hsz _]. set (es := if rf_ptr f then 8 else rt_size et) in *. assert (Hes : 0 < es < 2 ^ 32) by (unfold es; destruct (rf_ptr f); lia). pose proof HB as [B1 [B2 B3]]. rewrite (u64_small (cnt * es)) by nia.
  apply good_container; try assumption; try lia. intros s1 i dz Hp Hs1 Hi HB1 Hdz. assert (Hes' : es = rt_size et) by (unfold es; rewrite Hp; reflexivity). rewrite Hes' in *. apply HL; try assumption. destruct HB1 as [D1 [D2 D3]]. split; [nia|split; [nia|lia]].
Qed.
Lemma u32_cases : forall pos, vb_u32 data pos = Trap \/ (vb_u32 data pos = UB /\ pos < 0) \/ exists v, vb_u32 data pos = Ok (v, pos + 4) /\ 0 <= pos /\ pos + 4 <= zlen data /\ 0 <= v < 2 ^ 32 /\ (sm -> v < 2 ^ 31).
Proof.
  intros pos. unfold vb_u32, vb_read, assert. destruct (pos + 4 <=? zlen data) eqn:El; [|left; reflexivity]. cbn [obind]. right. destruct (pos <? 0) eqn:Ep; [left; split; [reflexivity|lia]|]. right. cbn [obind fst snd]. eexists. split; [reflexivity|].
  assert (HL : length (slice data pos 4) = 4%nat) by (pose proof (slice_length _ data pos 4 ltac:(lia) ltac:(lia) ltac:(lia)) as H; unfold zlen in H; lia). destruct (le4 _ HL (slice_all _ _ _ _ HD)) as [L1 L2]. split; [lia|]. split; [lia|]. split; [exact L1|]. intros [_ Hs]. apply L2, slice_all, Hs.
Qed.
Definition room (s : vstate) : nat := Z.to_nat (zlen data - vs_pos s).
Theorem good_load : forall n,
  (forall s obj ty t dsz th, nth_error E ty = Some t -> start s -> block (vs_mem s) obj (rt_size t) -> (sm -> 0 <= dsz < 2 ^ 31) -> good ((room s + 3 <= n)%nat) obj (rt_size t) s (vb_LoadObject E data no_load n s obj ty dsz th)) /\
  (forall s obj ty t end_pos, nth_error E ty = Some t -> is_class t = true -> start s -> block (vs_mem s) obj (rt_size t) -> good ((room s + 2 <= n)%nat) obj (rt_size t) s (vb_class_loop E data no_load n s obj ty end_pos)) /\
  (forall s obj ty t, nth_error E ty = Some t -> is_class t = true -> start s -> block (vs_mem s) obj (rt_size t) -> good ((room s + 1 <= n)%nat) obj (rt_size t) s (vb_LoadClassField E data no_load n s obj ty) /\
     forall s1, vb_LoadClassField E data no_load n s obj ty = Ok s1 -> sm -> vs_pos s + 12 <= vs_pos s1).
Proof.
  induction n as [|n [IHo [IHl IHf]]].
  - split; [intros; cbn; lia|]. split; [intros; cbn; lia|]. intros s obj ty t Ht Hc Hst HB. split; [cbn; lia|discriminate].
  - split; [|split].
    + intros [p m] obj ty t dsz th Ht Hst HB Hd. rewrite load_object_S. unfold get_type. rewrite Ht, bind_Ok. destruct (negb (th =? rt_hash t)); [apply good_seek; exact Hd|]. pose proof (proj2 HE _ _ Ht) as [Hsz _]. pose proof (proj1 HE _ _ Ht) as [_ HW]. destruct (rt_kind t) as [|fl cs|fa fs] eqn:Hk.
      * apply good_type; assumption.
      * apply good_enum; try assumption; [apply HW|eapply HN; eassumption].
      * eapply good_mono; [apply IHl; try assumption; unfold is_class; rewrite Hk; reflexivity|]. lia.
    + intros s obj ty t end_pos Ht Hc Hst HB. rewrite class_loop_S. destruct (u32 (vs_pos s) <? end_pos); [|apply good_ok; exact Hst]. destruct (IHf s obj ty t Ht Hc Hst HB) as [HG HP].
      destruct (vb_LoadClassField E data no_load n s obj ty) as [s1| | |] eqn:Ef; cbn [obind]; try (eapply good_mono; [exact HG|lia]). destruct HG as [G1 G2].
      assert (HS1 : good ((room s1 + 2 <= n)%nat) obj (rt_size t) s1 (vb_class_loop E data no_load n s1 obj ty end_pos)). { apply IHl; try assumption; [intros Hs; specialize (G2 Hs); specialize (Hst Hs); lia|]. unfold block. rewrite (proj1 G1). exact HB. }
      specialize (HP _ eq_refl). destruct (vb_class_loop E data no_load n s1 obj ty end_pos) as [s2| | |]; cbn in *; try tauto.
      * destruct HS1 as [K1 K2]. split; [exact (only_trans _ _ _ _ G1 K1)|]. intros Hs. specialize (G2 Hs). specialize (K2 Hs). lia.
      * intros [Hs Hr]. apply HS1. split; [exact Hs|]. specialize (HP Hs). specialize (G2 Hs). specialize (Hst Hs). unfold room in *. lia.
    + intros [p m] obj ty t Ht Hc Hst HB. rewrite class_field_S. cbn [vs_pos vs_mem].
      assert (HX : forall th h dsz, 0 <= p -> p + 12 <= zlen data -> (sm -> 0 <= dsz < 2 ^ 31) -> good ((room (mk_vs p m) + 1 <= S n)%nat) obj (rt_size t) (mk_vs (p + 12) m)
        (do field <- vb_find (S (length E)) E ty h;
         match field with
         | None => do q <- vb_seek data (p + 12) dsz; Ok (mk_vs q m)
         | Some f =>
             if skipped (rf_flags f) then do q <- vb_seek data (p + 12) dsz; Ok (mk_vs q m)
             else
             match rf_count f with
             | Some count =>
                 do t <- get_type E (rf_type f);
                 vb_LoadFieldArray E data (fun s o size => vb_LoadObject E data no_load n s o (rf_type f) size (rt_hash t)) (mk_vs (p + 12) m) (obj + rf_offset f) f count dsz
             | None => vb_LoadObject E data no_load n (mk_vs (p + 12) m) (obj + rf_offset f) (rf_type f) dsz th
             end
         end)).
      { intros th h dsz P0 P1 Hd. assert (Hlt : (ty < length E)%nat) by (apply nth_error_Some; congruence). rewrite (vb_find_ok E HE _ (S ty) ty t h Ht Hc) by lia. rewrite bind_Ok. destruct (find_field (S ty) E ty h) as [f|] eqn:Ef; [|apply good_seek; exact Hd]. destruct (skipped (rf_flags f)); [apply good_seek; exact Hd|].
        destruct (member_fits E HE _ _ _ _ (find_has E _ _ _ _ Ef) Ht) as [et [Het [_ [Ho [Hsp Hcn]]]]]. assert (Hst' : start (mk_vs (p + 12) m)) by (intros _; cbn; lia). destruct HB as [B1 [B2 B3]]. cbn [vs_mem] in *. pose proof (proj2 HE _ _ Het) as [Hsz _].
        assert (Hrm : (room (mk_vs p m) + 1 <= S n -> room (mk_vs (p + 12) m) + 3 <= n)%nat) by (unfold room; cbn [vs_pos]; lia).
        destruct (rf_count f) as [cnt|] eqn:Ec.
        - unfold get_type. rewrite Het, bind_Ok. apply (good_wide _ _ _ (obj + rf_offset f) (vb_space f et)); [|lia|lia]. eapply good_mono; [apply (good_array (fun s => (room s + 3 <= n)%nat)); try assumption; try lia|].
          + intros s o dz Hp Hs Hb Hdz. apply IHo; assumption.
          + intros s s1 Hp. unfold room. lia.
          + split; [lia|]. cbn [vs_mem]. split; [lia|lia].
          + intros _. exact Hrm.
        - unfold vb_space in Hsp. rewrite Ec in Hsp. apply (good_wide _ _ _ (obj + rf_offset f) (rt_size et)); [|lia|lia]. eapply good_mono; [apply IHo; try assumption|intros _; exact Hrm]. split; [lia|]. cbn [vs_mem]. split; lia. }
      cbv zeta.
      destruct (u32_cases p) as [->|[[-> Hp]|[th [-> [P0 [P1 [V1 W1]]]]]]]; cbn [obind fst snd]; [split; [exact I|discriminate]|split; [cbn; intros Hs; specialize (Hst Hs); cbn in Hst; lia|discriminate]|].
      destruct (u32_cases (p + 4)) as [->|[[-> Hp]|[h [-> [_ [P2 [V2 W2]]]]]]]; cbn [obind fst snd]; [split; [exact I|discriminate]|lia|].
      destruct (u32_cases (p + 4 + 4)) as [->|[[-> Hp]|[dsz [-> [_ [P3 [V3 W3]]]]]]]; cbn [obind fst snd]; [split; [exact I|discriminate]|lia|].
      replace (p + 4 + 4 + 4) with (p + 12) in * by lia. cbn [vs_pos vs_mem]. specialize (HX th h dsz P0 P3 (fun Hs => conj (proj1 V3) (W3 Hs))).
      match goal with |- good _ _ _ _ ?o /\ _ => set (r := o) end. assert (HX' : good ((room (mk_vs p m) + 1 <= S n)%nat) obj (rt_size t) (mk_vs (p + 12) m) r) by exact HX. clear HX. rename HX' into HX.
      assert (HG : good ((room (mk_vs p m) + 1 <= S n)%nat) obj (rt_size t) (mk_vs p m) r) by (apply (good_from _ _ _ p (p + 12)); [exact HX|intros _; lia]).
      split; [exact HG|]. intros s1 Hs1. rewrite Hs1 in HX. destruct HX as [_ HX]. intros Hs. specialize (HX Hs). cbn in HX. lia.
Qed.
End Safe.

Theorem load_safe : forall E data fuel pos mem object ty t, vb_types_ok E -> enums_wide E -> Forall is_byte data -> nth_error E ty = Some t -> block mem object (rt_size t) ->
  forall s, LoadVersionedBinary fuel E no_load data (mk_vs pos mem) object ty = Ok s -> zlen (vs_mem s) = zlen mem /\ forall x, ~ (object <= x < object + rt_size t) -> znth (vs_mem s) x = znth mem x.
Proof.
  intros E data fuel pos mem object ty t HE HN HD Ht HB s H. unfold LoadVersionedBinary in H. cbn [vs_pos vs_mem] in H.
  destruct (u32_cases data HD pos) as [Hr|[[Hr _]|[th [Hr [P0 [P1 [V1 W1]]]]]]]; rewrite Hr in H; cbn [obind fst snd] in H; try discriminate.
  destruct (u32_cases data HD (pos + 4)) as [Hr2|[[Hr2 _]|[h [Hr2 [_ [P2 [V2 W2]]]]]]]; rewrite Hr2 in H; cbn [obind fst snd] in H; try discriminate.
  destruct (u32_cases data HD (pos + 4 + 4)) as [Hr3|[[Hr3 _]|[dsz [Hr3 [_ [P3 [V3 W3]]]]]]]; rewrite Hr3 in H; cbn [obind fst snd] in H; try discriminate.
  destruct (good_load E data HE HN HD fuel) as [HG _]. specialize (HG (mk_vs (pos + 4 + 4 + 4) mem) object ty t dsz th Ht). rewrite H in HG. destruct HG as [HG _].
  - intros _. cbn. lia.
  - exact HB.
  - intros Hs. specialize (W3 Hs). lia.
  - exact HG.
Qed.
Theorem load_terminates : forall E data pos mem object ty t, vb_types_ok E -> enums_wide E -> Forall (fun b => 0 <= b < 128) data -> zlen data < 2 ^ 31 -> 0 <= pos -> nth_error E ty = Some t -> block mem object (rt_size t) ->
  forall fuel, (length data + 3 <= fuel)%nat ->
  LoadVersionedBinary fuel E no_load data (mk_vs pos mem) object ty = Trap \/
  exists pos' mem', LoadVersionedBinary fuel E no_load data (mk_vs pos mem) object ty = Ok (mk_vs pos' mem') /\ pos + 12 <= pos' <= zlen data.
Proof.
  intros E data pos mem object ty t HE HN HS Hd Hp Ht HB fuel Hf.
  assert (HD : Forall is_byte data) by (eapply Forall_impl; [|exact HS]; cbv beta; unfold is_byte; intros b Hb; lia).
  assert (Hsm : sm data) by (split; [exact Hd|]; eapply Forall_impl; [|exact HS]; cbv beta; lia).
  unfold LoadVersionedBinary. cbn [vs_pos vs_mem].
  destruct (u32_cases data HD pos) as [Hr|[[Hr Hx]|[th [Hr [P0 [P1 [V1 W1]]]]]]]; rewrite Hr; cbn [obind fst snd]; [left; reflexivity|lia|].
  destruct (u32_cases data HD (pos + 4)) as [Hr2|[[Hr2 Hx]|[h [Hr2 [_ [P2 [V2 W2]]]]]]]; rewrite Hr2; cbn [obind fst snd]; [left; reflexivity|lia|].
  destruct (u32_cases data HD (pos + 4 + 4)) as [Hr3|[[Hr3 Hx]|[dsz [Hr3 [_ [P3 [V3 W3]]]]]]]; rewrite Hr3; cbn [obind fst snd]; [left; reflexivity|lia|].
  destruct (good_load E data HE HN HD fuel) as [HG _]. specialize (HG (mk_vs (pos + 4 + 4 + 4) mem) object ty t dsz th Ht). 
  destruct (vb_LoadObject E data no_load fuel (mk_vs (pos + 4 + 4 + 4) mem) object ty dsz th) as [[q m]| | |].
  - right. exists q, m. split; [reflexivity|]. destruct HG as [_ HG]; [intros _; cbn; lia|exact HB|intros Hs; specialize (W3 Hs); lia|]. specialize (HG Hsm). cbn in HG. lia.
  - left. reflexivity.
  - exfalso. apply HG; [intros _; cbn; lia|exact HB|intros Hs; specialize (W3 Hs); lia|exact Hsm].
  - exfalso. apply HG; [intros _; cbn; lia|exact HB|intros Hs; specialize (W3 Hs); lia|]. split; [exact Hsm|]. unfold room, zlen. cbn [vs_pos]. lia.
Qed.
