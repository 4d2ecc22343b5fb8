(* Proofs about the binary database files. *)
From Verif Require Import Base BaseProofs Text HashModel HashSpec HashProofs Maps DatabaseModel NamesProofs MergeProofs MmapProofs BinaryModel BinarySpec.

Lemma Forall2_impl : forall A B (P Q : A -> B -> Prop), (forall a b, P a b -> Q a b) -> forall l m, Forall2 P l m -> Forall2 Q l m.
Proof. intros A B P Q H l m HF. induction HF; constructor; auto. Qed.

(* ---- disjoint writes ---- *)
Fixpoint write_all (l : list (Z * list Z)) (out : list Z) : outcome (list Z) :=
  match l with
  | [] => Ok out
  | (o, b) :: r => do out' <- wr_bytes out o b; write_all r out'
  end.
Definition apart (x y : Z * list Z) : Prop := fst x + zlen (snd x) <= fst y \/ fst y + zlen (snd y) <= fst x.
Definition inside (n : Z) (x : Z * list Z) : Prop := 0 <= fst x /\ fst x + zlen (snd x) <= n.
Lemma write_all_app : forall a b out, write_all (a ++ b) out = do out' <- write_all a out; write_all b out'.
Proof.
  induction a as [|[o b] a IH]; intros c out; cbn; [reflexivity|]. destruct (wr_bytes out o b); cbn; try reflexivity. apply IH.
Qed.
Lemma slice_splice_same : forall l o b, 0 <= o -> o + zlen b <= zlen l -> slice (splice l o b) o (zlen b) = b.
Proof.
  intros l o b H1 H2. pose proof (zlen_nonneg _ b) as Hb. apply znth_ext. intros i. rewrite znth_slice by lia.
  destruct ((0 <=? i) && (i <? zlen b)) eqn:E.
  - rewrite znth_splice by lia. replace ((o <=? o + i) && (o + i <? o + zlen b)) with true by lia. f_equal. lia.
  - symmetry. apply znth_none. lia.
Qed.
Lemma slice_splice_other : forall l o b p n, 0 <= o -> o + zlen b <= zlen l -> 0 <= p -> 0 <= n ->
  p + n <= o \/ o + zlen b <= p -> slice (splice l o b) p n = slice l p n.
Proof.
  intros l o b p n H1 H2 H3 H4 H5. apply znth_ext. intros i. rewrite !znth_slice by lia.
  destruct ((0 <=? i) && (i <? n)) eqn:E; [|reflexivity]. rewrite znth_splice by lia.
  replace ((o <=? p + i) && (p + i <? o + zlen b)) with false by lia. reflexivity.
Qed.
Lemma write_all_ok : forall l out, ForallOrdPairs apart l -> Forall (inside (zlen out)) l ->
  exists out', write_all l out = Ok out' /\ zlen out' = zlen out /\
    (forall o b, In (o, b) l -> slice out' o (zlen b) = b) /\
    (forall p n, 0 <= p -> 0 <= n -> Forall (fun x => p + n <= fst x \/ fst x + zlen (snd x) <= p) l -> slice out' p n = slice out p n).
Proof.
  induction l as [|[o b] l IH]; intros out Hd Hi.
  - exists out. split; [reflexivity|]. split; [reflexivity|]. split; [intros o b []|reflexivity].
  - inversion Hd as [|? ? Hd1 Hd2]; subst. inversion Hi as [|? ? Hi1 Hi2]; subst. unfold inside in Hi1. cbn [fst snd] in Hi1.
    cbn [write_all]. unfold wr_bytes. replace ((0 <=? o) && (o + zlen b <=? zlen out)) with true by lia. cbn [obind].
    assert (Hl : zlen (splice out o b) = zlen out) by (apply splice_zlen; lia).
    destruct (IH (splice out o b) Hd2) as [out' [E1 [E2 [E3 E4]]]]; [rewrite Hl; exact Hi2|].
    exists out'. split; [exact E1|]. split; [lia|]. split.
    + intros o' b' [H|H]; [|apply E3; exact H]. injection H as <- <-. rewrite E4.
      * apply slice_splice_same; lia.
      * lia.
      * apply zlen_nonneg.
      * rewrite Forall_forall in Hd1 |- *. intros [o' b'] H. specialize (Hd1 _ H). unfold apart in Hd1. cbn [fst snd] in *. lia.
    + intros p n Hp Hn H. inversion H as [|? ? Ha Hb]; subst. cbn [fst snd] in Ha. rewrite (E4 p n Hp Hn Hb). apply slice_splice_other; lia.
Qed.

(* ---- one table ---- *)
Section Table.
Context {T : Type} (tb : table_type T) (names : zmap name) (texts : zmap (list Z)).
Let P := dt_psize (tb_meta tb).
Definition coff (c : dbfield * nat) : Z := df_poff (fst c) + Z.of_nat (snd c) * df_psize (fst c).
Definition csize (c : dbfield * nat) : Z := df_psize (fst c).
(* the columns lie in the record and do not overlap *)
Definition cols_apart (cs : list (dbfield * nat)) : Prop :=
  ForallOrdPairs (fun c d => coff c + csize c <= coff d \/ coff d + csize d <= coff c) cs.
Definition cols_inside (cs : list (dbfield * nat)) : Prop := Forall (fun c => 0 <= coff c /\ 0 < csize c /\ coff c + csize c <= P) cs.

Definition packed (r : T) (c : dbfield * nat) : outcome (list Z) :=
  do x <- tb_get tb r (df_member (fst c)) (snd c); pack_cell (fst c) x.
(* what happens to one record through a file *)
Fixpoint trip (r : T) (cs : list (dbfield * nat)) (a : T) : outcome T :=
  match cs with
  | [] => Ok a
  | c :: cs' =>
      do b <- packed r c;
      if zlen b =? csize c then
        do a' <- tb_set tb a (df_member (fst c)) (snd c) (unpack_cell names texts (fst c) b); trip r cs' a'
      else UB
  end.
Definition bytes_of (r : T) (c : dbfield * nat) : list Z := match packed r c with Ok b => b | _ => [] end.
Fixpoint row_writes (c : dbfield * nat) (i : Z) (rows : list T) : list (Z * list Z) :=
  match rows with [] => [] | r :: rs => (i * P + coff c, bytes_of r c) :: row_writes c (i + 1) rs end.
Definition all_writes (cs : list (dbfield * nat)) (rows : list T) := flat_map (fun c => row_writes c 0 rows) cs.
Definition packable (cs : list (dbfield * nat)) (r : T) : Prop := forall c, In c cs -> exists b, packed r c = Ok b /\ zlen b = csize c.

Lemma trip_packable : forall r cs a a', trip r cs a = Ok a' -> packable cs r.
Proof.
  induction cs as [|c cs IH]; intros a a' H; [intros c []|]. cbn [trip] in H. destruct (packed r c) as [b| | |] eqn:E; cbn [obind] in H; try discriminate.
  destruct (Z.eqb_spec (zlen b) (csize c)); [|discriminate]. destruct (tb_set tb a _ _ _) as [a1| | |]; cbn [obind] in H; try discriminate.
  intros c' [<-|Hc]; [exists b; auto|exact (IH _ _ H c' Hc)].
Qed.
Lemma pack_column_writes : forall c rows i out, (forall r, In r rows -> exists b, packed r c = Ok b) ->
  pack_column tb (fst c) (snd c) rows (i * P + coff c) P out = write_all (row_writes c i rows) out.
Proof.
  intros c rows. induction rows as [|r rows IH]; intros i out H; [reflexivity|]. cbn [pack_column row_writes write_all].
  destruct (H r (or_introl eq_refl)) as [b Hb]. assert (Hbo : bytes_of r c = b) by (unfold bytes_of; rewrite Hb; reflexivity). rewrite Hbo.
  unfold packed in Hb. destruct (tb_get tb r _ _) as [x| | |]; cbn [obind] in *; try discriminate. rewrite Hb. cbn [obind].
  destruct (wr_bytes out (i * P + coff c) b) as [out'| | |]; cbn [obind]; try reflexivity.
  replace (i * P + coff c + P) with ((i + 1) * P + coff c) by ring. apply IH. intros r' Hr. apply H. right. exact Hr.
Qed.
Lemma pack_columns_writes : forall cs rows out, (forall r, In r rows -> packable cs r) ->
  pack_columns tb cs rows out = write_all (all_writes cs rows) out.
Proof.
  induction cs as [|c cs IH]; intros rows out H; [reflexivity|]. cbn [pack_columns all_writes flat_map]. destruct c as [f j].
  rewrite write_all_app. change (df_poff f + Z.of_nat j * df_psize f) with (coff (f, j)).
  replace (coff (f, j)) with (0 * P + coff (f, j)) by ring. fold P.
  pose proof (pack_column_writes (f, j) rows 0 out) as E. cbn [fst snd] in E. rewrite E.
  2:{ intros r Hr. destruct (H r Hr (f, j) (or_introl eq_refl)) as [b [Hb _]]. exists b. exact Hb. }
  destruct (write_all (row_writes (f, j) 0 rows) out) as [o| | |]; cbn [obind]; try reflexivity.
  apply IH. intros r Hr c Hc. apply (H r Hr). right. exact Hc.
Qed.
Lemma row_writes_In : forall c rows i o b, In (o, b) (row_writes c i rows) ->
  exists k r, 0 <= k < zlen rows /\ znth rows k = Some r /\ o = (i + k) * P + coff c /\ b = bytes_of r c.
Proof.
  intros c rows. induction rows as [|r rows IH]; intros i o b H; [destruct H|]. cbn [row_writes] in H. destruct H as [H|H].
  - injection H as <- <-. exists 0, r. rewrite zlen_cons. pose proof (zlen_nonneg _ rows). split; [lia|]. split; [apply znth_0|]. split; [f_equal; f_equal; lia|reflexivity].
  - destruct (IH (i + 1) o b H) as [k [r' [Hk [Hz [-> ->]]]]]. exists (k + 1), r'. rewrite zlen_cons. split; [lia|]. split; [rewrite znth_cons by lia; replace (k + 1 - 1) with k by lia; exact Hz|]. split; [f_equal; f_equal; lia|reflexivity].
Qed.
Lemma row_writes_at : forall c rows i k r, znth rows k = Some r -> In ((i + k) * P + coff c, bytes_of r c) (row_writes c i rows).
Proof.
  intros c rows. induction rows as [|r0 rows IH]; intros i k r H; [destruct (znth_range _ _ _ _ H) as [H1 H2]; rewrite zlen_nil in H2; lia|].
  destruct (znth_range _ _ _ _ H) as [Hk _]. cbn [row_writes]. destruct (Z.eq_dec k 0) as [->|Hn].
  - rewrite znth_0 in H. injection H as <-. left. f_equal. f_equal. f_equal. lia.
  - right. rewrite znth_cons in H by lia. replace (i + k) with (i + 1 + (k - 1)) by lia. apply IH. exact H.
Qed.
Lemma row_writes_apart : forall c rows i, (forall r, In r rows -> zlen (bytes_of r c) = csize c) -> 0 <= coff c -> 0 < csize c -> coff c + csize c <= P ->
  ForallOrdPairs apart (row_writes c i rows).
Proof.
  intros c rows. induction rows as [|r rows IH]; intros i H H1 H2 H3; cbn [row_writes]; [apply FOP_nil|]. apply FOP_cons.
  - apply Forall_forall. intros [o b] Hin. destruct (row_writes_In _ _ _ _ _ Hin) as [k [r' [Hk [Hz [-> ->]]]]].
    left. cbn [fst snd]. rewrite (H r (or_introl eq_refl)). nia.
  - apply IH; auto. intros r' Hr. apply H. right. exact Hr.
Qed.
Lemma all_writes_apart : forall cs rows, (forall r, In r rows -> packable cs r) -> cols_apart cs -> cols_inside cs ->
  ForallOrdPairs apart (all_writes cs rows).
Proof.
  induction cs as [|c cs IH]; intros rows H Ha Hi; [apply FOP_nil|]. unfold cols_apart in Ha. inversion Ha as [|? ? Ha1 Ha2]; subst.
  unfold cols_inside in Hi. inversion Hi as [|? ? [Hi1 [Hi2 Hi3]] Hi4]; subst. cbn [all_writes flat_map].
  assert (Hlen : forall d, In d (c :: cs) -> forall r, In r rows -> zlen (bytes_of r d) = csize d).
  { intros d Hd r Hr. destruct (H r Hr d Hd) as [b [Hb Hl]]. unfold bytes_of. rewrite Hb. exact Hl. }
  apply FOP_app.
  - apply row_writes_apart; auto. apply Hlen. left. reflexivity.
  - apply IH; auto. intros r Hr d Hd. apply (H r Hr). right. exact Hd.
  - intros [o1 b1] [o2 b2] Hx Hy. apply in_flat_map in Hy. destruct Hy as [d [Hd Hy]].
    destruct (row_writes_In _ _ _ _ _ Hx) as [k1 [r1 [Hk1 [Hz1 [-> ->]]]]]. destruct (row_writes_In _ _ _ _ _ Hy) as [k2 [r2 [Hk2 [Hz2 [-> ->]]]]].
    unfold apart. cbn [fst snd]. rewrite (Hlen c (or_introl eq_refl) r1 (znth_In _ _ _ _ Hz1)). rewrite (Hlen d (or_intror Hd) r2 (znth_In _ _ _ _ Hz2)).
    rewrite Forall_forall in Ha1, Hi4. specialize (Ha1 d Hd). destruct (Hi4 d Hd) as [Hd1 [Hd2 Hd3]]. cbn beta in Ha1.
    destruct (Z.lt_trichotomy k1 k2) as [L|[L|L]]; [left; nia| |right; nia]. subst k2. lia.
Qed.
Lemma all_writes_inside : forall cs rows, (forall r, In r rows -> packable cs r) -> cols_inside cs -> Forall (inside (zlen rows * P)) (all_writes cs rows).
Proof.
  intros cs rows H Hi. apply Forall_forall. intros [o b] Hin. apply in_flat_map in Hin. destruct Hin as [d [Hd Hin]].
  destruct (row_writes_In _ _ _ _ _ Hin) as [k [r [Hk [Hz [-> ->]]]]]. unfold cols_inside in Hi. rewrite Forall_forall in Hi. destruct (Hi d Hd) as [H1 [H2 H3]].
  destruct (H r (znth_In _ _ _ _ Hz) d Hd) as [b [Hb Hl]]. unfold inside, bytes_of. rewrite Hb. cbn [fst snd]. rewrite Hl. nia.
Qed.
Lemma unpack_column_ok : forall c data rows0 rows accs i res, 0 <= coff c -> 0 < csize c ->
  (forall k r, znth rows0 k = Some r -> zlen (bytes_of r c) = csize c /\ k * P + coff c + csize c <= zlen data /\ slice data (k * P + coff c) (csize c) = bytes_of r c) ->
  (forall k, znth rows k = znth rows0 (i + k) \/ zlen rows <= k \/ k < 0) -> 0 <= i -> 0 <= P ->
  Forall2 (fun r a => tb_set tb a (df_member (fst c)) (snd c) (unpack_cell names texts (fst c) (bytes_of r c)) = Ok (res r a)) rows accs ->
  exists accs', unpack_column tb names texts (fst c) (snd c) accs (i * P + coff c) P data = Ok accs' /\
    Forall2 (fun r a' => exists a, a' = res r a /\ In (r, a) (combine rows accs)) rows accs'.
Proof.
  intros c data rows0 rows. induction rows as [|r rows IH]; intros accs i res Hc1 Hc2 Hd Hrow Hi HP H; inversion H as [|? a ? accs1 H1 H2]; subst.
  - exists []. split; [reflexivity|constructor].
  - assert (Hz : znth rows0 i = Some r).
    { destruct (Hrow 0) as [E|[E|E]]; [|rewrite zlen_cons in E; pose proof (zlen_nonneg _ rows); lia|lia]. rewrite znth_0 in E. rewrite Z.add_0_r in E. symmetry. exact E. }
    destruct (Hd i r Hz) as [Hl [Hin Hs]]. cbn [unpack_column]. unfold rd_bytes. change (df_psize (fst c)) with (csize c).
    replace ((0 <=? i * P + coff c) && (0 <=? csize c) && (i * P + coff c + csize c <=? zlen data)) with true by nia. cbn [obind].
    rewrite Hs, H1. cbn [obind]. replace (i * P + coff c + P) with ((i + 1) * P + coff c) by ring.
    destruct (IH accs1 (i + 1) res Hc1 Hc2 Hd) as [accs' [E1 E2]]; try lia; [|exact H2|].
    { intros k. destruct (Z.ltb_spec k 0); [right; right; lia|]. destruct (Hrow (k + 1)) as [E|[E|E]].
      - left. rewrite znth_cons in E by lia. replace (k + 1 - 1) with k in E by lia. rewrite E. f_equal. lia.
      - right. left. rewrite zlen_cons in E. lia.
      - lia. }
    rewrite E1. cbn [obind]. exists (res r a :: accs'). split; [reflexivity|]. constructor.
    + exists a. split; [reflexivity|]. left. reflexivity.
    + eapply Forall2_impl; [|exact E2]. intros r' a' [a0 [Ha Hin']]. exists a0. split; [exact Ha|right; exact Hin'].
Qed.
Lemma unpack_columns_ok : forall norm data rows cs accs, cols_inside cs -> 0 <= P ->
  (forall c, In c cs -> forall k r, znth rows k = Some r -> zlen (bytes_of r c) = csize c /\ k * P + coff c + csize c <= zlen data /\ slice data (k * P + coff c) (csize c) = bytes_of r c) ->
  Forall2 (fun r a => trip r cs a = Ok (norm r)) rows accs ->
  unpack_columns tb names texts cs accs data = Ok (map norm rows).
Proof.
  intros norm data rows cs. induction cs as [|c cs IH]; intros accs Hi HP Hd H.
  - cbn [unpack_columns]. f_equal. clear - H. induction H as [|r a rows accs H1 H2 IH]; [reflexivity|]. cbn. cbn [trip] in H1. injection H1 as ->. f_equal. exact IH.
  - unfold cols_inside in Hi. inversion Hi as [|? ? [Hi1 [Hi2 Hi3]] Hi4]; subst. cbn [unpack_columns]. destruct c as [f j].
    change (df_poff f + Z.of_nat j * df_psize f) with (coff (f, j)). replace (coff (f, j)) with (0 * P + coff (f, j)) by ring. fold P.
    set (res := fun r a => match tb_set tb a (df_member f) j (unpack_cell names texts f (bytes_of r (f, j))) with Ok a' => a' | _ => a end).
    assert (Hstep : forall r a, trip r ((f, j) :: cs) a = Ok (norm r) ->
      tb_set tb a (df_member f) j (unpack_cell names texts f (bytes_of r (f, j))) = Ok (res r a) /\ trip r cs (res r a) = Ok (norm r)).
    { intros r a E. cbn [trip fst snd] in E. destruct (packed r (f, j)) as [b| | |] eqn:Eb; cbn [obind] in E; try discriminate.
      destruct (zlen b =? csize (f, j)); [|discriminate]. assert (Hb : bytes_of r (f, j) = b) by (unfold bytes_of; rewrite Eb; reflexivity).
      unfold res. rewrite Hb. destruct (tb_set tb a (df_member f) j (unpack_cell names texts f b)) as [a'| | |]; cbn [obind] in E; try discriminate. split; [reflexivity|exact E]. }
    destruct (unpack_column_ok (f, j) data rows rows accs 0 res Hi1 Hi2 (Hd (f, j) (or_introl eq_refl))) as [accs' [E1 E2]].
    + intros k. left. reflexivity.
    + lia.
    + exact HP.
    + eapply Forall2_impl; [|exact H]. intros r a E. cbn [fst snd]. apply (Hstep r a E).
    + cbn [fst snd] in E1. rewrite E1. cbn [obind]. apply IH; auto.
      * intros c Hc. apply Hd. right. exact Hc.
      * assert (Hc : forall r a, In (r, a) (combine rows accs) -> trip r ((f, j) :: cs) a = Ok (norm r)).
        { clear - H. induction H as [|r a rows accs H1 H2 IH]; intros r' a'; [intros []|]. cbn [combine In]. intros [E|E]; [injection E as <- <-; exact H1|apply IH; exact E]. }
        eapply Forall2_impl; [|exact E2]. intros r a' [a [-> Hin]]. apply Hstep. apply Hc. exact Hin.
Qed.
(* packing a table and unpacking it gives each record as one trip does *)
Lemma table_round_trip : forall norm rows data0, let cs := columns (tb_meta tb) in
  cols_apart cs -> cols_inside cs -> 0 <= P -> zlen data0 = zlen rows * P ->
  (forall r, In r rows -> trip r cs (tb_new tb) = Ok (norm r)) ->
  exists data, PackTable tb rows data0 = Ok data /\ zlen data = zlen rows * P /\
    UnpackTable tb names texts (repeat (tb_new tb) (length rows)) data = Ok (map norm rows).
Proof.
  intros norm rows data0 cs Ha Hi HP Hl Ht. assert (Hp : forall r, In r rows -> packable cs r) by (intros r Hr; exact (trip_packable _ _ _ _ (Ht r Hr))).
  unfold PackTable. fold cs. rewrite pack_columns_writes by exact Hp.
  destruct (write_all_ok (all_writes cs rows) data0) as [data [E1 [E2 [E3 _]]]].
  - apply all_writes_apart; assumption.
  - rewrite Hl. apply all_writes_inside; assumption.
  - exists data. split; [exact E1|]. split; [lia|]. unfold UnpackTable. fold cs. apply unpack_columns_ok; auto.
    + intros c Hc k r Hz. destruct (Hp r (znth_In _ _ _ _ Hz) c Hc) as [b [Hb Hlb]]. assert (Hbo : bytes_of r c = b) by (unfold bytes_of; rewrite Hb; reflexivity).
      split; [rewrite Hbo; exact Hlb|]. unfold cols_inside in Hi. rewrite Forall_forall in Hi. destruct (Hi c Hc) as [H1 [H2 H3]].
      pose proof (znth_range _ _ _ _ Hz) as Hk. split; [nia|]. rewrite <- Hlb, <- Hbo. apply E3. unfold all_writes. apply in_flat_map. exists c. split; [exact Hc|].
      replace k with (0 + k) by lia. apply row_writes_at. exact Hz.
    + clear - Ht. induction rows as [|r rows IH]; [constructor|]. cbn [length repeat]. constructor; [apply Ht; left; reflexivity|]. apply IH. intros r' Hr. apply Ht. right. exact Hr.
Qed.
End Table.

(* the layouts of all tables are sound: checked by computation *)
Definition apart_b (c d : dbfield * nat) : bool := (coff c + csize c <=? coff d) || (coff d + csize d <=? coff c).
Fixpoint all_apart_b (l : list (dbfield * nat)) : bool := match l with [] => true | c :: r => forallb (apart_b c) r && all_apart_b r end.
Definition layout_ok {T} (tb : table_type T) : Prop :=
  cols_apart (columns (tb_meta tb)) /\ cols_inside tb (columns (tb_meta tb)) /\ 0 < dt_psize (tb_meta tb) <= 40.
Lemma all_apart_b_ok : forall l, all_apart_b l = true -> cols_apart l.
Proof.
  induction l as [|c l IH]; intros H; [apply FOP_nil|]. cbn [all_apart_b] in H. apply andb_true_iff in H. destruct H as [H1 H2].
  apply FOP_cons; [|apply IH; exact H2]. apply Forall_forall. intros d Hd. rewrite forallb_forall in H1. specialize (H1 d Hd). unfold apart_b in H1. lia.
Qed.
Lemma layout_check : forall T (tb : table_type T), all_apart_b (columns (tb_meta tb)) = true ->
  forallb (fun c => (0 <=? coff c) && (0 <? csize c) && (coff c + csize c <=? dt_psize (tb_meta tb))) (columns (tb_meta tb)) = true ->
  (0 <? dt_psize (tb_meta tb)) && (dt_psize (tb_meta tb) <=? 40) = true -> layout_ok tb.
Proof.
  intros T tb H1 H2 H3. split; [apply all_apart_b_ok; exact H1|]. split; [|lia]. apply Forall_forall. intros c Hc. rewrite forallb_forall in H2. specialize (H2 c Hc). lia.
Qed.

(* ---- reading what was written ---- *)
Lemma fread_app : forall a r, fread (zlen a) (a ++ r) = Ok (a, r).
Proof.
  intros a r. unfold fread. rewrite zlen_app. pose proof (zlen_nonneg _ r). replace (zlen a <=? zlen a + zlen r) with true by lia.
  unfold zlen. rewrite Nat2Z.id. rewrite firstn_app, firstn_all, Nat.sub_diag, app_nil_r. rewrite skipn_app, skipn_all, Nat.sub_diag. reflexivity.
Qed.
Lemma fread4 : forall v r, fread 4 (le_bytes 4 v ++ r) = Ok (le_bytes 4 v, r).
Proof. intros. rewrite <- (le4_zlen v) at 1. apply fread_app. Qed.
Lemma ReadU32_app : forall v r, is_u32 v -> ReadU32 (WriteInt v ++ r) = Ok (v, r).
Proof. intros v r H. unfold ReadU32, WriteInt. rewrite fread4. cbn [obind fst snd]. rewrite le4_val by exact H. reflexivity. Qed.
Lemma ReadInt_app : forall v r, is_s32 v -> ReadInt (WriteInt v ++ r) = Ok (v, r).
Proof. intros v r H. unfold ReadInt, WriteInt. rewrite fread4. cbn [obind fst snd]. rewrite le4_s32 by exact H. reflexivity. Qed.
Lemma ReadString_app : forall s r, short_text s -> exists b, WriteString s = Ok b /\ ReadString (b ++ r) = Ok (s, r).
Proof.
  intros s r [Hs Hl]. pose proof (zlen_nonneg _ s). unfold WriteString. replace (zlen s <? 2 ^ 31) with true by lia.
  eexists. split; [reflexivity|]. unfold ReadString. rewrite <- app_assoc, ReadInt_app by (unfold is_s32; lia). cbn [obind fst snd].
  unfold u64. rewrite Z.mod_small by lia. replace (zlen s >? 1023) with false by lia. rewrite fread_app. cbn [obind fst snd].
  rewrite c_str_app by (apply c_string_nz; exact Hs). reflexivity.
Qed.
Lemma m_set_last : forall T (m : zmap T) k v, (forall k', In k' (keys m) -> k' < k) -> m_set k v m = m ++ [(k, v)].
Proof.
  induction m as [|[k' v'] m IH]; intros k v H; [reflexivity|]. cbn [m_set]. assert (k' < k) by (apply H; left; reflexivity).
  replace (k' <? k) with true by lia. cbn [app]. f_equal. apply IH. intros k2 H2. apply H. right. exact H2.
Qed.
Lemma mm_insert_last : forall T (m : zmap T) k v, (forall k', In k' (keys m) -> k' <= k) -> mm_insert k v m = m ++ [(k, v)].
Proof.
  induction m as [|[k' v'] m IH]; intros k v H; [reflexivity|]. cbn [mm_insert]. assert (k' <= k) by (apply H; left; reflexivity).
  replace (k' <=? k) with true by lia. cbn [app]. f_equal. apply IH. intros k2 H2. apply H. right. exact H2.
Qed.
Lemma ssorted_app_lt : forall a k b, ssorted (a ++ k :: b) -> forall x, In x a -> x < k.
Proof.
  induction a as [|y a IH]; intros k b H x Hx; [destruct Hx|]. cbn [app ssorted] in H. destruct H as [H1 H2].
  destruct Hx as [<-|Hx]; [apply H1; apply in_or_app; right; left; reflexivity|exact (IH _ _ H2 x Hx)].
Qed.
Lemma sorted_app_le : forall a k b, sorted (a ++ k :: b) -> forall x, In x a -> x <= k.
Proof.
  induction a as [|y a IH]; intros k b H x Hx; [destruct Hx|]. cbn [app sorted] in H. destruct H as [H1 H2].
  destruct Hx as [<-|Hx]; [apply H1; apply in_or_app; right; left; reflexivity|exact (IH _ _ H2 x Hx)].
Qed.
Lemma keys_app : forall T (a b : zmap T), keys (a ++ b) = keys a ++ keys b.
Proof. intros. unfold keys. apply map_app. Qed.
Lemma read_entries_ok : forall V (mk : Z -> list Z -> V) (l : list (Z * list Z)) (m : zmap V) r,
  ssorted (keys m ++ keys l) -> (forall h s, In (h, s) l -> is_u32 h /\ short_text s) ->
  exists b, write_entries l = Ok b /\ read_entries mk (length l) m (b ++ r) = Ok (m ++ map (fun x => (fst x, mk (fst x) (snd x))) l, r).
Proof.
  intros V mk l. induction l as [|[h s] l IH]; intros m r Hs Hl.
  - exists []. split; [reflexivity|]. cbn. rewrite app_nil_r. reflexivity.
  - destruct (Hl h s (or_introl eq_refl)) as [Hh Ht]. destruct (ReadString_app s [] Ht) as [b1 [Hb1 _]].
    destruct (IH (m ++ [(h, mk h s)]) r) as [b2 [Hb2 Hr]].
    + rewrite keys_app. cbn [keys map fst] in *. rewrite <- app_assoc. exact Hs.
    + intros h' s' H'. apply Hl. right. exact H'.
    + exists (WriteInt h ++ b1 ++ b2). cbn [write_entries]. rewrite Hb1. cbn [obind]. rewrite Hb2. cbn [obind]. split; [reflexivity|].
      cbn [length read_entries]. rewrite <- !app_assoc, ReadU32_app by exact Hh. cbn [obind fst snd].
      destruct (ReadString_app s (b2 ++ r) Ht) as [b1' [Hb1' Hr1]]. rewrite Hb1 in Hb1'. injection Hb1' as <-. rewrite Hr1. cbn [obind fst snd].
      rewrite m_set_last; [rewrite Hr; rewrite <- app_assoc; reflexivity|].
      intros k' Hk. cbn [keys map fst] in Hs. exact (ssorted_app_lt _ _ _ Hs k' Hk).
Qed.

(* the reader adds the rows in key order *)
Lemma add_all_multi : forall T (nm : T -> name) (l : zmap T) (m : zmap T), sorted (keys m ++ keys l) ->
  (forall k v, In (k, v) l -> k = n_hash (nm v) /\ k <> 0) -> add_all db_add nm (map snd l) m = Ok (m ++ l).
Proof.
  intros T nm l. induction l as [|[k v] l IH]; intros m Hs Hl; [cbn; rewrite app_nil_r; reflexivity|].
  destruct (Hl k v (or_introl eq_refl)) as [Hk Hk0]. cbn [map snd add_all]. unfold db_add at 1. rewrite <- Hk.
  replace (negb (k =? 0)) with true by lia. cbn [assert obind]. cbn [keys map fst] in Hs.
  rewrite mm_insert_last by (intros k' Hk'; exact (sorted_app_le _ _ _ Hs k' Hk')). rewrite IH.
  - rewrite <- app_assoc. reflexivity.
  - rewrite keys_app. cbn [keys map fst]. rewrite <- app_assoc. exact Hs.
  - intros k' v' H'. apply Hl. right. exact H'.
Qed.
Lemma add_all_unique : forall T (nm : T -> name) (l : zmap T) (m : zmap T), ssorted (keys m ++ keys l) ->
  (forall k v, In (k, v) l -> k = n_hash (nm v) /\ k <> 0) -> add_all db_add_unique nm (map snd l) m = Ok (m ++ l).
Proof.
  intros T nm l. induction l as [|[k v] l IH]; intros m Hs Hl; [cbn; rewrite app_nil_r; reflexivity|].
  destruct (Hl k v (or_introl eq_refl)) as [Hk Hk0]. cbn [map snd add_all]. unfold db_add_unique at 1. rewrite <- Hk.
  replace (negb (k =? 0)) with true by lia. cbn [assert obind]. cbn [keys map fst] in Hs. unfold m_insert.
  assert (Hlt : forall k', In k' (keys m) -> k' < k) by (intros k' Hk'; exact (ssorted_app_lt _ _ _ Hs k' Hk')).
  rewrite (proj2 (m_find_none _ k m)) by (intros Hin; specialize (Hlt _ Hin); lia).
  rewrite m_set_last by exact Hlt. rewrite IH.
  - rewrite <- app_assoc. reflexivity.
  - rewrite keys_app. cbn [keys map fst]. rewrite <- app_assoc. exact Hs.
  - intros k' v' H'. apply Hl. right. exact H'.
Qed.

Lemma table_file : forall T (tb : table_type T) add norm (m : zmap T) m' names texts, layout_ok tb -> zlen m < 2 ^ 25 ->
  (forall k v, In (k, v) m -> trip tb names texts v (columns (tb_meta tb)) (tb_new tb) = Ok (norm v)) ->
  add_all add (tb_name tb) (map norm (map snd m)) [] = Ok m' ->
  exists b, WriteTable tb m = Ok b /\ forall r, ReadTable tb add names texts [] (b ++ r) = Ok (m', r).
Proof.
  intros T tb add norm m m' names texts [L1 [L2 L3]] Hm Ht Hadd. unfold WriteTable. rewrite zlen_map. pose proof (zlen_nonneg _ m) as Hm0.
  assert (Hpos : zlen m * dt_psize (tb_meta tb) < 2 ^ 31) by nia. replace (zlen m * dt_psize (tb_meta tb) <? 2 ^ 31) with true by lia. cbn [negb].
  destruct m as [|e m].
  - cbn [map]. eexists. split; [reflexivity|]. intros r. unfold ReadTable. rewrite ReadInt_app by (unfold is_s32; lia). cbn in Hadd. injection Hadd as <-. reflexivity.
  - remember (e :: m) as em eqn:Hem. destruct (table_round_trip tb names texts norm (map snd em) (repeat 0 (Z.to_nat (zlen em * dt_psize (tb_meta tb))))) as [data [E1 [E2 E3]]]; auto.
    + lia.
    + rewrite zlen_repeat, zlen_map. lia.
    + intros v Hv. apply in_map_iff in Hv. destruct Hv as [[k v'] [E Hin]]. cbn in E. subst v'. exact (Ht k v Hin).
    + assert (Hrows : map snd em <> []) by (subst em; discriminate). rewrite map_length in E3. rewrite zlen_map in E2. remember (map snd em) as rows eqn:Hr. destruct rows as [|r0 rows]; [contradiction|].
      rewrite E1. cbn [obind]. eexists. split; [reflexivity|]. intros r. unfold ReadTable. rewrite <- app_assoc, ReadInt_app by (unfold is_s32; lia).
      cbn [obind fst snd]. assert (0 < zlen em) by (subst em; rewrite zlen_cons; pose proof (zlen_nonneg _ m); lia).
      replace (zlen em <? 0) with false by lia. replace (zlen em =? 0) with false by lia.
      replace (zlen em * dt_psize (tb_meta tb) <? 2 ^ 31) with true by lia. cbn [negb]. rewrite <- E2, fread_app. cbn [obind fst snd].
      unfold zlen at 1. rewrite Nat2Z.id, E3. cbn [obind]. rewrite Hadd. reflexivity.
Qed.

(* ---- one record of each type ---- *)
Section Rows.
Variables (names : zmap name) (texts : zmap (list Z)).
Hypothesis names_keys : forall h n, In (h, n) names -> n_hash n = h /\ h <> 0 /\ is_u32 h.
Lemma known_get : forall n, known names n -> is_u32 (n_hash n) /\ GetNameH names (n_hash n) = n.
Proof.
  intros n [->|H].
  - split; [unfold is_u32; cbn; lia|]. unfold GetNameH. cbn [n_hash noname]. destruct (m_find 0 names) as [x|] eqn:E; [|reflexivity].
    apply m_find_In in E. destruct (names_keys _ _ E) as [_ [E0 _]]. contradiction.
  - split; [apply m_find_In in H; apply (names_keys _ _ H)|]. unfold GetNameH. rewrite H. reflexivity.
Qed.
Lemma known_trip : forall n, known names n -> GetNameH names (le_val (le_bytes 4 (n_hash n))) = n.
Proof. intros n H. destruct (known_get n H) as [H1 H2]. rewrite le4_val by exact H1. exact H2. Qed.
Lemma prim_eta : forall p, mk_prim (p_name p) (p_parent p) = p. Proof. intros []. reflexivity. Qed.
Ltac go1 := cbn -[le_bytes le_val GetNameH s32 zlen hash_of qual_of qual_bytes]; rewrite ?le4_zlen, ?le8_zlen.
Ltac go := repeat progress go1.
Lemma trip_prim : forall meta kind, meta = make_type (Some m_PrimitiveType) [] -> forall p, known_prim names p ->
  trip (tb_prim meta kind) names texts p (columns meta) noprim = Ok p.
Proof. intros meta kind -> [n q] [H1 H2]. cbn in H1, H2. go. rewrite !known_trip by assumption. reflexivity. Qed.
Lemma trip_type : forall t, known_prim names (t_prim t) -> is_u64 (t_size t) ->
  trip tb_type names texts t (columns (tb_meta tb_type)) (tb_new tb_type) = Ok t.
Proof. intros [[n q] s] [H1 H2] H3. go. rewrite !known_trip by assumption. rewrite le8_val by assumption. reflexivity. Qed.
Lemma trip_enum_const : forall t, known_prim names (ec_prim t) -> is_s32 (ec_value t) ->
  trip tb_enum_const names texts t (columns (tb_meta tb_enum_const)) (tb_new tb_enum_const) = Ok t.
Proof. intros [[n q] s] [H1 H2] H3. go. rewrite !known_trip by assumption. rewrite le4_s32 by assumption. reflexivity. Qed.
Lemma trip_enum : forall t, known_prim names (e_prim t) -> is_u64 (e_size t) -> is_s32 (e_scoped t) ->
  trip tb_enum names texts t (columns (tb_meta tb_enum)) (tb_new tb_enum) = Ok t.
Proof. intros [[n q] s k] [H1 H2] H3 H4. go. rewrite !known_trip by assumption. rewrite le8_val, le4_s32 by assumption. reflexivity. Qed.
Lemma qual_trip : forall q, zlen (qual_bytes q) = 8 /\ qual_of (qual_bytes q) = Ok q.
Proof.
  intros [o c]. unfold qual_bytes. cbn [q_op q_const]. split; [rewrite zlen_app, le4_zlen; reflexivity|]. Transparent le_bytes. destruct o, c; reflexivity. Opaque le_bytes.
Qed.
Lemma trip_field : forall t, known_prim names (f_prim t) -> known names (f_type t) -> is_s32 (f_offset t) -> is_u32 (f_parent_uid t) ->
  trip tb_field names texts t (columns (tb_meta tb_field)) (tb_new tb_field) = Ok t.
Proof.
  intros [[n q] ty ql o u] [H1 H2] H3 H4 H5. destruct (qual_trip ql) as [Q1 Q2]. go. rewrite !known_trip by assumption. rewrite Q1. go. rewrite Q1. go.
  rewrite Q2. go. rewrite (le4_val u), (le4_s32 o) by assumption. reflexivity.
Qed.
Lemma trip_function : forall t, known_prim names (fn_prim t) -> is_u32 (fn_uid t) ->
  trip tb_function names texts t (columns (tb_meta tb_function)) (tb_new tb_function) = Ok (without_address t).
Proof. intros [[n q] s a] [H1 H2] H3. go. rewrite !known_trip by assumption. rewrite le4_val by assumption. reflexivity. Qed.
Lemma bool_trip : forall b, z2b (b2z b) = b. Proof. intros []; reflexivity. Qed.
Lemma trip_class : forall t, known_prim names (c_prim t) -> is_u64 (c_size t) ->
  trip tb_class names texts t (columns (tb_meta tb_class)) (tb_new tb_class) = Ok t.
Proof.
  intros [[n q] s k] [H1 H2] H3. go. change (zlen [b2z k]) with 1. go. rewrite !known_trip by assumption. rewrite le8_val, bool_trip by assumption. reflexivity.
Qed.
Lemma wr4_0 : forall A (a b c d x : A), wr [a; b; c; d] 0 x = Ok [x; b; c; d]. Proof. reflexivity. Qed.
Lemma wr4_1 : forall A (a b c d x : A), wr [a; b; c; d] 1 x = Ok [a; x; c; d]. Proof. reflexivity. Qed.
Lemma wr4_2 : forall A (a b c d x : A), wr [a; b; c; d] 2 x = Ok [a; b; x; d]. Proof. reflexivity. Qed.
Lemma wr4_3 : forall A (a b c d x : A), wr [a; b; c; d] 3 x = Ok [a; b; c; x]. Proof. reflexivity. Qed.
Lemma rd4_0 : forall A (a b c d : A), rd [a; b; c; d] 0 = Ok a. Proof. reflexivity. Qed.
Lemma rd4_1 : forall A (a b c d : A), rd [a; b; c; d] 1 = Ok b. Proof. reflexivity. Qed.
Lemma rd4_2 : forall A (a b c d : A), rd [a; b; c; d] 2 = Ok c. Proof. reflexivity. Qed.
Lemma rd4_3 : forall A (a b c d : A), rd [a; b; c; d] 3 = Ok d. Proof. reflexivity. Qed.
Lemma rd1_0 : forall A (a : A), rd [a] 0 = Ok a. Proof. reflexivity. Qed.
Lemma zlen1 : forall A (a : A), zlen [a] = 1. Proof. reflexivity. Qed.
Lemma trip_template_type : forall t, known_prim names (tt_prim t) -> is_u64 (tt_size t) -> Forall (known names) (tt_types t) ->
  length (tt_types t) = 4%nat -> length (tt_ptrs t) = 4%nat ->
  trip tb_template_type names texts t (columns (tb_meta tb_template_type)) (tb_new tb_template_type) = Ok t.
Proof.
  intros [[n q] s ts ps] [H1 H2] H3 H4 H5 H6. cbn [tt_prim tt_size tt_types tt_ptrs p_name p_parent] in *.
  destruct ts as [|t0 [|t1 [|t2 [|t3 [|]]]]]; try discriminate. destruct ps as [|b0 [|b1 [|b2 [|b3 [|]]]]]; try discriminate.
  inversion H4 as [|? ? K0 H4']; subst. inversion H4' as [|? ? K1 H4'']; subst. inversion H4'' as [|? ? K2 H4''']; subst. inversion H4''' as [|? ? K3 _]; subst.
  repeat progress (unfold packed; cbn -[le_bytes le_val GetNameH z2b b2z wr rd zlen]; rewrite ?le4_zlen, ?rd1_0, ?rd4_0, ?rd4_1, ?rd4_2, ?rd4_3, ?le8_zlen, ?zlen1, ?wr4_0, ?wr4_1, ?wr4_2, ?wr4_3, ?known_trip by assumption).
  rewrite ?known_trip by assumption. rewrite le8_val, !bool_trip by assumption. reflexivity.
Qed.
Lemma trip_int : forall t, known_prim names (ia_prim t) -> is_s32 (ia_value t) ->
  trip tb_int names texts t (columns (tb_meta tb_int)) (tb_new tb_int) = Ok t.
Proof. intros [[n q] s] [H1 H2] H3. go. rewrite !known_trip by assumption. rewrite le4_s32 by assumption. reflexivity. Qed.
Lemma trip_float : forall t, known_prim names (fa_prim t) -> is_u32 (fa_value t) ->
  trip tb_float names texts t (columns (tb_meta tb_float)) (tb_new tb_float) = Ok t.
Proof. intros [[n q] s] [H1 H2] H3. go. rewrite !known_trip by assumption. rewrite le4_val by assumption. reflexivity. Qed.
Lemma trip_pattr : forall t, known_prim names (pa_prim t) -> known names (pa_value t) ->
  trip tb_pattr names texts t (columns (tb_meta tb_pattr)) (tb_new tb_pattr) = Ok t.
Proof. intros [[n q] s] [H1 H2] H3. go. rewrite !known_trip by assumption. reflexivity. Qed.
Lemma trip_text : forall t h, known_prim names (ta_prim t) -> hash_of (ta_value t) = Ok h -> is_u32 h -> m_find h texts = Some (ta_value t) ->
  trip tb_text names texts t (columns (tb_meta tb_text)) (tb_new tb_text) = Ok t.
Proof.
  intros [[n q] s] h [H1 H2] H3 H4 H5. cbn [ta_value] in *. go. rewrite H3. go. rewrite !known_trip by assumption. rewrite le4_val by assumption. rewrite H5. reflexivity.
Qed.
Lemma trip_container : forall t, known names (ci_name t) -> known names (ci_read t) -> known names (ci_write t) -> is_u32 (ci_flags t) -> is_u32 (ci_count t) ->
  trip tb_container names texts t (columns (tb_meta tb_container)) (tb_new tb_container) = Ok t.
Proof. intros [a b c d e] H1 H2 H3 H4 H5. go. rewrite !known_trip by assumption. rewrite !le4_val by assumption. reflexivity. Qed.
Lemma trip_inherit : forall t, known names (ti_name t) -> known names (ti_derived t) -> known names (ti_base t) ->
  trip tb_inherit names texts t (columns (tb_meta tb_inherit)) (tb_new tb_inherit) = Ok t.
Proof. intros [a b c] H1 H2 H3. go. rewrite !known_trip by assumption. reflexivity. Qed.
End Rows.

(* ---- the table of texts ---- *)
Lemma m_find_set_in : forall T (m : zmap T) k v, ~ In k (keys m) -> length (m_set k v m) = S (length m).
Proof.
  induction m as [|[k' v'] m IH]; intros k v H; [reflexivity|]. cbn [m_set]. cbn [keys map fst In] in H.
  destruct (Z.ltb_spec k' k); [cbn; f_equal; apply IH; tauto|]. destruct (Z.eqb_spec k' k); [subst; tauto|reflexivity].
Qed.
Lemma text_map_ok : forall l m, ssorted (keys m) -> (forall a, In a l -> short_text (ta_value a)) ->
  NoDup (map (fun a => HashNameString (ta_value a ++ [0]) 0) l) ->
  (forall a, In a l -> ~ In (hash32 (ta_value a) 0) (keys m)) ->
  exists m', text_map l m = Ok m' /\ ssorted (keys m') /\ length m' = (length m + length l)%nat /\
    (forall h s, In (h, s) m' -> In (h, s) m \/ exists a, In a l /\ s = ta_value a /\ h = hash32 s 0) /\
    (forall h s, m_find h m = Some s -> m_find h m' = Some s) /\
    (forall a, In a l -> m_find (hash32 (ta_value a) 0) m' = Some (ta_value a)).
Proof.
  induction l as [|a l IH]; intros m Hs Ht Hd Hf.
  - exists m. split; [reflexivity|]. split; [exact Hs|]. split; [cbn; lia|]. split; [tauto|]. split; [tauto|intros a []].
  - assert (Hta : text_ok (ta_value a)) by (destruct (Ht a (or_introl eq_refl)) as [X Y]; split; [exact X|lia]).
    destruct (text_hash _ Hta) as [Eh Hu]. cbn [text_map]. unfold hash_of. rewrite Eh. cbn [obind]. set (h := hash32 (ta_value a) 0) in *.
    cbn [map] in Hd. inversion Hd as [|? ? Hd1 Hd2]; subst.
    assert (Hne : forall b, In b l -> hash32 (ta_value b) 0 <> h).
    { intros b Hb E. apply Hd1. apply in_map_iff. exists b. split; [|exact Hb].
      assert (Htb : text_ok (ta_value b)) by (destruct (Ht b (or_intror Hb)) as [X Y]; split; [exact X|lia]). rewrite (proj1 (text_hash _ Htb)), Eh, E. reflexivity. }
    destruct (IH (m_set h (ta_value a) m)) as [m' [E1 [E2 [E3 [E4 [E5 E6]]]]]].
    + apply m_set_ssorted. exact Hs.
    + intros b Hb. apply Ht. right. exact Hb.
    + exact Hd2.
    + intros b Hb Hin. apply m_set_keys in Hin. destruct Hin as [Hin|Hin]; [exact (Hne b Hb Hin)|exact (Hf b (or_intror Hb) Hin)].
    + exists m'. split; [exact E1|]. split; [exact E2|]. assert (Hnew : ~ In h (keys m)) by (apply Hf; left; reflexivity). split.
      { rewrite E3, m_find_set_in by exact Hnew. cbn [length]. lia. }
      split.
      { intros h' s Hin. destruct (E4 h' s Hin) as [Hin'|[b [Hb [Hb1 Hb2]]]].
        - apply m_set_In in Hin'. destruct Hin' as [E|Hin']; [injection E as -> ->; right; exists a; split; [left; reflexivity|split; reflexivity]|left; exact Hin'].
        - right. exists b. split; [right; exact Hb|split; assumption]. }
      split.
      { intros h' s Hm. apply E5. rewrite m_find_set by exact Hs. destruct (Z.eqb_spec h h') as [<-|]; [|exact Hm].
        exfalso. apply Hnew. apply m_find_some_iff. exists s. exact Hm. }
      intros b [<-|Hb]; [|apply E6; exact Hb]. apply E5. rewrite m_find_set by exact Hs. rewrite Z.eqb_refl. reflexivity.
Qed.

(* ---- the whole file ---- *)
Lemma table_multi : forall T (tb : table_type T) nm good (m : zmap T) names texts, layout_ok tb -> table_ok nm good m -> tb_name tb = nm ->
  (forall v, good v -> trip tb names texts v (columns (tb_meta tb)) (tb_new tb) = Ok v) ->
  exists b, WriteTable tb m = Ok b /\ forall r, ReadTable tb db_add names texts [] (b ++ r) = Ok (m, r).
Proof.
  intros T tb nm good m names texts HL [H1 [H2 H3]] Hn Ht. apply (table_file T tb db_add (fun v => v)); auto.
  - intros k v Hin. apply Ht. apply (H3 k v Hin).
  - rewrite map_id. rewrite Hn. rewrite (add_all_multi T nm m []); [reflexivity|exact H1|]. intros k v Hin. destruct (H3 k v Hin) as [X [Y _]]. split; assumption.
Qed.
Lemma table_unique : forall T (tb : table_type T) nm good (m : zmap T) names texts, layout_ok tb -> table_ok nm good m -> ssorted (keys m) -> tb_name tb = nm ->
  (forall v, good v -> trip tb names texts v (columns (tb_meta tb)) (tb_new tb) = Ok v) ->
  exists b, WriteTable tb m = Ok b /\ forall r, ReadTable tb db_add_unique names texts [] (b ++ r) = Ok (m, r).
Proof.
  intros T tb nm good m names texts HL [H1 [H2 H3]] Hs Hn Ht. apply (table_file T tb db_add_unique (fun v => v)); auto.
  - intros k v Hin. apply Ht. apply (H3 k v Hin).
  - rewrite map_id. rewrite Hn. rewrite (add_all_unique T nm m []); [reflexivity|exact Hs|]. intros k v Hin. destruct (H3 k v Hin) as [X [Y _]]. split; assumption.
Qed.
Lemma table_functions : forall (m : zmap function) names texts good, table_ok (fun f => p_name (fn_prim f)) good m ->
  (forall v, good v -> trip tb_function names texts v (columns (tb_meta tb_function)) (tb_new tb_function) = Ok (without_address v)) ->
  exists b, WriteTable tb_function m = Ok b /\
    forall r, ReadTable tb_function db_add names texts [] (b ++ r) = Ok (map (fun x => (fst x, without_address (snd x))) m, r).
Proof.
  intros m names texts good [H1 [H2 H3]] Ht. apply (table_file function tb_function db_add without_address); auto.
  - apply layout_check; reflexivity.
  - intros k v Hin. apply Ht. apply (H3 k v Hin).
  - set (m2 := map (fun x => (fst x, without_address (snd x))) m). replace (map without_address (map snd m)) with (map snd m2) by (unfold m2; rewrite !map_map; reflexivity).
    change (tb_name tb_function) with (fun f => p_name (fn_prim f)).
    rewrite (add_all_multi function (fun f => p_name (fn_prim f)) m2 []); [reflexivity| |].
    + cbn [keys map app]. unfold m2, keys. rewrite map_map. exact H1.
    + intros k v Hin. unfold m2 in Hin. apply in_map_iff in Hin. destruct Hin as [[k' v'] [E Hin]]. cbn [fst snd] in E. injection E as <- <-. destruct (H3 k' v' Hin) as [X [Y _]]. split; assumption.
Qed.
Ltac layout := apply layout_check; reflexivity.
Lemma db_round_trip : forall db, storable db -> distinct_texts db ->
  exists file, WriteBinaryDatabase db = Ok file /\ forall rest,
    IsBinaryDatabase (Some (file ++ rest)) = Ok true /\ ReadBinaryDatabase (Some (file ++ rest)) db_empty = Ok (Some (stored db)).
Proof.
  intros db H Hd. unfold storable in H. destruct H as [N1 [N2 [N3 [T1 [T2 [T3 [T4 [T5 [T6 [T7 [T8 [T9 [T10 [T11 [T12 [T13 [T14 [T15 [T16 [U1 U2]]]]]]]]]]]]]]]]]]]].
  set (names := m_names db) in *.
  assert (NK : forall h n, In (h, n) names -> n_hash n = h /\ h <> 0 /\ is_u32 h) by (intros h n Hin; destruct (N3 h n Hin) as [X [Y [Z _]]]; auto).
  (* names *)
  assert (W0 : exists b, WriteNameTable names = Ok b /\ forall r, ReadNameTable [] (b ++ r) = Ok (names, r)).
  { set (l := map (fun x => (n_hash (snd x), n_text (snd x))) names).
    assert (Hk : keys l = keys names). { unfold keys, l. rewrite map_map. apply map_ext_in. intros [h n] Hin. cbn. apply (NK h n Hin). }
    assert (Hl : forall h s, In (h, s) l -> is_u32 h /\ short_text s).
    { intros h s Hin. unfold l in Hin. apply in_map_iff in Hin. destruct Hin as [[h' n] [E Hin]]. cbn in E. injection E as <- <-. destruct (N3 h' n Hin) as [X [Y [Z W]]]. split; [rewrite X; exact Z|exact W]. }
    assert (Hll : length l = length names) by (unfold l; apply map_length).
    destruct (read_entries_ok name mk_name l [] []) as [b [Hb _]]; [cbn; rewrite Hk; exact N1|exact Hl|].
    unfold WriteNameTable. fold l. rewrite Hb. cbn [obind]. eexists. split; [reflexivity|]. intros r. unfold ReadNameTable.
    rewrite <- app_assoc, ReadInt_app by (unfold is_s32; pose proof (zlen_nonneg _ names); lia). cbn [obind fst snd].
    destruct (read_entries_ok name mk_name l [] r) as [b' [Hb' Hr]]; [cbn; rewrite Hk; exact N1|exact Hl|]. rewrite Hb in Hb'. injection Hb' as <-.
    unfold zlen. rewrite Nat2Z.id, <- Hll, Hr. cbn [app]. do 2 f_equal. unfold l. rewrite map_map. rewrite <- (map_id names) at 2. apply map_ext_in. intros [h [h' t]] Hin. destruct (NK h _ Hin) as [X _]. cbn in *. subst. reflexivity. }
  (* texts *)
  assert (W1 : exists b tm, WriteTextAttributeTable (m_text_attrs db) = Ok b /\ (forall r, ReadTextAttributeTable (b ++ r) = Ok (tm, r)) /\
            forall a, In a (map snd (m_text_attrs db)) -> m_find (hash32 (ta_value a) 0) tm = Some (ta_value a)).
  { destruct T14 as [_ [X2 X3]].
    assert (Hst : forall a, In a (map snd (m_text_attrs db)) -> short_text (ta_value a)).
    { intros a Ha. apply in_map_iff in Ha. destruct Ha as [[k a'] [E Hin]]. cbn in E. subst a'. destruct (X3 k a Hin) as [_ [_ [_ Hs]]]. exact Hs. }
    destruct (text_map_ok (map snd (m_text_attrs db)) []) as [tm [E1 [E2 [E3 [E4 [_ E6]]]]]]; [exact I|exact Hst|unfold distinct_texts in Hd; rewrite map_map; exact Hd|intros a _ []|].
    rewrite map_length in E3. cbn [length Nat.add] in E3.
    assert (Hl : forall h s, In (h, s) tm -> is_u32 h /\ short_text s).
    { intros h s Hin. destruct (E4 h s Hin) as [[]|[a [Ha [-> ->]]]]. pose proof (Hst a Ha) as Hsa. split; [|exact Hsa]. apply text_hash. destruct Hsa as [S1 S2]. split; [exact S1|lia]. }
    destruct (read_entries_ok (list Z) (fun _ s => s) tm [] []) as [b [Hb _]]; [exact E2|exact Hl|].
    unfold WriteTextAttributeTable. rewrite E1. cbn [obind]. rewrite Hb. cbn [obind]. eexists. exists tm. split; [reflexivity|]. split; [|exact E6].
    intros r. unfold ReadTextAttributeTable. rewrite <- app_assoc, ReadInt_app by (unfold is_s32; pose proof (zlen_nonneg _ (m_text_attrs db)); lia). cbn [obind fst snd].
    destruct (read_entries_ok (list Z) (fun _ s => s) tm [] r) as [b' [Hb' Hr]]; [exact E2|exact Hl|]. rewrite Hb in Hb'. injection Hb' as <-.
    unfold zlen. rewrite Nat2Z.id, <- E3. rewrite Hr. cbn [app]. do 2 f_equal. rewrite <- (map_id tm) at 2. apply map_ext. intros [h s]. reflexivity. }
  destruct W0 as [b0 [B0 R0]]. destruct W1 as [b1 [tm [B1 [R1 HT]]]].
  destruct (table_multi _ tb_type _ _ _ names tm ltac:(layout) T2 eq_refl) as [b2 [B2 R2]]; [intros v [X Y]; apply trip_type; assumption|].
  destruct (table_multi _ tb_enum_const _ _ _ names tm ltac:(layout) T7 eq_refl) as [b3 [B3 R3]]; [intros v [X Y]; apply trip_enum_const; assumption|].
  destruct (table_multi _ tb_enum _ _ _ names tm ltac:(layout) T6 eq_refl) as [b4 [B4 R4]]; [intros v [X [Y Z]]; apply trip_enum; assumption|].
  destruct (table_multi _ tb_field _ _ _ names tm ltac:(layout) T9 eq_refl) as [b5 [B5 R5]]; [intros v [X [Y [Z W]]]; apply trip_field; assumption|].
  destruct (table_functions _ names tm _ T8) as [b6 [B6 R6]]; [intros v [X Y]; apply trip_function; assumption|].
  destruct (table_multi _ tb_class _ _ _ names tm ltac:(layout) T5 eq_refl) as [b7 [B7 R7]]; [intros v [X Y]; apply trip_class; assumption|].
  destruct (table_multi _ tb_template _ _ _ names tm ltac:(layout) T3 eq_refl) as [b8 [B8 R8]]; [intros v X; apply trip_prim; auto|].
  destruct (table_multi _ tb_template_type _ _ _ names tm ltac:(layout) T4 eq_refl) as [b9 [B9 R9]]; [intros v [X [Y [Z [W V]]]]; apply trip_template_type; assumption|].
  destruct (table_multi _ tb_namespace _ _ _ names tm ltac:(layout) T1 eq_refl) as [b10 [B10 R10]]; [intros v X; apply trip_prim; auto|].
  destruct (table_multi _ tb_flag _ _ _ names tm ltac:(layout) T10 eq_refl) as [b11 [B11 R11]]; [intros v X; apply trip_prim; auto|].
  destruct (table_multi _ tb_int _ _ _ names tm ltac:(layout) T11 eq_refl) as [b12 [B12 R12]]; [intros v [X Y]; apply trip_int; assumption|].
  destruct (table_multi _ tb_float _ _ _ names tm ltac:(layout) T12 eq_refl) as [b13 [B13 R13]]; [intros v [X Y]; apply trip_float; assumption|].
  destruct (table_multi _ tb_pattr _ _ _ names tm ltac:(layout) T13 eq_refl) as [b14 [B14 R14]]; [intros v [X Y]; apply trip_pattr; assumption|].
  assert (T14' : table_ok (fun a => p_name (ta_prim a)) (fun a => known_prim names (ta_prim a) /\ short_text (ta_value a) /\ m_find (hash32 (ta_value a) 0) tm = Some (ta_value a)) (m_text_attrs db)).
  { destruct T14 as [X1 [X2 X3]]. split; [exact X1|]. split; [exact X2|]. intros k v Hin. destruct (X3 k v Hin) as [Y1 [Y2 [Y3 Y4]]]. repeat (split; [assumption|]). apply HT. apply in_map_iff. exists (k, v). split; [reflexivity|exact Hin]. }
  destruct (table_multi _ tb_text _ _ _ names tm ltac:(layout) T14' eq_refl) as [b15 [B15 R15]].
  { intros v [X [[Y1 Y2] Z]]. assert (Hv : text_ok (ta_value v)) by (split; [exact Y1|lia]). destruct (text_hash _ Hv) as [E1 E2]. exact (trip_text names tm NK v _ X E1 E2 Z). }
  destruct (table_unique _ tb_container _ _ _ names tm ltac:(layout) T15 U1 eq_refl) as [b16 [B16 R16]]; [intros v [X [Y [Z [W V]]]]; apply trip_container; assumption|].
  destruct (table_unique _ tb_inherit _ _ _ names tm ltac:(layout) T16 U2 eq_refl) as [b17 [B17 R17]]; [intros v [X [Y Z]]; apply trip_inherit; assumption|].
  unfold WriteBinaryDatabase. fold names. rewrite B0, B1, B2, B3, B4, B5, B6, B7, B8, B9, B10, B11, B12, B13, B14, B15, B16, B17. cbn [obind].
  eexists. split; [reflexivity|]. intros rest.
  assert (HI : forall r, IsBinaryDatabase (Some (WriteInt FILE_HEADER ++ WriteInt FILE_VERSION ++ r)) = Ok true).
  { intros r. unfold IsBinaryDatabase. rewrite ReadU32_app by (unfold is_u32, FILE_HEADER; lia). cbn [obind fst snd]. rewrite ReadU32_app by (unfold is_u32, FILE_VERSION; lia). reflexivity. }
  rewrite <- !app_assoc. split; [apply HI|]. unfold ReadBinaryDatabase. rewrite HI. cbn [obind negb].
  rewrite ReadU32_app by (unfold is_u32, FILE_HEADER; lia). cbn [obind fst snd]. rewrite ReadU32_app by (unfold is_u32, FILE_VERSION; lia). cbn [obind fst snd].
  change (m_names db_empty) with (@nil (Z * name)). rewrite R0. cbn [obind fst snd]. rewrite R1. cbn [obind fst snd].
  cbn [db_empty m_types m_enum_consts m_enums m_fields m_functions m_classes m_templates m_template_types m_namespaces m_flag_attrs m_int_attrs m_float_attrs m_prim_attrs m_text_attrs m_containers m_inherits].
  rewrite R2; cbn [obind fst snd]; rewrite R3; cbn [obind fst snd]; rewrite R4; cbn [obind fst snd]; rewrite R5; cbn [obind fst snd]; rewrite R6; cbn [obind fst snd]; rewrite R7; cbn [obind fst snd];
  rewrite R8; cbn [obind fst snd]; rewrite R9; cbn [obind fst snd]; rewrite R10; cbn [obind fst snd]; rewrite R11; cbn [obind fst snd]; rewrite R12; cbn [obind fst snd]; rewrite R13; cbn [obind fst snd];
  rewrite R14; cbn [obind fst snd]; rewrite R15; cbn [obind fst snd]; rewrite R16; cbn [obind fst snd]; rewrite R17; cbn [obind fst snd]. reflexivity.
Qed.
