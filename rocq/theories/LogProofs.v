From Verif Require Import Base Text LogModel LogSpec.
From Coq Require Import Lia List Bool FinFun.

Lemma upd_same : forall T (f : Z -> T) k v, upd f k v k = v.
Proof. intros; unfold upd; rewrite Z.eqb_refl; reflexivity. Qed.
Lemma upd_other : forall T (f : Z -> T) k v x, x <> k -> upd f k v x = f x.
Proof. intros; unfold upd; apply Z.eqb_neq in H; rewrite H; reflexivity. Qed.
Lemma set_streams_at : forall w n i l n' i', streams (l_sets (set_streams w n i l) n') i' = if (n =? n') && (i =? i') then l else streams (l_sets w n') i'.
Proof.
  intros. unfold set_streams; cbn. unfold upd at 1. rewrite (Z.eqb_sym n). destruct (n' =? n) eqn:E; [| reflexivity]. apply Z.eqb_eq in E; subst. cbn.
  unfold upd. rewrite (Z.eqb_sym i). destruct (i' =? i); reflexivity.
Qed.
Lemma set_streams_depth : forall w n i l n', indent_depth (l_sets (set_streams w n i l) n') = indent_depth (l_sets w n').
Proof. intros. unfold set_streams; cbn. unfold upd. destruct (n' =? n) eqn:E; [| reflexivity]. apply Z.eqb_eq in E; subst. reflexivity. Qed.
Lemma bits_in : forall i, In i tag_bits <-> 0 <= i < 31.
Proof.
  intros. unfold tag_bits. rewrite in_map_iff. split.
  - intros (x & <- & H). apply in_seq in H. lia.
  - intros H. exists (Z.to_nat i). split; [lia |]. apply in_seq. lia.
Qed.
Lemma bits_nodup : NoDup tag_bits.
Proof. unfold tag_bits. apply Injective_map_NoDup; [intros a b; lia | apply seq_NoDup]. Qed.

(* standard output *)
Definition outs (l : list stream) : nat := length (filter (fun s => match s with Stdout => true | _ => false end) l).
Arguments outs : simpl never.

Lemma stdout_bits : forall tag n bs w, NoDup bs -> let w' := fold_left (fun w i => if Z.testbit tag i then add_stdout n w i else w) bs w in
  l_out w' = l_out w /\ (forall n', indent_depth (l_sets w' n') = indent_depth (l_sets w n')) /\
  (forall n' i, streams (l_sets w' n') i = if (n =? n') && Z.testbit tag i && existsb (Z.eqb i) bs then Stdout :: streams (l_sets w n') i else streams (l_sets w n') i).
Proof.
  induction bs as [| b bs IH]; intros w ND; cbn.
  - repeat split; intros; rewrite andb_false_r; reflexivity.
  - inversion ND; subst. specialize (IH (if Z.testbit tag b then add_stdout n w b else w) H2). cbn in IH. destruct IH as (A & B & C).
    assert (NB : forall i, existsb (Z.eqb i) bs = true -> i <> b).
    { intros i X. apply existsb_exists in X. destruct X as (x & X & Y). apply Z.eqb_eq in Y; subst. intros ->; auto. }
    split; [| split].
    + rewrite A. destruct (Z.testbit tag b); reflexivity.
    + intros. rewrite B. destruct (Z.testbit tag b); [apply set_streams_depth | reflexivity].
    + intros. rewrite C. destruct (Z.testbit tag b) eqn:TB.
      * unfold add_stdout. rewrite set_streams_at. rewrite (Z.eqb_sym b i). destruct (n =? n') eqn:EN; cbn; [| reflexivity]. apply Z.eqb_eq in EN; subst n'.
        destruct (i =? b) eqn:EI; cbn.
        -- apply Z.eqb_eq in EI; subst. rewrite TB. destruct (existsb (Z.eqb b) bs) eqn:X; [exfalso; exact (NB _ X eq_refl) | reflexivity].
        -- reflexivity.
      * destruct (i =? b) eqn:EI; cbn; [| reflexivity]. apply Z.eqb_eq in EI; subst. rewrite TB. rewrite ?andb_false_r; cbn; reflexivity.
Qed.
Lemma add_file_at : forall can_open n p w b n' i, streams (l_sets (add_file can_open n p w b) n') i = if (n =? n') && (b =? i) then [snd (fopen can_open w p)] else streams (l_sets w n') i.
Proof. intros. unfold add_file. destruct (fopen can_open w p) eqn:E. rewrite set_streams_at. unfold fopen in E. destruct (can_open p); inversion E; reflexivity. Qed.
Lemma add_file_depth : forall can_open n p w b n', indent_depth (l_sets (add_file can_open n p w b) n') = indent_depth (l_sets w n').
Proof. intros. unfold add_file. destruct (fopen can_open w p) eqn:E. rewrite set_streams_depth. unfold fopen in E. destruct (can_open p); inversion E; reflexivity. Qed.
Lemma add_file_out : forall can_open n p w b, l_out (add_file can_open n p w b) = l_out w.
Proof. intros. unfold add_file, fopen. destruct (can_open p); reflexivity. Qed.
Lemma file_outs : forall can_open w p, outs [snd (fopen can_open w p)] = 0%nat.
Proof. intros. unfold fopen. destruct (can_open p); reflexivity. Qed.
Lemma file_bits : forall can_open tag n p bs w, let w' := fold_left (fun w i => if Z.testbit tag i then add_file can_open n p w i else w) bs w in
  l_out w' = l_out w /\ (forall n', indent_depth (l_sets w' n') = indent_depth (l_sets w n')) /\
  (forall n' i, outs (streams (l_sets w' n') i) = if (n =? n') && Z.testbit tag i && existsb (Z.eqb i) bs then 0%nat else outs (streams (l_sets w n') i)).
Proof.
  induction bs as [| b bs IH]; intros w; cbn.
  - repeat split; intros; rewrite andb_false_r; reflexivity.
  - specialize (IH (if Z.testbit tag b then add_file can_open n p w b else w)). cbn in IH. destruct IH as (A & B & C). split; [| split].
    + rewrite A. destruct (Z.testbit tag b); [apply add_file_out | reflexivity].
    + intros. rewrite B. destruct (Z.testbit tag b); [apply add_file_depth | reflexivity].
    + intros. rewrite C. destruct (Z.testbit tag b) eqn:TB.
      * rewrite add_file_at. rewrite (Z.eqb_sym b i). destruct (n =? n') eqn:EN; cbn; [| reflexivity].
        destruct (i =? b) eqn:EI; cbn.
        -- apply Z.eqb_eq in EI; subst. rewrite TB. rewrite file_outs. cbn. destruct (existsb (Z.eqb b) bs); reflexivity.
        -- reflexivity.
      * destruct (i =? b) eqn:EI; cbn; [| reflexivity]. apply Z.eqb_eq in EI; subst. rewrite TB. rewrite ?andb_false_r; cbn; reflexivity.
Qed.
Lemma stream_log_sets : forall w s t, l_sets (stream_log w s t) = l_sets w.
Proof. intros. destruct s; cbn; [| destruct (l_fps w fp) |]; reflexivity. Qed.
Definition both (p : bool) (prefix buffer : list Z) (w : logs) (s : stream) : logs :=
  let w := if p then stream_log w s prefix else w in stream_log w s buffer.
Lemma both_sets : forall p a b ss w, l_sets (fold_left (both p a b) ss w) = l_sets w.
Proof. induction ss; intros; cbn; [reflexivity |]. rewrite IHss. unfold both. destruct p; cbn; rewrite ?stream_log_sets; reflexivity. Qed.
Lemma stream_log_out : forall w s t, l_out (stream_log w s t) = l_out w ++ match s with Stdout => t | _ => [] end.
Proof. intros. destruct s; cbn; [| destruct (l_fps w fp) |]; cbn; rewrite ?app_nil_r; reflexivity. Qed.
Lemma both_out : forall p a b ss w, l_out (fold_left (both p a b) ss w) = l_out w ++ concat (repeat ((if p then a else []) ++ b) (outs ss)).
Proof.
  induction ss as [| s ss IH]; intros; cbn [fold_left]; [cbn; rewrite app_nil_r; reflexivity |]. rewrite IH. unfold both.
  assert (X : l_out (stream_log (if p then stream_log w s a else w) s b) = l_out w ++ match s with Stdout => (if p then a else []) ++ b | _ => [] end).
  { destruct p; rewrite ?stream_log_out; destruct s; cbn; rewrite ?app_nil_r, <- ?app_assoc; reflexivity. }
  rewrite X. rewrite <- app_assoc. f_equal; destruct s; reflexivity.
Qed.

Section Run.
Variable can_open : Z -> bool.
Record inv (past : list lcall) (w : logs) : Prop := {
  i_depth : forall n, indent_depth (l_sets w n) = depth n past;
  i_outs : forall n i, 0 <= i < 31 -> outs (streams (l_sets w n) i) = printers n i past }.
Lemma inv_start : forall files, inv [] (start files).
Proof. intros; split; intros; reflexivity. Qed.
Lemma bits_exists : forall i, 0 <= i < 31 -> existsb (Z.eqb i) tag_bits = true.
Proof. intros. apply existsb_exists. exists i. split; [apply bits_in; assumption | apply Z.eqb_refl]. Qed.
Definition fine (past : list lcall) (c : lcall) : Prop := match c with
      | Log name tag p _ => 0 < tag < 2 ^ 31 /\ (p = true -> tag = 1 -> 0 <= depth name past < 128)
      | PushIndent name => depth name past < 2 ^ 31 - 1
      | PopIndent name => - 2 ^ 31 < depth name past
      | _ => True
      end.
Lemma log2_in : forall tag, 0 < tag < 2 ^ 31 -> Log2 tag = Z.log2 tag /\ 0 <= Z.log2 tag < 31.
Proof.
  intros. assert (L : 0 <= Z.log2 tag < 31) by (split; [apply Z.log2_nonneg | apply Z.log2_lt_pow2; lia]).
  split; [| exact L]. unfold Log2. replace (tag =? 0) with false by (symmetry; apply Z.eqb_neq; lia). unfold u32. rewrite Z.mod_small; [reflexivity | lia].
Qed.
Lemma prefix_line : forall d tag p text, (p = true -> tag = 1 -> 0 <= d < 128) -> exists x, prefix_of d tag p = Ok x /\ (if p then x else []) ++ firstn 511 text = line_of d tag p text.
Proof.
  intros. unfold prefix_of, line_of. destruct p.
  - destruct (tag =? 1) eqn:E.
    + apply Z.eqb_eq in E. specialize (H eq_refl E). replace ((0 <=? d) && (d <? 128)) with true by (symmetry; apply andb_true_iff; split; lia). eexists; split; reflexivity.
    + destruct (tag =? 2); [eexists; split; reflexivity |]. destruct (tag =? 4); eexists; split; reflexivity.
  - eexists; split; reflexivity.
Qed.
Lemma log_ok : forall past w n tag p text, inv past w -> fine past (Log n tag p text) -> exists x,
  (if p then x else []) ++ firstn 511 text = line_of (depth n past) tag p text /\ 0 <= Z.log2 tag < 31 /\
  log w n tag p text = Ok (fold_left (both p x (firstn 511 text)) (streams (l_sets w n) (Z.log2 tag)) w).
Proof.
  intros * I (T & P). destruct (log2_in _ T) as (L & R). destruct (prefix_line _ tag p text P) as (x & E & Q). exists x. split; [exact Q |]. split; [exact R |].
  unfold log. rewrite (i_depth _ _ I), E. cbn [obind]. rewrite L. replace ((0 <=? Z.log2 tag) && (Z.log2 tag <? 31)) with true by (symmetry; apply andb_true_iff; split; lia). reflexivity.
Qed.
Lemma inv_step : forall past w c, inv past w -> fine past c -> exists w', lstep can_open w c = Ok w' /\ inv (c :: past) w' /\
  l_out w' = l_out w ++ match c with Log name tag p text => concat (repeat (line_of (depth name past) tag p text) (printers name (Z.log2 tag) past)) | _ => [] end.
Proof.
  intros * I F. destruct c as [n tag | n tag path | n tag p text | n | n].
  - destruct (stdout_bits tag n tag_bits w bits_nodup) as (A & B & C). eexists; split; [reflexivity |]. split; [| rewrite app_nil_r; exact A]. split; cbn [depth printers].
    + intros. unfold set_log. rewrite B. apply I.
    + intros m i R. unfold set_log. rewrite C, (bits_exists i R), andb_true_r. destruct ((n =? m) && Z.testbit tag i); [change (S (outs (streams (l_sets w m) i)) = S (printers m i past)); f_equal; apply I; exact R | apply I; exact R].
  - cbn [lstep]. set (w1 := if can_open path then _ else w). destruct (file_bits can_open tag n path tag_bits w1) as (A & B & C). eexists; split; [reflexivity |].
    assert (S1 : l_sets w1 = l_sets w) by (unfold w1; destruct (can_open path); reflexivity). assert (O1 : l_out w1 = l_out w) by (unfold w1; destruct (can_open path); reflexivity).
    split; [| rewrite app_nil_r, <- O1; exact A]. split; cbn [depth printers].
    + intros. unfold set_log. rewrite B, S1. apply I.
    + intros m i R. unfold set_log. rewrite C, (bits_exists i R), andb_true_r, S1. destruct ((n =? m) && Z.testbit tag i); [reflexivity | apply I; exact R].
  - destruct (log_ok _ _ _ _ _ _ I F) as (x & Q & R & E). cbn [lstep]. eexists; split; [exact E |]. split.
    + split; intros; rewrite both_sets; cbn [depth printers]; apply I; assumption.
    + rewrite both_out, Q. do 3 f_equal. apply I; exact R.
  - cbn in F. cbn [lstep]. rewrite (i_depth _ _ I). replace (depth n past =? 2 ^ 31 - 1) with false by (symmetry; apply Z.eqb_neq; lia). eexists; split; [reflexivity |].
    split; [| cbn; rewrite app_nil_r; reflexivity]. split; intros m; cbn [depth printers set_indent l_sets]; unfold upd; try rewrite (Z.eqb_sym n m); destruct (m =? n) eqn:E; try apply I; cbn.
    + apply Z.eqb_eq in E; subst; reflexivity.
    + apply Z.eqb_eq in E; subst; apply I.
  - cbn in F. cbn [lstep]. rewrite (i_depth _ _ I). replace (depth n past =? - 2 ^ 31) with false by (symmetry; apply Z.eqb_neq; lia). eexists; split; [reflexivity |].
    split; [| cbn; rewrite app_nil_r; reflexivity]. split; intros m; cbn [depth printers set_indent l_sets]; unfold upd; try rewrite (Z.eqb_sym n m); destruct (m =? n) eqn:E; try apply I; cbn.
    + apply Z.eqb_eq in E; subst; reflexivity.
    + apply Z.eqb_eq in E; subst; apply I.
Qed.
Lemma run_printed : forall cs past w, inv past w -> moderate past cs -> exists w', lrun can_open w cs = Ok w' /\ l_out w' = l_out w ++ printed past cs.
Proof.
  induction cs as [| c cs IH]; intros * I M; cbn [lrun moderate printed] in *.
  - exists w. rewrite app_nil_r. auto.
  - destruct M as (F & M). destruct (inv_step _ _ c I F) as (w1 & E & I1 & O). destruct (IH _ _ I1 M) as (w2 & E2 & O2). exists w2. rewrite E; cbn [obind]. split; [exact E2 |].
    rewrite O2, O, <- app_assoc. reflexivity.
Qed.
Lemma not_fine : forall past w c w', inv past w -> lstep can_open w c = Ok w' -> match c with Log _ tag _ _ => - 2 ^ 31 <= tag < 2 ^ 31 | _ => True end ->
  match c with PushIndent n => depth n past < 2 ^ 31 | PopIndent n => - 2 ^ 31 <= depth n past | _ => True end -> fine past c.
Proof.
  intros * I E T D. destruct c as [n tag | n tag path | n tag p text | n | n]; cbn [fine lstep] in *; auto.
  - unfold log in E. rewrite (i_depth _ _ I) in E. destruct (prefix_of (depth n past) tag p) eqn:P; try discriminate E. cbn [obind] in E.
    destruct ((0 <=? Log2 tag) && (Log2 tag <? 31)) eqn:L; [| discriminate E]. apply andb_true_iff in L. destruct L as (L0 & L1). apply Z.leb_le in L0. apply Z.ltb_lt in L1. split.
    + unfold Log2 in L0, L1. destruct (tag =? 0) eqn:Z0; [lia |]. apply Z.eqb_neq in Z0. destruct (Z.lt_ge_cases tag 0) as [N | N]; [| lia]. exfalso.
      unfold u32 in L1. assert (X : tag mod 4294967296 = tag + 4294967296) by (rewrite <- (Z_mod_plus_full tag 1), Z.mod_small; lia). rewrite X in L1.
      apply (Z.log2_lt_pow2 (tag + 4294967296) 31) in L1; lia.
    + intros -> ->. unfold prefix_of in P. cbn in P. destruct ((0 <=? depth n past) && (depth n past <? 128)) eqn:Q; [| discriminate P]. apply andb_true_iff in Q. lia.
  - rewrite (i_depth _ _ I) in E. destruct (depth n past =? 2 ^ 31 - 1) eqn:Q; [discriminate E |]. apply Z.eqb_neq in Q. lia.
  - rewrite (i_depth _ _ I) in E. destruct (depth n past =? - 2 ^ 31) eqn:Q; [discriminate E |]. apply Z.eqb_neq in Q. lia.
Qed.
Lemma run_moderate : forall cs past w w', inv past w -> (forall n, - 2 ^ 31 <= depth n past < 2 ^ 31) -> (forall n tag p text, In (Log n tag p text) cs -> - 2 ^ 31 <= tag < 2 ^ 31) ->
  lrun can_open w cs = Ok w' -> moderate past cs.
Proof.
  induction cs as [| c cs IH]; intros * I D T R; cbn [lrun moderate] in *; [exact Logic.I |]. destruct (lstep can_open w c) as [w1 | | |] eqn:E; try discriminate R. cbn [obind] in R.
  assert (F : fine past c). { apply (not_fine _ _ _ _ I E); destruct c; auto; [eapply T; left; reflexivity | apply D | apply D]. }
  split; [exact F |]. destruct (inv_step _ _ c I F) as (w2 & E2 & I2 & _). rewrite E in E2. injection E2 as <-. apply (IH _ _ _ I2) with (3 := R).
  - intros m. destruct c; cbn [depth]; try apply D; cbn in F; pose proof (D m); destruct (name =? m) eqn:Q; try lia; apply Z.eqb_eq in Q; subst; lia.
  - intros; eapply T; right; eassumption.
Qed.
End Run.
