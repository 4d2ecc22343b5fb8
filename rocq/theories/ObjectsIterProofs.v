(* Iteration and scoped lookup over several groups *)
From Verif Require Import Base BaseProofs ObjectsModel ObjectsSpec ObjectsProofs.
From Coq Require Import Sorting.Permutation.

(* ---- scoped lookup ---- *)
Lemma search_parents_ok : forall hp g ms, chain hp g ms -> forall fuel id, (length ms < fuel)%nat ->
  FindObjectSearchParents fuel hp g id = Ok (first_found ms id).
Proof.
  intros hp g ms H. induction H as [|gi c m ms Hc Hr Hch IH]; intros fuel id Hf.
  - destruct fuel; reflexivity.
  - destruct fuel as [|fuel]; [lia|]. cbn [FindObjectSearchParents first_found]. unfold rd. rewrite Hc. cbn [obind].
    destruct (reachable_G _ _ Hr) as [HG _]. rewrite (find_ok _ _ id HG). cbn [obind].
    destruct (lookup m id); [reflexivity|]. apply IH. cbn [length] in Hf. lia.
Qed.

Lemma holds_find : forall hp g m id, holds hp g m -> exists c, rd hp g = Ok c /\ FindObject (c_group c) id = Ok (lookup m id).
Proof.
  intros hp g m id [c [Hc Hr]]. exists c. unfold rd. rewrite Hc. split; [reflexivity|].
  apply find_ok. apply reachable_G. exact Hr.
Qed.

Lemma relative_1 : forall hp g id r, path hp g [id] r -> FindObjectRelative hp g [id] 1 = Ok r.
Proof.
  intros hp g id r H. inversion H; subst. destruct (holds_find hp g m id ltac:(assumption)) as [c [Hc Hf]].
  unfold FindObjectRelative. cbn [length relative_loop]. change (u32 (1 - 1) >? 0) with false. cbn [obind].
  change (rd [id] 0) with (Ok id). cbn [obind]. rewrite Hc. cbn [obind]. exact Hf.
Qed.
Lemma relative_2 : forall hp g id1 id2 r, path hp g [id1; id2] r -> FindObjectRelative hp g [id1; id2] 2 = Ok r.
Proof.
  intros hp g id1 id2 r H. unfold FindObjectRelative. cbn [length relative_loop].
  change (u32 (2 - 1) >? 0) with true. change (u32 (2 - 1)) with 1. change (u32 (1 - 1) >? 0) with false.
  change (rd [id1; id2] 0) with (Ok id1). cbn [obind tl].
  inversion H as [| g' m i i2 rest Hh Hl | g' m i i2 rest o Hh Hl Hg | g' m i i2 rest o child r' Hh Hl Hg Hp]; subst;
    destruct (holds_find hp g m id1 Hh) as [c [Hc Hf]]; rewrite Hc; cbn [obind]; rewrite Hf; cbn [obind]; rewrite Hl.
  - reflexivity.
  - rewrite Hg. reflexivity.
  - rewrite Hg. cbn [obind]. change (rd [id2] 0) with (Ok id2). cbn [obind].
    inversion Hp; subst. destruct (holds_find hp child m0 id2 ltac:(assumption)) as [c2 [Hc2 Hf2]].
    rewrite Hc2. cbn [obind]. exact Hf2.
Qed.

(* ---- the iterator's stack ---- *)
Definition stk (it : iterator) (st : list Z) : Prop :=
  i_nb it = zlen st /\
  match i_groups it with
  | None => st = []
  | Some arr => 4 <= zlen arr /\ zlen st <= zlen arr /\ firstn (length st) arr = rev st
  end.

Lemma firstn_app_le : forall A (a b : list A) n, (n <= length a)%nat -> firstn n (a ++ b) = firstn n a.
Proof. intros A a b n H. rewrite firstn_app. replace (n - length a)%nat with O by lia. rewrite firstn_O, app_nil_r. reflexivity. Qed.

Lemma wr_at : forall A (l : list A) n a, (n < length l)%nat ->
  exists l', wr l (Z.of_nat n) a = Ok l' /\ length l' = length l /\ firstn (S n) l' = firstn n l ++ [a].
Proof.
  intros A l n a H. unfold wr. unfold zlen.
  replace ((0 <=? Z.of_nat n) && (Z.of_nat n <? Z.of_nat (length l))) with true by lia.
  rewrite Nat2Z.id. eexists. split; [reflexivity|]. 
  assert (Hfl : length (firstn n l) = n) by (rewrite firstn_length; lia).
  split.
  - rewrite app_length, Hfl. cbn [length]. rewrite skipn_length. lia.
  - rewrite firstn_app, Hfl. replace (S n - n)%nat with 1%nat by lia.
    rewrite firstn_all2 by lia. reflexivity.
Qed.

Lemma push_ok : forall it st g, stk it st ->
  exists it', PushGroup it g = Ok it' /\ stk it' (g :: st) /\ i_recursive it' = i_recursive it /\
    i_group it' = i_group it /\ i_pos it' = i_pos it.
Proof.
  intros it st g [Hnb Hst]. unfold PushGroup. destruct (i_groups it) as [arr|] eqn:Ea.
  - destruct Hst as [H4 [Hle Hf]].
    assert (Hgs : exists arr2, (if i_nb it =? zlen arr then Ok (arr ++ repeat 0 (length arr), i_nb it) else Ok (arr, i_nb it))
        = Ok (arr2, i_nb it) /\ (length st < length arr2)%nat /\ 4 <= zlen arr2 /\ firstn (length st) arr2 = rev st).
    { destruct (Z.eqb_spec (i_nb it) (zlen arr)) as [E|E].
      - exists (arr ++ repeat 0 (length arr)). split; [reflexivity|]. unfold zlen in *. rewrite app_length, repeat_length.
        split; [lia|]. split; [lia|]. rewrite firstn_app_le by lia. exact Hf.
      - exists arr. split; [reflexivity|]. unfold zlen in *. split; [lia|]. split; [lia|]. exact Hf. }
    destruct Hgs as [arr2 [Hg2 [Hlt [H42 Hf2]]]]. rewrite Hg2. cbn [obind fst snd].
    destruct (wr_at _ arr2 (length st) g Hlt) as [arr3 [Hw [Hl3 Hf3]]].
    rewrite Hnb. change (zlen st) with (Z.of_nat (length st)). rewrite Hw. cbn [obind].
    eexists. split; [reflexivity|]. split; [|auto]. unfold stk. cbn [i_nb i_groups].
    unfold zlen in *. cbn [length rev]. split; [lia|]. rewrite Hl3. split; [lia|]. split; [lia|]. rewrite Hf3, Hf2. reflexivity.
  - subst st. cbn [obind fst snd]. change (wr (repeat 0 4) 0 g) with (Ok [g; 0; 0; 0]). cbn [obind].
    eexists. split; [reflexivity|]. split; [|auto]. unfold stk. cbn [i_nb i_groups]. split; [reflexivity|].
    split; [vm_compute; discriminate|]. split; [vm_compute; discriminate|]. reflexivity.
Qed.

Lemma pop_ok : forall it g st, stk it (g :: st) ->
  exists it', PopGroup it = Ok (g, it') /\ stk it' st /\ i_recursive it' = i_recursive it.
Proof.
  intros it g st [Hnb Hst]. unfold PopGroup. rewrite zlen_cons in Hnb. pose proof (zlen_nonneg _ st).
  replace (i_nb it >? 0) with true by lia. cbn [assert obind].
  destruct (i_groups it) as [arr|] eqn:Ea; [|discriminate]. destruct Hst as [H4 [Hle Hf]]. rewrite zlen_cons in Hle.
  cbn [length rev] in Hf.
  assert (Hrd : rd arr (i_nb it - 1) = Ok g).
  { unfold rd. replace (i_nb it - 1) with (zlen st) by lia.
    rewrite <- (firstn_skipn (S (length st)) arr), Hf, <- app_assoc.
    rewrite znth_app_r by (rewrite zlen_rev; lia). rewrite zlen_rev, Z.sub_diag. cbn [app]. rewrite znth_0. reflexivity. }
  rewrite Hrd. cbn [obind]. eexists. split; [reflexivity|]. split; [|reflexivity].
  unfold stk. cbn [i_nb i_groups]. split; [lia|]. split; [exact H4|]. split; [lia|].
  assert (E : firstn (length st) (firstn (S (length st)) arr) = rev st).
  { rewrite Hf. rewrite firstn_app_le by (rewrite rev_length; lia). rewrite firstn_all2 by (rewrite rev_length; lia). reflexivity. }
  rewrite firstn_firstn in E. replace (Nat.min (length st) (S (length st))) with (length st) in E by lia. exact E.
Qed.

(* ---- abstract run: remaining slots of the current group, stack, objects to come ---- *)
Definition pushes (rec : bool) (hp : heap) (o : object) (st st' : list Z) : Prop :=
  match rec, o_group o with
  | true, Some ch => exists c, znth hp ch = Some c /\ st' = (if g_nb (c_group c) >? 0 then ch :: st else st)
  | _, _ => st' = st
  end.
Inductive D (rec : bool) (hp : heap) : list entry -> list Z -> list object -> Prop :=
| D_end : D rec hp [] [] []
| D_pop : forall ch c st out, znth hp ch = Some c -> D rec hp (g_table (c_group c)) st out -> D rec hp [] (ch :: st) out
| D_none : forall h es st out, D rec hp es st out -> D rec hp ((h, None) :: es) st out
| D_some : forall h o es st st' out, pushes rec hp o st st' -> D rec hp es st' out ->
    D rec hp ((h, Some o) :: es) st (o :: out).

Definition at_next (it : iterator) (n : Z) : iterator :=
  mk_iterator (i_recursive it) (i_groups it) (i_nb it) (i_group it) (i_pos it + n).

Lemma scan_slots_ok : forall hp rec es st out it, D rec hp es st out -> stk it st -> i_recursive it = rec ->
  (exists it', scan_slots hp it es = Ok (false, it') /\ stk it' st /\ i_recursive it' = rec /\ D rec hp [] st out) \/
  (exists it' o out' h pre r st', out = o :: out' /\ es = pre ++ (h, Some o) :: r /\ scan_slots hp it es = Ok (true, it') /\
     stk it' st' /\ i_recursive it' = rec /\ i_group it' = i_group it /\ i_pos it' = i_pos it + zlen pre /\ D rec hp r st' out').
Proof.
  intros hp rec es. induction es as [|[h [o|]] es IH]; intros st out it HD Hst Hrec.
  - left. exists it. auto.
  - right. inversion HD as [| | |h' o' es' st0 st' out' Hp HD']; subst.
    assert (Hs : exists it', scan_slots hp it ((h, Some o) :: es) = Ok (true, it') /\ stk it' st' /\
       i_recursive it' = i_recursive it /\ i_group it' = i_group it /\ i_pos it' = i_pos it).
    { cbn [scan_slots snd]. unfold pushes in Hp. destruct (i_recursive it) eqn:Er.
      - destruct (o_group o) as [ch|].
        + destruct Hp as [c [Hc ->]]. unfold rd. rewrite Hc. cbn [obind]. destruct (g_nb (c_group c) >? 0).
          * destruct (push_ok it st ch Hst) as [it' [H1 [H2 [H3 [H4 H5]]]]]. rewrite H1. cbn [obind].
            exists it'. repeat split; try congruence; apply H2.
          * exists it. auto.
        + subst st'. exists it. auto.
      - subst st'. exists it. auto. }
    destruct Hs as [it' [H1 [H2 [H3 [H4 H5]]]]].
    exists it', o, out', h, [], es, st'. cbn [app]. rewrite zlen_nil. repeat (split; [auto; lia|]). exact HD'.
  - inversion HD as [| |h' es' st0 out' HD'|]; subst. cbn [scan_slots snd].
    destruct (IH st out (at_next it 1) HD' Hst eq_refl) as [[it' [H1 H2]]|[it' [o [out' [h' [pre [r [st' [H1 [H2 [H3 [H4 [H5 [H6 [H7 H8]]]]]]]]]]]]]]].
    + left. exists it'. split; [exact H1|exact H2].
    + right. exists it', o, out', h', ((h, None) :: pre), r, st'. split; [exact H1|]. split; [rewrite H2; reflexivity|].
      split; [exact H3|]. split; [exact H4|]. split; [exact H5|]. split; [exact H6|].
      split; [rewrite H7, zlen_cons; cbn [at_next i_pos]; lia|exact H8].
Qed.

(* scanning positions the iterator on the next object to come *)
Definition ready (rec : bool) (hp : heap) (it : iterator) (out : list object) : Prop :=
  match out with
  | [] => i_group it = None
  | o :: out' => exists g c h st', i_group it = Some g /\ znth hp g = Some c /\ 0 <= i_pos it /\
      znth (g_table (c_group c)) (i_pos it) = Some (h, Some o) /\ stk it st' /\ i_recursive it = rec /\
      D rec hp (skipn (Z.to_nat (i_pos it + 1)) (g_table (c_group c))) st' out'
  end.

Lemma skipn_split : forall A (l pre : list A) n x r, skipn n l = pre ++ x :: r ->
  nth_error l (n + length pre) = Some x /\ skipn (S (n + length pre)) l = r.
Proof.
  intros A l pre n. revert l. induction n as [|n IH]; intros l x r H.
  - rewrite skipn_O in H. subst l. cbn [plus]. split.
    + rewrite nth_error_app2 by lia. rewrite Nat.sub_diag. reflexivity.
    + replace (S (length pre)) with (length (pre ++ [x])) by (rewrite app_length; cbn; lia).
      replace (pre ++ x :: r) with ((pre ++ [x]) ++ r) by (rewrite <- app_assoc; reflexivity).
      rewrite skipn_app, Nat.sub_diag, skipn_all2 by lia. reflexivity.
  - destruct l as [|a l].
    + destruct pre; discriminate.
    + cbn [skipn] in H. destruct (IH l x r H) as [H1 H2]. split; [exact H1|exact H2].
Qed.

Lemma scan_ok : forall rec hp st it g c out fuel, stk it st -> i_recursive it = rec -> i_group it = Some g ->
  znth hp g = Some c -> 0 <= i_pos it ->
  D rec hp (skipn (Z.to_nat (i_pos it)) (g_table (c_group c))) st out -> (length st < fuel)%nat ->
  exists it', ScanForEntry fuel hp it = Ok it' /\ ready rec hp it' out.
Proof.
  intros rec hp st. induction st as [|ch st IH]; intros it g c out fuel Hst Hrec Hg Hc Hpos HD Hf;
    (destruct fuel as [|fuel]; [lia|]); cbn [ScanForEntry]; rewrite Hg; unfold rd at 1; rewrite Hc; cbn [obind];
    destruct (scan_slots_ok hp rec _ _ out it HD Hst Hrec)
      as [[it' [H1 [H2 [H3 H4]]]]|[it' [o [out' [h' [pre [r [st' [H1 [H2 [H3 [H4 [H5 [H6 [H7 H8]]]]]]]]]]]]]]];
    try (rewrite H1); try (rewrite H3); cbn [obind fst snd].
  - inversion H4; subst. destruct H2 as [Hnb _]. rewrite Hnb, zlen_nil. cbn [Z.gtb Z.compare].
    eexists. split; [reflexivity|]. reflexivity.
  - exists it'. split; [reflexivity|]. destruct (skipn_split _ _ _ _ _ _ H2) as [Hx1 Hx2].
    subst out. exists g, c, h', st'. split; [congruence|]. split; [exact Hc|]. pose proof (zlen_nonneg _ pre). split; [lia|].
    split; [rewrite H7; unfold znth; destruct (Z.ltb_spec (i_pos it + zlen pre) 0); [lia|]; rewrite <- Hx1; f_equal; unfold zlen; lia|].
    split; [exact H4|]. split; [exact H5|].
    replace (Z.to_nat (i_pos it' + 1)) with (S (Z.to_nat (i_pos it) + length pre)) by (rewrite H7; unfold zlen; lia).
    rewrite Hx2. exact H8.
  - inversion H4 as [|ch' c' st0 out0 Hc' HD'| |]; subst.
    pose proof H2 as [Hnb _]. rewrite Hnb, zlen_cons. pose proof (zlen_nonneg _ st).
    replace (1 + zlen st >? 0) with true by lia.
    destruct (pop_ok it' ch st H2) as [it2 [Hp1 [Hp2 Hp3]]]. rewrite Hp1. cbn [obind fst snd].
    apply (IH (mk_iterator (i_recursive it2) (i_groups it2) (i_nb it2) (Some ch) 0) ch c').
    + exact Hp2.
    + cbn [i_recursive]. congruence.
    + reflexivity.
    + exact Hc'.
    + cbn [i_pos]. lia.
    + cbn [i_pos]. exact HD'.
    + cbn [length] in Hf. lia.
  - exists it'. split; [reflexivity|]. destruct (skipn_split _ _ _ _ _ _ H2) as [Hx1 Hx2].
    subst out. exists g, c, h', st'. split; [congruence|]. split; [exact Hc|]. pose proof (zlen_nonneg _ pre). split; [lia|].
    split; [rewrite H7; unfold znth; destruct (Z.ltb_spec (i_pos it + zlen pre) 0); [lia|]; rewrite <- Hx1; f_equal; unfold zlen; lia|].
    split; [exact H4|]. split; [exact H5|].
    replace (Z.to_nat (i_pos it' + 1)) with (S (Z.to_nat (i_pos it) + length pre)) by (rewrite H7; unfold zlen; lia).
    rewrite Hx2. exact H8.
Qed.

Lemma drain_ok : forall rec hp out it fuel, ready rec hp it out -> (length out < fuel)%nat -> drain fuel hp it = Ok out.
Proof.
  intros rec hp out. induction out as [|o out IH]; intros it fuel Hr Hf; (destruct fuel as [|fuel]; [lia|]); cbn [drain].
  - cbn in Hr. unfold iter_valid. rewrite Hr. reflexivity.
  - destruct Hr as [g [c [h [st' [H1 [H2 [H3 [H4 [H5 [H6 H7]]]]]]]]]]. unfold iter_valid, iter_get. rewrite H1.
    unfold rd. rewrite H2. cbn [obind]. rewrite H4. cbn [obind snd].
    unfold iter_next, scan.
    destruct (scan_ok rec hp st' (mk_iterator (i_recursive it) (i_groups it) (i_nb it) (i_group it) (i_pos it + 1)) g c out
      (S (S (Z.to_nat (i_nb it)))) H5 H6 H1 H2 ltac:(cbn; lia) H7) as [it' [Hs Hr']].
    + destruct H5 as [Hnb _]. rewrite Hnb. unfold zlen. lia.
    + cbn [i_nb] in *. rewrite Hs. cbn [obind]. rewrite (IH it' fuel Hr') by (cbn [length] in Hf; lia). reflexivity.
Qed.

Lemma iter_ok : forall rec hp g c out fuel, znth hp g = Some c ->
  D rec hp (g_table (c_group c)) [] out -> (length out < fuel)%nat ->
  (do it <- iter_new hp g rec; drain fuel hp it) = Ok out.
Proof.
  intros rec hp g c out fuel Hc HD Hf. unfold iter_new, scan.
  destruct (scan_ok rec hp [] (mk_iterator rec None 0 (Some g) 0) g c out (S (S (Z.to_nat 0)))) as [it' [Hs Hr]];
    try reflexivity; try assumption.
  - split; reflexivity.
  - cbn [length]. lia.
  - cbn [i_nb] in *. rewrite Hs. cbn [obind]. eapply drain_ok; eauto.
Qed.

(* ---- single iteration ---- *)
Lemma lives_none : forall h es, lives ((h, None) :: es) = lives es. Proof. reflexivity. Qed.
Lemma lives_some : forall h o es, lives ((h, Some o) :: es) = o :: lives es. Proof. reflexivity. Qed.
Lemma D_single : forall hp es, D false hp es [] (lives es).
Proof.
  intros hp. induction es as [|[h [o|]] es IH].
  - constructor.
  - rewrite lives_some. econstructor; [reflexivity|exact IH].
  - rewrite lives_none. constructor. exact IH.
Qed.
Lemma G_lives : forall g m, G g m -> Permutation (lives (g_table g)) m /\ g_nb g = zlen m.
Proof. intros g m [k [_ [HC [Hnb _]]]]. split; [apply HC|exact Hnb]. Qed.

Lemma iter_single : forall hp g m fuel, holds hp g m -> (length m < fuel)%nat ->
  exists out, (do it <- iter_new hp g false; drain fuel hp it) = Ok out /\ Permutation out m.
Proof.
  intros hp g m fuel [c [Hc Hr]] Hf. destruct (reachable_G _ _ Hr) as [HG _]. destruct (G_lives _ _ HG) as [Hp _].
  exists (lives (g_table (c_group c))). split; [|exact Hp].
  apply (iter_ok false hp g c); [exact Hc|apply D_single|]. rewrite (Permutation_length Hp). exact Hf.
Qed.

(* ---- recursive iteration ---- *)
(* the same tree in table order *)
Inductive kobjs (hp : heap) : Z -> list object -> Prop :=
| kobjs_intro : forall g c l, znth hp g = Some c -> g_nb (c_group c) = zlen (lives (g_table (c_group c))) ->
    knest hp (lives (g_table (c_group c))) l -> kobjs hp g (lives (g_table (c_group c)) ++ l)
with knest (hp : heap) : list object -> list object -> Prop :=
| knest_nil : knest hp [] []
| knest_leaf : forall o os l, o_group o = None -> knest hp os l -> knest hp (o :: os) l
| knest_group : forall o os child l1 l2, o_group o = Some child ->
    kobjs hp child l1 -> knest hp os l2 -> knest hp (o :: os) (l1 ++ l2).

Scheme objects_mind := Induction for objects Sort Prop
  with nested_mind := Induction for nested Sort Prop.
Scheme kobjs_mind := Induction for kobjs Sort Prop
  with knest_mind := Induction for knest Sort Prop.

Lemma knest_perm : forall hp os os', Permutation os os' -> forall l, knest hp os l ->
  exists l', knest hp os' l' /\ Permutation l l'.
Proof.
  intros hp os os' H. induction H as [|x os os' H IH|x y os|os os' os'' H1 IH1 H2 IH2]; intros l Hn.
  - exists l. auto.
  - inversion Hn; subst.
    + destruct (IH l ltac:(assumption)) as [l' [Ha Hb]]. exists l'. split; [apply knest_leaf; auto|exact Hb].
    + destruct (IH l2 ltac:(assumption)) as [l' [Ha Hb]]. exists (l1 ++ l'). split; [eapply knest_group; eauto|]. apply Permutation_app_head. exact Hb.
  - inversion Hn as [|? ? ? Hg1 Hn1|? ? ? ? ? Hg1 Ho1 Hn1]; subst; inversion Hn1 as [|? ? ? Hg2 Hn2|? ? ? ? ? Hg2 Ho2 Hn2]; subst.
    + exists l. split; [|reflexivity]. apply knest_leaf; [assumption|]. apply knest_leaf; assumption.
    + eexists. split; [eapply knest_group; eauto; apply knest_leaf; eauto|]. reflexivity.
    + eexists. split; [apply knest_leaf; eauto; eapply knest_group; eauto|]. reflexivity.
    + eexists. split; [eapply knest_group; eauto; eapply knest_group; eauto|].
      rewrite !app_assoc. apply Permutation_app_tail. apply Permutation_app_comm.
  - destruct (IH1 l Hn) as [l1 [Ha Hb]]. destruct (IH2 l1 Ha) as [l2 [Hc Hd]]. exists l2. split; [exact Hc|]. eapply perm_trans; eauto.
Qed.

Lemma objects_kobjs : forall hp g l, objects hp g l -> exists l', kobjs hp g l' /\ Permutation l l'.
Proof.
  intros hp.
  apply (objects_mind hp (fun g l _ => exists l', kobjs hp g l' /\ Permutation l l')
                         (fun os l _ => exists l', knest hp os l' /\ Permutation l l')).
  - intros g m l [c [Hc Hr]] Hn [l1 [H1 H2]]. destruct (reachable_G _ _ Hr) as [HG _]. destruct (G_lives _ _ HG) as [Hp Hnb].
    destruct (knest_perm hp m _ (Permutation_sym Hp) l1 H1) as [l2 [H3 H4]].
    eexists. split; [apply kobjs_intro; [exact Hc| |exact H3]|].
    + rewrite Hnb. unfold zlen. rewrite (Permutation_length Hp). reflexivity.
    + apply Permutation_app; [apply Permutation_sym; exact Hp|]. eapply perm_trans; eauto.
  - exists []. split; constructor.
  - intros o os l Hg Hn [l' [H1 H2]]. exists l'. split; [apply knest_leaf; assumption|exact H2].
  - intros o os ch l1 l2 Hg Ho [l1' [H1 H2]] Hn [l2' [H3 H4]]. exists (l1' ++ l2').
    split; [eapply knest_group; eauto|]. apply Permutation_app; assumption.
Qed.

Lemma lives_cons_split : forall es o os, lives es = o :: os ->
  exists pre h r, es = pre ++ (h, Some o) :: r /\ lives pre = [] /\ lives r = os.
Proof.
  induction es as [|[h [o'|]] es IH]; intros o os H.
  - discriminate.
  - rewrite lives_some in H. injection H as <- <-. exists [], h, es. auto.
  - destruct (IH o os H) as [pre [h' [r [H1 [H2 H3]]]]]. exists ((h, None) :: pre), h', r. rewrite H1. auto.
Qed.
Lemma D_nones : forall rec hp pre es st out, lives pre = [] -> D rec hp es st out -> D rec hp (pre ++ es) st out.
Proof.
  induction pre as [|[h [o|]] pre IH]; intros es st out Hl HD; [exact HD|discriminate|].
  cbn [app]. constructor. apply IH; [exact Hl|exact HD].
Qed.

Lemma kobjs_D : forall hp g l, kobjs hp g l -> forall st out_st, D true hp [] st out_st ->
  exists c out, znth hp g = Some c /\ D true hp (g_table (c_group c)) st out /\ Permutation out (l ++ out_st) /\
    (g_nb (c_group c) <= 0 -> l = []).
Proof.
  intros hp.
  refine (kobjs_mind hp
    (fun g l _ => forall st out_st, D true hp [] st out_st ->
       exists c out, znth hp g = Some c /\ D true hp (g_table (c_group c)) st out /\ Permutation out (l ++ out_st) /\
       (g_nb (c_group c) <= 0 -> l = []))
    (fun os l _ => forall es st out_st, lives es = os -> D true hp [] st out_st ->
       exists out, D true hp es st out /\ Permutation out (os ++ l ++ out_st)) _ _ _ _).
  - (* group *)
    intros g c l Hc Hnb Hn IH st out_st HD.
    destruct (IH (g_table (c_group c)) st out_st eq_refl HD) as [out [H1 H2]].
    exists c, out. split; [exact Hc|]. split; [exact H1|]. split; [rewrite <- app_assoc; exact H2|].
    intros H0. rewrite Hnb in H0. pose proof (zlen_nonneg _ (lives (g_table (c_group c)))).
    assert (E : zlen (lives (g_table (c_group c))) = 0) by lia.
    apply zlen_0_nil in E. rewrite E in *. inversion Hn. reflexivity.
  - (* nil *)
    intros es st out_st Hl HD. exists out_st. split; [|reflexivity].
    rewrite <- (app_nil_r es). apply D_nones; assumption.
  - intros o os l Hg Hn IH es st out_st Hl HD. destruct (lives_cons_split es o os Hl) as [pre [h [r [-> [H2 H3]]]]].
    destruct (IH r st out_st H3 HD) as [out [H4 H5]]. exists (o :: out). split.
    + apply D_nones; [exact H2|]. econstructor; [|exact H4]. unfold pushes. rewrite Hg. reflexivity.
    + cbn [app]. constructor. exact H5.
  - intros o os ch l1 l2 Hg Ho IHo Hn IHn es st out_st Hl HD.
    destruct (lives_cons_split es o os Hl) as [pre [h [r [-> [H2 H3]]]]].
    destruct (IHo st out_st HD) as [c [X [Hc [HX1 [HX2 HX3]]]]].
    destruct (Z.gtb_spec (g_nb (c_group c)) 0) as [Hpos|Hz].
    + destruct (IHn r (ch :: st) X H3) as [out [H4 H5]]; [econstructor; eauto|].
      exists (o :: out). split.
      * apply D_nones; [exact H2|]. econstructor; [|exact H4]. unfold pushes. rewrite Hg. exists c. split; [exact Hc|].
        replace (g_nb (c_group c) >? 0) with true by lia. reflexivity.
      * cbn [app]. constructor. eapply perm_trans; [exact H5|]. apply Permutation_app_head.
        eapply perm_trans; [apply Permutation_app_head; exact HX2|]. rewrite !app_assoc. apply Permutation_app_tail.
        apply Permutation_app_comm.
    + rewrite (HX3 Hz) in *. destruct (IHn r st out_st H3 HD) as [out [H4 H5]].
      exists (o :: out). split.
      * apply D_nones; [exact H2|]. econstructor; [|exact H4]. unfold pushes. rewrite Hg. exists c. split; [exact Hc|].
        replace (g_nb (c_group c) >? 0) with false by lia. reflexivity.
      * cbn [app]. constructor. exact H5.
Qed.

Lemma iter_recursive : forall hp g l fuel, objects hp g l -> (length l < fuel)%nat ->
  exists out, (do it <- iter_new hp g true; drain fuel hp it) = Ok out /\ Permutation out l.
Proof.
  intros hp g l fuel H Hf. destruct (objects_kobjs hp g l H) as [l' [H1 H2]].
  destruct (kobjs_D hp g l' H1 [] [] (D_end true hp)) as [c [out [Hc [HD [Hp _]]]]]. rewrite app_nil_r in Hp.
  assert (Hpl : Permutation out l) by (eapply perm_trans; [exact Hp|apply Permutation_sym; exact H2]).
  exists out. split; [|exact Hpl]. apply (iter_ok true hp g c); [exact Hc|exact HD|].
  rewrite (Permutation_length Hpl). exact Hf.
Qed.

(* ---- what relative lookup does on longer paths ---- *)
Lemma relative_loop_flat : forall hp this m pre cur last lastg ids' fuel,
  holds hp this m ->
  Forall (fun id => exists o ch, lookup m id = Some o /\ o_group o = Some ch) pre ->
  (exists o, lookup m last = Some o /\ o_group o = Some lastg) ->
  (length pre + 1 < fuel)%nat -> zlen pre + 2 < 2 ^ 32 ->
  relative_loop fuel hp this cur (pre ++ last :: [ids']) (zlen pre + 2) = Ok (Some (lastg, [ids'])).
Proof.
  intros hp this m pre. induction pre as [|id pre IH]; intros cur last lastg ids' fuel Hh Hp [o [Ho Hg]] Hf Hb.
  - cbn [length] in Hf. destruct fuel as [|[|fuel]]; try lia. cbn [relative_loop app]. rewrite zlen_nil.
    change (u32 (0 + 2 - 1)) with 1. cbn [Z.gtb Z.compare].
    change (rd [last; ids'] 0) with (Ok last). cbn [obind].
    destruct (holds_find hp this m last Hh) as [c [Hc Hfo]]. rewrite Hc. cbn [obind]. rewrite Hfo. cbn [obind]. rewrite Ho, Hg.
    reflexivity.
  - cbn [length] in Hf. destruct fuel as [|fuel]; [lia|]. cbn [relative_loop app]. rewrite zlen_cons in *. pose proof (zlen_nonneg _ pre).
    replace (u32 (1 + zlen pre + 2 - 1)) with (zlen pre + 2) by (unfold u32; rewrite Z.mod_small; lia).
    replace (zlen pre + 2 >? 0) with true by lia.
    change (rd (id :: pre ++ [last; ids']) 0) with (Ok id). cbn [obind tl].
    inversion Hp as [|a b [o1 [ch1 [H1 H2]]] Hp2]; subst a b.
    destruct (holds_find hp this m id Hh) as [c [Hc Hfo]]. rewrite Hc. cbn [obind]. rewrite Hfo. cbn [obind]. rewrite H1, H2.
    apply IH; auto; try lia. eauto.
Qed.
Lemma relative_flat : forall hp this m pre last lastg id,
  holds hp this m ->
  Forall (fun id => exists o ch, lookup m id = Some o /\ o_group o = Some ch) pre ->
  (exists o, lookup m last = Some o /\ o_group o = Some lastg) ->
  zlen pre + 2 < 2 ^ 32 -> forall ml, holds hp lastg ml ->
  FindObjectRelative hp this (pre ++ [last; id]) (zlen pre + 2) = Ok (lookup ml id).
Proof.
  intros hp this m pre last lastg id Hh Hp Hl Hb ml Hml. unfold FindObjectRelative.
  rewrite (relative_loop_flat hp this m pre this last lastg id); auto.
  - cbn [obind]. change (rd [id] 0) with (Ok id). cbn [obind]. destruct (holds_find hp lastg ml id Hml) as [c [Hc Hfo]].
    rewrite Hc. cbn [obind]. exact Hfo.
  - rewrite app_length. cbn [length]. lia.
Qed.

(* ---- create and destroy ---- *)
Lemma create_ok : forall t id ptr ch g m, creatable t -> reachable g m ->
  s_ok m (GAdd (mk_object id ptr ch)) ->
  exists g', CreateObject (Some t) id ptr ch (Some g) = Ok (Some (mk_object id ptr ch), Some g') /\
    reachable g' (mk_object id ptr ch :: m).
Proof.
  intros t id ptr ch g m [H1 H2] Hr Hok. unfold CreateObject. rewrite H1. cbn [negb].
  assert (E : negb (ct_is_object_group t) && (negb (ct_has_ctor t) || negb (ct_has_dtor t)) = false)
    by (destruct H2 as [->|[-> ->]]; [reflexivity|destruct (ct_is_object_group t); reflexivity]).
  rewrite E.
  destruct (reachable_G _ _ Hr) as [HG Hids]. destruct (add_ok g m (mk_object id ptr ch) HG Hids Hok) as [g' [Ha _]].
  rewrite Ha. cbn [obind]. exists g'. split; [reflexivity|].
  destruct Hr as [l [Hl [Hrun Hm]]]. exists (l ++ [GAdd (mk_object id ptr ch)]). subst m. split; [|split].
  - clear -Hl Hok. unfold s_run in Hok. revert Hl Hok. generalize (@nil object). induction l as [|op l IH]; intros m Hl Hok; cbn in *.
    + auto.
    + destruct Hl as [Ha Hb]. split; [exact Ha|]. apply IH; auto.
  - clear -Hrun Ha. revert Hrun. generalize group_new. induction l as [|op l IH]; intros g0 Hrun; cbn [g_run app] in *.
    + injection Hrun as ->. cbn [g_step]. rewrite Ha. reflexivity.
    + destruct (g_step g0 op) as [g1| | |]; cbn [obind] in *; try discriminate. apply IH. exact Hrun.
  - unfold s_run. rewrite fold_left_app. reflexivity.
Qed.
Lemma create_refused : forall ty id ptr ch g, (match ty with None => True | Some t => ~ creatable t end) ->
  CreateObject ty id ptr ch g = Ok (None, g).
Proof.
  intros [[c og ct dt]|] id ptr ch g H; [|reflexivity]. unfold CreateObject, creatable in *. cbn in *.
  destruct c; cbn; [|reflexivity]. destruct og; cbn; [exfalso; apply H; auto|]. destruct ct; cbn; [|reflexivity].
  destruct dt; cbn; [|reflexivity]. exfalso. apply H. auto.
Qed.
Lemma destroy_ok : forall t o g m, creatable t -> reachable g m -> In o m ->
  exists g', DestroyObject t o (Some g) = Ok (Some g') /\
    reachable g' (filter (fun o' => negb (o_id o' =? o_id o)) m).
Proof.
  intros t o g m [H1 H2] Hr Hin. unfold DestroyObject.
  assert (E : (if ct_is_object_group t then Ok tt else do _ <- assert (ct_is_class t); assert (ct_has_dtor t)) = Ok tt).
  { rewrite H1. destruct H2 as [->|[_ ->]]; [reflexivity|]. destruct (ct_is_object_group t); reflexivity. }
  rewrite E. cbn [obind]. destruct (reachable_G _ _ Hr) as [HG Hids].
  assert (Hok : s_ok m (GRemove o)) by (exists o; auto).
  destruct (remove_ok g m o HG Hids Hok) as [g' [Ha _]]. rewrite Ha. cbn [obind]. exists g'. split; [reflexivity|].
  destruct Hr as [l [Hl [Hrun Hm]]]. exists (l ++ [GRemove o]). subst m. split; [|split].
  - clear -Hl Hok. unfold s_run in Hok. revert Hl Hok. generalize (@nil object). induction l as [|op l IH]; intros m Hl Hok; cbn [fold_left s_all_ok app] in *.
    + auto.
    + destruct Hl as [Ha Hb]. split; [exact Ha|]. apply IH; auto.
  - clear -Hrun Ha. revert Hrun. generalize group_new. induction l as [|op l IH]; intros g0 Hrun; cbn [g_run app] in *.
    + injection Hrun as ->. cbn [g_step]. rewrite Ha. reflexivity.
    + destruct (g_step g0 op) as [g1| | |]; cbn [obind] in *; try discriminate. apply IH. exact Hrun.
  - unfold s_run. rewrite fold_left_app. reflexivity.
Qed.
Lemma create_destroy : forall t id ptr ch g m, creatable t -> reachable g m ->
  s_ok m (GAdd (mk_object id ptr ch)) ->
  exists g1 g2, CreateObject (Some t) id ptr ch (Some g) = Ok (Some (mk_object id ptr ch), Some g1) /\
    FindObject g1 id = Ok (Some (mk_object id ptr ch)) /\
    DestroyObject t (mk_object id ptr ch) (Some g1) = Ok (Some g2) /\
    (forall id', FindObject g2 id' = FindObject g id').
Proof.
  intros t id ptr ch g m Hc Hr Hok. destruct (create_ok t id ptr ch g m Hc Hr Hok) as [g1 [H1 Hr1]].
  destruct (destroy_ok t (mk_object id ptr ch) g1 _ Hc Hr1 (or_introl eq_refl)) as [g2 [H2 Hr2]].
  exists g1, g2. split; [exact H1|]. split.
  - rewrite (find_ok g1 _ id (proj1 (reachable_G _ _ Hr1))). unfold lookup. cbn [find o_id]. rewrite Z.eqb_refl. reflexivity.
  - split; [exact H2|]. intros id'. rewrite (find_ok g2 _ id' (proj1 (reachable_G _ _ Hr2))), (find_ok g _ id' (proj1 (reachable_G _ _ Hr))).
    f_equal. cbn [filter o_id]. rewrite Z.eqb_refl. cbn [negb]. f_equal.
    destruct Hok as [_ [_ [Hfresh _]]]. clear -Hfresh. cbn [o_id] in Hfresh. induction m as [|a m IH]; [reflexivity|].
    cbn [filter]. destruct (Z.eqb_spec (o_id a) id) as [E|E].
    + exfalso. apply (Hfresh a); [left; reflexivity|exact E].
    + cbn [negb]. f_equal. apply IH. intros o' Ho. apply Hfresh. right. exact Ho.
Qed.
