(* Searching an array in memory is searching the list of its hashes. *)
From Coq Require Import Sorting.Sorted.
From Verif Require Import Base BaseProofs HashModel HashSpec SearchModel SearchProofs QueryModel.
#[local] Open Scope Z_scope.
#[local] Open Scope list_scope.

Lemma bsearch_loop_ext : forall get get' h n, n <= 2 ^ 30 -> (forall i, 0 <= i < n -> get i = get' i) -> forall fuel first last, 0 <= first -> last < n ->
  bsearch_loop fuel get h first last = bsearch_loop fuel get' h first last.
Proof.
  intros get get' h n N E. change (2 ^ 30) with 1073741824 in N. induction fuel as [|fuel IH]; intros first last F L; cbn [bsearch_loop]; [reflexivity|]. destruct (Z.leb_spec first last) as [FL|FL]; [|reflexivity].
  destruct ((first + last <? 2147483648) && (-2147483648 <=? first + last)); [|reflexivity]. rewrite Z.quot_div_nonneg by lia.
  assert (M : first <= (first + last) / 2 <= last) by lia. set (mid := (first + last) / 2) in *. assert (U : u32 mid = mid) by (unfold u32; apply Z.mod_small; lia). rewrite U, E by lia.
  destruct (get' mid) as [x| | |]; cbn [obind]; try reflexivity. destruct (h >? x); [apply IH; lia|]. destruct (h <? x); [apply IH; lia|reflexivity].
Qed.
Lemma bsearch_ext : forall get get' h n, 0 <= n <= 2 ^ 30 -> (forall i, 0 <= i < n -> get i = get' i) -> BinarySearch n get h = BinarySearch n get' h.
Proof.
  intros get get' h n N E. unfold BinarySearch. apply (bsearch_loop_ext get get' h n); [lia|exact E|lia|]. change (2 ^ 30) with 1073741824 in N. unfold s32, u32. destruct (Z.eq_dec n 0) as [->|NZ]; [cbn; lia|].
  rewrite (Z.mod_small (n - 1)) by lia. destruct (n - 1 <? 2147483648) eqn:Q; lia.
Qed.
Lemma nb_down_ext : forall get get' h n, (forall i, 0 <= i < n -> get i = get' i) -> forall fuel first, first <= n -> nb_down fuel get h first = nb_down fuel get' h first.
Proof.
  intros get get' h n E. induction fuel as [|fuel IH]; intros first F; cbn [nb_down]; [reflexivity|]. destruct (Z.gtb_spec first 0); [|reflexivity]. rewrite E by lia. destruct (get' (first - 1)); cbn [obind]; try reflexivity. destruct (_ =? h); [apply IH; lia|reflexivity].
Qed.
Lemma nb_up_ext : forall get get' h n, 0 <= n <= 2 ^ 30 -> (forall i, 0 <= i < n -> get i = get' i) -> forall fuel last, 0 <= last -> nb_up fuel n get h last = nb_up fuel n get' h last.
Proof.
  intros get get' h n N E. induction fuel as [|fuel IH]; intros last F; cbn [nb_up]; [reflexivity|]. destruct (Z.ltb_spec last n); [|reflexivity]. rewrite E by lia. destruct (get' last); cbn [obind]; try reflexivity. destruct (_ =? h); [|reflexivity]. apply IH.
  unfold u32. apply Z.mod_pos_bound. reflexivity.
Qed.

Section Array.
Variables (get_hash : Z -> outcome Z) (base : Z) (mem : list Z) (a stride D : Z) (hs : list Z).
Hypothesis SZ : array_size base mem a = Ok (zlen hs).
Hypothesis DT : array_data base mem a = Ok D.
Hypothesis EL : forall j h, nth_error hs j = Some h -> get_hash (D + Z.of_nat j * stride) = Ok h.
Hypothesis SO : StronglySorted Z.le hs.
Hypothesis SM : zlen hs <= 2 ^ 30.
Notation l := (@map Z (entry unit) (fun h => (h, tt)) hs).
Lemma l_zlen : zlen l = zlen hs.
Proof. unfold zlen. rewrite map_length. reflexivity. Qed.
Lemma l_nth : forall j, nth_error l j = option_map (fun h => (h, tt) : entry unit) (nth_error hs j).
Proof. intros j. apply nth_error_map. Qed.
Lemma l_sorted : sorted_by_hash l.
Proof.
  unfold sorted_by_hash. clear -SO. induction SO as [|h hs' S IH F]; cbn [map]; [constructor|]. constructor; [exact (IH S)|]. rewrite Forall_map. exact F.
Qed.
Lemma element_at : forall j, (j < length hs)%nat -> element base mem a stride (Z.of_nat j) = Ok (D + Z.of_nat j * stride).
Proof. intros j J. unfold element. rewrite SZ. cbn [obind]. unfold zlen. replace (Z.of_nat j <? Z.of_nat (length hs)) with true by lia. rewrite DT. reflexivity. Qed.
Lemma gets : forall i, 0 <= i < zlen hs -> hash_of_element get_hash base mem a stride i = SearchModel.get_hash l i.
Proof.
  intros i I. unfold zlen in I. destruct (nth_error hs (Z.to_nat i)) as [h|] eqn:E; [|apply nth_error_None in E; lia]. unfold hash_of_element. replace i with (Z.of_nat (Z.to_nat i)) at 1 by lia. rewrite element_at by lia. cbn [obind]. rewrite (EL _ _ E).
  unfold SearchModel.get_hash, rdA, znth. replace (i <? 0) with false by lia. rewrite l_nth, E. reflexivity.
Qed.
Lemma zlen_pos : 0 <= zlen hs.
Proof. apply zlen_nonneg. Qed.
Lemma search_ok : forall h, exists r, search get_hash base mem a stride h = Ok r /\
  ((r = -1 /\ ~ In h hs) \/ (r <> -1 /\ exists j, nth_error hs j = Some h /\ element base mem a stride (u32 r) = Ok (D + Z.of_nat j * stride))).
Proof.
  intros h. unfold search. rewrite SZ. cbn [obind]. pose proof zlen_pos as ZP. rewrite (bsearch_ext _ _ h (zlen hs) ltac:(lia) gets). assert (SML : zlen l <= 2 ^ 30) by (rewrite l_zlen; exact SM).
  destruct (bsearch_ok _ l h l_sorted SML) as (r & E & [[-> N]|(x & X & Y)]); rewrite l_zlen in E; rewrite E.
  - exists (-1). split; [reflexivity|]. left. split; [reflexivity|]. intros I. apply (N (h, tt)); [apply in_map_iff; eauto|reflexivity].
  - exists r. split; [reflexivity|]. right. pose proof (znth_range _ _ _ _ X) as R. rewrite l_zlen in R. split; [lia|]. exists (Z.to_nat r). unfold znth in X. replace (r <? 0) with false in X by lia. rewrite l_nth in X. destruct (nth_error hs (Z.to_nat r)) as [h'|] eqn:Q; [|discriminate X].
    cbn [option_map] in X. assert (h' = h) by (assert (x = (h', tt)) by congruence; subst x; cbn [fst] in Y; exact Y). subst h'. split; [reflexivity|]. change (2 ^ 30) with 1073741824 in SM. replace (u32 r) with (Z.of_nat (Z.to_nat r)) by (unfold u32; rewrite Z.mod_small by lia; lia).
    apply element_at. apply nth_error_Some. congruence.
Qed.
Lemma overloaded_ok : forall h, exists first last, (do index <- search get_hash base mem a stride h; if index =? -1 then Ok (0, 0)
    else do n <- array_size base mem a; SearchNeighbours n (hash_of_element get_hash base mem a stride) h index) = Ok (first, last) /\
  0 <= first <= last /\ last <= zlen hs /\ (forall j x, nth_error hs j = Some x -> (x = h <-> first <= Z.of_nat j < last)) /\ (first = last -> first = 0 /\ last = 0).
Proof.
  intros h. pose proof zlen_pos as ZP. assert (SML : zlen l <= 2 ^ 30) by (rewrite l_zlen; exact SM). destruct (find_overloaded_ok _ l h l_sorted SML) as (first & last & E & R1 & R2 & R3 & R4). exists first, last. split.
  - rewrite <- E. unfold FindOverloadedPrimitive, search. rewrite SZ. cbn [obind]. rewrite (bsearch_ext _ _ h (zlen hs) ltac:(lia) gets), l_zlen. destruct (bsearch_ok _ l h l_sorted SML) as (r & Q & O). rewrite l_zlen in Q. rewrite Q. cbn [obind]. destruct (Z.eqb_spec r (-1)) as [|N]; [reflexivity|].
    assert (R : 0 <= r < zlen hs) by (destruct O as [[O _]|(x & X & _)]; [lia|apply znth_range in X; rewrite l_zlen in X; exact X]).
    unfold SearchNeighbours. rewrite (nb_down_ext _ _ h (zlen hs) gets) by lia. destruct (nb_down _ _ h r); cbn [obind]; try reflexivity. change (2 ^ 30) with 1073741824 in *. rewrite (nb_up_ext _ _ h (zlen hs) ltac:(lia) gets); [reflexivity|]. unfold u32. apply Z.mod_pos_bound. reflexivity.
  - rewrite l_zlen in R2. split; [exact R1|]. split; [exact R2|]. split; [|exact R4]. intros j x X. specialize (R3 (Z.of_nat j) (x, tt)). cbn [fst] in R3. apply R3. unfold znth. replace (Z.of_nat j <? 0) with false by lia. rewrite Nat2Z.id, l_nth, X. reflexivity.
Qed.
End Array.
