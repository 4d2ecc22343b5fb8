(* Specification and lemmas for SearchModel.v *)
From Verif Require Import Base BaseProofs HashModel HashSpec HashProofs SearchModel.
From Coq Require Import Sorting.Sorted.
Ltac Zify.zify_post_hook ::= Z.div_mod_to_equations.

(* sorted by increasing name hash, duplicates allowed *)
Definition sorted_by_hash {A} (l : list (entry A)) : Prop :=
  StronglySorted (fun a b => fst a <= fst b) l.

Lemma sorted_nth : forall A (l : list (entry A)) i j a b,
  sorted_by_hash l -> znth l i = Some a -> znth l j = Some b -> i <= j -> fst a <= fst b.
Proof.
  intros A l i j a b Hs. revert i j. induction Hs as [|e l Hs IH HF]; intros i j Ha Hb Hij.
  - unfold znth in Ha. destruct (i <? 0); [discriminate|]. destruct (Z.to_nat i); discriminate.
  - pose proof (znth_range _ _ _ _ Ha). pose proof (znth_range _ _ _ _ Hb).
    destruct (Z.eq_dec i 0) as [->|].
    + rewrite znth_0 in Ha. inversion Ha; subst e. destruct (Z.eq_dec j 0) as [->|].
      * rewrite znth_0 in Hb. inversion Hb. lia.
      * rewrite znth_cons in Hb by lia. apply znth_In in Hb. rewrite Forall_forall in HF. apply HF. exact Hb.
    + rewrite znth_cons in Ha by lia. rewrite znth_cons in Hb by lia. eapply IH; eauto. lia.
Qed.

Lemma get_hash_ok : forall A (l : list (entry A)) i, 0 <= i < zlen l ->
  exists e, znth l i = Some e /\ get_hash l i = Ok (fst e).
Proof.
  intros A l i Hi. destruct (znth_in _ l i Hi) as [e He]. exists e. split; [exact He|].
  unfold get_hash, rdA. rewrite He. reflexivity.
Qed.

(* loop invariant: every entry with hash h lies in first..last *)
Lemma bsearch_loop_ok : forall A (l : list (entry A)) h, sorted_by_hash l -> zlen l <= 2 ^ 30 ->
  forall fuel first last, 0 <= first -> -1 <= last < zlen l -> first <= last + 1 ->
  last - first + 1 < 2 ^ Z.of_nat fuel ->
  (forall i e, znth l i = Some e -> fst e = h -> first <= i <= last) ->
  exists r, bsearch_loop (S fuel) (get_hash l) h first last = Ok r /\
    ((r = -1 /\ forall e, In e l -> fst e <> h) \/
     (exists e, znth l r = Some e /\ fst e = h)).
Proof.
  intros A l h Hs Hlen. change (2 ^ 30) with 1073741824 in Hlen.
  induction fuel as [|fuel IH]; intros first last Hf Hl Hfl Hfuel Hinv.
  - change (2 ^ Z.of_nat 0) with 1 in Hfuel. cbn [bsearch_loop].
    destruct (Z.leb_spec first last); [lia|]. exists (-1). split; [reflexivity|]. left. split; [reflexivity|].
    intros e He Heq. apply In_znth in He. destruct He as [i Hi]. specialize (Hinv i e Hi Heq). lia.
  - rewrite Nat2Z.inj_succ, Z.pow_succ_r in Hfuel by lia.
    remember (S fuel) as fu eqn:Hfu. cbn [bsearch_loop].
    destruct (Z.leb_spec first last) as [Hle|Hgt].
    2:{ exists (-1). split; [reflexivity|]. left. split; [reflexivity|].
        intros e He Heq. apply In_znth in He. destruct He as [i Hi]. specialize (Hinv i e Hi Heq). lia. }
    replace ((first + last <? 2147483648) && (-2147483648 <=? first + last)) with true by lia.
    rewrite Z.quot_div_nonneg by lia.
    assert (Hm : first <= (first + last) / 2 <= last) by lia.
    remember ((first + last) / 2) as mid eqn:Hmid.
    assert (Hu : u32 mid = mid) by (unfold u32; apply Z.mod_small; lia). rewrite Hu.
    destruct (get_hash_ok A l mid ltac:(lia)) as [e [He Hg]]. rewrite Hg. cbn [obind].
    destruct (h >? fst e) eqn:Hgt; [|destruct (Z.ltb_spec h (fst e)) as [Hlt|Hge]].
    + subst fu. apply IH; try lia.
      intros i e' Hi Heq. specialize (Hinv i e' Hi Heq).
      destruct (Z.leb_spec i mid); [|lia].
      pose proof (sorted_nth A l i mid e' e Hs Hi He ltac:(lia)). lia.
    + subst fu. apply IH; try lia.
      intros i e' Hi Heq. specialize (Hinv i e' Hi Heq).
      destruct (Z.leb_spec mid i); [|lia].
      pose proof (sorted_nth A l mid i e e' Hs He Hi ltac:(lia)). lia.
    + exists mid. split; [reflexivity|]. right. exists e. split; [exact He|lia].
Qed.

Lemma bsearch_ok : forall A (l : list (entry A)) h, sorted_by_hash l -> zlen l <= 2 ^ 30 ->
  exists r, BinarySearch (zlen l) (get_hash l) h = Ok r /\
    ((r = -1 /\ forall e, In e l -> fst e <> h) \/
     (exists e, znth l r = Some e /\ fst e = h)).
Proof.
  intros A l h Hs Hlen. unfold BinarySearch. pose proof (zlen_nonneg _ l).
  assert (E : s32 (u32 (zlen l - 1)) = zlen l - 1).
  { change (2 ^ 30) with 1073741824 in Hlen. unfold s32, u32.
    destruct (Z.eq_dec (zlen l) 0) as [->|]; [reflexivity|].
    rewrite (Z.mod_small (zlen l - 1)) by lia. rewrite Z.mod_small by lia. lia. }
  rewrite E. apply (bsearch_loop_ok A l h Hs Hlen 32).
  - lia.
  - lia.
  - lia.
  - change (2 ^ Z.of_nat 32) with 4294967296. change (2 ^ 30) with 1073741824 in Hlen. clear E. lia.
  - intros i e Hi _. apply znth_range in Hi. lia.
Qed.

Lemma find_primitive_ok : forall A (l : list (entry A)) h, sorted_by_hash l -> zlen l <= 2 ^ 30 ->
  exists r, FindPrimitive l h = Ok r /\
    match r with
    | Some e => In e l /\ fst e = h
    | None => forall e, In e l -> fst e <> h
    end.
Proof.
  intros A l h Hs Hlen. unfold FindPrimitive.
  destruct (bsearch_ok A l h Hs Hlen) as [r [Hr [[-> Hn]|[e [He Heq]]]]]; rewrite Hr; cbn [obind].
  - cbn [Z.eqb Pos.eqb]. exists None. split; [reflexivity|exact Hn].
  - pose proof (znth_range _ _ _ _ He) as Hrange. destruct (Z.eqb_spec r (-1)); [lia|].
    change (2 ^ 30) with 1073741824 in Hlen.
    assert (Hu : u32 r = r) by (unfold u32; apply Z.mod_small; lia).
    unfold rdA. rewrite Hu, He. cbn [obind]. exists (Some e). split; [reflexivity|].
    split; [eapply znth_In; eauto|exact Heq].
Qed.

Lemma nb_down_ok : forall A (l : list (entry A)) h, forall fuel first,
  0 <= first <= zlen l -> first < Z.of_nat fuel ->
  exists r, nb_down fuel (get_hash l) h first = Ok r /\ 0 <= r <= first /\
    (forall i e, r <= i < first -> znth l i = Some e -> fst e = h) /\
    (0 < r -> exists e, znth l (r - 1) = Some e /\ fst e <> h).
Proof.
  intros A l h. induction fuel as [|fuel IH]; intros first Hf Hfuel; [lia|]. cbn [nb_down].
  destruct (first >? 0) eqn:E.
  - destruct (get_hash_ok A l (first - 1) ltac:(lia)) as [e [He Hg]]. rewrite Hg. cbn [obind].
    destruct (Z.eqb_spec (fst e) h) as [Heq|Hne].
    + destruct (IH (first - 1) ltac:(lia) ltac:(lia)) as [r [Hr [Hrr [Hall Hstop]]]].
      exists r. split; [exact Hr|]. split; [lia|]. split; [|exact Hstop].
      intros i e' Hi Hn. destruct (Z.eq_dec i (first - 1)) as [->|].
      * congruence.
      * apply (Hall i e'); [lia|exact Hn].
    + exists first. split; [reflexivity|]. split; [lia|]. split; [intros; lia|]. intros _. exists e. auto.
  - exists first. split; [reflexivity|]. split; [lia|]. split; intros; lia.
Qed.

Lemma nb_up_ok : forall A (l : list (entry A)) h, zlen l <= 2 ^ 30 -> forall fuel last,
  0 <= last <= zlen l -> zlen l - last < Z.of_nat fuel ->
  exists r, nb_up fuel (zlen l) (get_hash l) h last = Ok r /\ last <= r <= zlen l /\
    (forall i e, last <= i < r -> znth l i = Some e -> fst e = h) /\
    (r < zlen l -> exists e, znth l r = Some e /\ fst e <> h).
Proof.
  intros A l h Hlen. change (2 ^ 30) with 1073741824 in Hlen.
  induction fuel as [|fuel IH]; intros last Hf Hfuel; [lia|]. cbn [nb_up].
  destruct (Z.ltb_spec last (zlen l)).
  - destruct (get_hash_ok A l last ltac:(lia)) as [e [He Hg]]. rewrite Hg. cbn [obind].
    destruct (Z.eqb_spec (fst e) h) as [Heq|Hne].
    + assert (Hu : u32 (last + 1) = last + 1) by (unfold u32; apply Z.mod_small; lia). rewrite Hu.
      destruct (IH (last + 1) ltac:(lia) ltac:(lia)) as [r [Hr [Hrr [Hall Hstop]]]].
      exists r. split; [exact Hr|]. split; [lia|]. split; [|exact Hstop].
      intros i e' Hi Hn. destruct (Z.eq_dec i last) as [->|].
      * congruence.
      * apply (Hall i e'); [lia|exact Hn].
    + exists last. split; [reflexivity|]. split; [lia|]. split; [intros; lia|]. intros _. exists e. auto.
  - exists last. split; [reflexivity|]. split; [lia|]. split; intros; lia.
Qed.

Lemma find_overloaded_ok : forall A (l : list (entry A)) h, sorted_by_hash l -> zlen l <= 2 ^ 30 ->
  exists first last, FindOverloadedPrimitive l h = Ok (first, last) /\
    0 <= first <= last /\ last <= zlen l /\
    (forall i e, znth l i = Some e -> (fst e = h <-> first <= i < last)) /\
    (first = last -> first = 0 /\ last = 0).
Proof.
  intros A l h Hs Hlen. unfold FindOverloadedPrimitive.
  destruct (bsearch_ok A l h Hs Hlen) as [r [Hr [[-> Hn]|[e [He Heq]]]]]; rewrite Hr; cbn [obind].
  - cbn [Z.eqb Pos.eqb]. exists 0, 0. pose proof (zlen_nonneg _ l).
    split; [reflexivity|]. split; [lia|]. split; [lia|]. split; [|auto].
    intros i e He. split; [|lia]. intros Hh. exfalso. eapply Hn; [eapply znth_In; eauto|auto].
  - pose proof (znth_range _ _ _ _ He) as Hrange. destruct (Z.eqb_spec r (-1)); [lia|].
    unfold SearchNeighbours.
    destruct (nb_down_ok A l h (S (Z.to_nat (zlen l))) r ltac:(lia) ltac:(lia)) as [f [Hf [Hfr [Hfa Hfs]]]].
    rewrite Hf. cbn [obind].
    assert (Hu : u32 (r + 1) = r + 1) by (change (2 ^ 30) with 1073741824 in Hlen; unfold u32; apply Z.mod_small; lia).
    rewrite Hu.
    destruct (nb_up_ok A l h Hlen (S (Z.to_nat (zlen l))) (r + 1) ltac:(lia) ltac:(lia)) as [t [Ht [Htr [Hta Hts]]]].
    rewrite Ht. cbn [obind]. exists f, t. split; [reflexivity|]. split; [lia|]. split; [lia|]. split; [|lia].
    intros i e' Hi. split.
    + intros Hh. split.
      * destruct (Z.leb_spec f i); [lia|]. exfalso.
        destruct (Hfs ltac:(apply znth_range in Hi; lia)) as [e2 [He2 Hne]].
        pose proof (sorted_nth A l i (f - 1) e' e2 Hs Hi He2 ltac:(lia)).
        pose proof (sorted_nth A l (f - 1) r e2 e Hs He2 He ltac:(lia)). lia.
      * destruct (Z.ltb_spec i t); [lia|]. exfalso.
        destruct (Hts ltac:(apply znth_range in Hi; lia)) as [e2 [He2 Hne]].
        pose proof (sorted_nth A l t i e2 e' Hs He2 Hi ltac:(lia)).
        pose proof (sorted_nth A l r t e e2 Hs He He2 ltac:(lia)). lia.
    + intros [H1 H2]. destruct (Z.ltb_spec i r); [eapply Hfa; eauto; lia|].
      destruct (Z.eq_dec i r) as [->|]; [congruence|]. eapply Hta; eauto; lia.
Qed.

(* the same answer as a list: the entries of the range are all the matches, in order *)
Lemma filter_range : forall A (l : list (entry A)) h first last,
  0 <= first <= last -> last <= zlen l ->
  (forall i e, znth l i = Some e -> (fst e = h <-> first <= i < last)) ->
  slice l first (last - first) = filter (fun e => fst e =? h) l.
Proof.
  intros A l h. induction l as [|a l IH]; intros first last Hr Hl Hall.
  - rewrite zlen_nil in Hl. unfold slice. rewrite skipn_nil, firstn_nil. reflexivity.
  - rewrite zlen_cons in Hl. cbn [filter].
    assert (Ha : fst a = h <-> first <= 0 < last) by (apply (Hall 0 a); apply znth_0).
    assert (Htl : forall i e, znth l i = Some e -> (fst e = h <-> Z.max 0 (first - 1) <= i < Z.max (Z.max 0 (first - 1)) (last - 1))).
    { intros i e Hi. pose proof (znth_range _ _ _ _ Hi).
      assert (Hi2 : znth (a :: l) (i + 1) = Some e) by (rewrite znth_cons by lia; replace (i + 1 - 1) with i by lia; exact Hi).
      specialize (Hall (i + 1) e Hi2). lia. }
    destruct (Z.eqb_spec (fst a) h) as [Heq|Hne].
    + assert (first = 0) by lia. subst first. specialize (IH 0 (last - 1) ltac:(lia) ltac:(lia)).
      rewrite <- IH.
      * unfold slice. cbn [skipn Z.to_nat]. replace (Z.to_nat (last - 0)) with (S (Z.to_nat (last - 1 - 0))) by lia.
        reflexivity.
      * intros i e Hi. pose proof (znth_range _ _ _ _ Hi). specialize (Htl i e Hi). lia.
    + pose proof (zlen_nonneg _ l). specialize (IH (Z.max 0 (first - 1)) (Z.max (Z.max 0 (first - 1)) (last - 1)) ltac:(lia) ltac:(lia) Htl).
      rewrite <- IH. destruct (Z.eq_dec first last) as [->|].
      * replace (last - last) with 0 by lia.
        replace (Z.max (Z.max 0 (last - 1)) (last - 1) - Z.max 0 (last - 1)) with 0 by lia.
        unfold slice. change (Z.to_nat 0) with O. rewrite !firstn_O. reflexivity.
      * assert (0 < first) by (destruct (Z.eq_dec first 0); [exfalso; apply Hne; apply Ha; lia|lia]).
        unfold slice. replace (Z.to_nat first) with (S (Z.to_nat (Z.max 0 (first - 1)))) by lia. cbn [skipn].
        f_equal. lia.
Qed.

Lemma find_overloaded_list : forall A (l : list (entry A)) h, sorted_by_hash l -> zlen l <= 2 ^ 30 ->
  exists first last, FindOverloadedPrimitive l h = Ok (first, last) /\
    slice l first (last - first) = filter (fun e => fst e =? h) l /\
    (filter (fun e => fst e =? h) l = [] -> first = 0 /\ last = 0).
Proof.
  intros A l h Hs Hlen. destruct (find_overloaded_ok A l h Hs Hlen) as [f [t [H1 [H2 [H3 [H4 H5]]]]]].
  exists f, t. split; [exact H1|].
  pose proof (filter_range A l h f t H2 H3 H4) as E. split; [exact E|].
  intros Hnil. apply H5. rewrite Hnil in E. apply (f_equal (@zlen _)) in E.
  rewrite slice_length in E by lia. rewrite zlen_nil in E. lia.
Qed.

(* names: unique hashes, each being the hash of its text *)
Lemma get_name_text_ok : forall A (names : list (entry A)) text rest,
  sorted_by_hash names -> zlen names <= 2 ^ 30 -> Forall is_byte text -> no_zero text ->
  exists r, GetNameText names (Some (text ++ 0 :: rest)) = Ok r /\
    match r with
    | Some e => In e names /\ fst e = hash32 text 0 /\ hash32 text 0 <> 0
    | None => hash32 text 0 = 0 \/ forall e, In e names -> fst e <> hash32 text 0
    end.
Proof.
  intros A names text rest Hs Hl HF Hn. unfold GetNameText.
  rewrite hash_name_correct by (auto; unfold is_u32; lia). cbn [obind].
  destruct (Z.eqb_spec (hash32 text 0) 0) as [E|E].
  - exists None. auto.
  - destruct (find_primitive_ok A names (hash32 text 0) Hs Hl) as [[e|] [Hr Hp]]; rewrite Hr; [exists (Some e)|exists None]; split; auto; tauto.
Qed.
