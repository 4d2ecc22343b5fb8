From Coq Require Import Permutation.
From Verif Require Import Base BaseProofs Text HashModel HashSpec HashProofs Maps DatabaseModel NamesProofs MergeModel MergeSpec.

Lemma m_range_cons : forall T k k0 (v : T) m, m_range k ((k0, v) :: m) = if k0 =? k then v :: m_range k m else m_range k m.
Proof. intros. unfold m_range. cbn [filter fst]. destruct (k0 =? k); reflexivity. Qed.
Lemma m_range_nil_iff : forall T k (m : zmap T), m_range k m = [] <-> m_find k m = None.
Proof. intros T k m. rewrite m_find_range. destruct (m_range k m); cbn; split; congruence. Qed.

(* ---- adding ---- *)
Lemma wf_tail : forall T (nm : T -> name) k v m, wf_table nm ((k, v) :: m) -> wf_table nm m /\ k = n_hash (nm v) /\ k <> 0.
Proof.
  intros T nm k v m [Hs Hk]. split; [split; [cbn in Hs; tauto|intros; apply Hk; right; assumption]|]. apply Hk. left. reflexivity.
Qed.
Lemma wf_nil : forall T (nm : T -> name), wf_table nm [].
Proof. intros. split; [exact I|]. intros k v []. Qed.
Lemma db_add_ok : forall T (nm : T -> name) v m, wf_table nm m -> n_hash (nm v) <> 0 ->
  db_add (nm v) v m = Ok (mm_insert (n_hash (nm v)) v m) /\ wf_table nm (mm_insert (n_hash (nm v)) v m).
Proof.
  intros T nm v m [Hs Hk] Hnz. unfold db_add. replace (n_hash (nm v) =? 0) with false by lia. split; [reflexivity|].
  split; [apply mm_insert_sorted; exact Hs|]. intros k w H. apply mm_insert_In in H. destruct H as [H|H]; [|auto].
  injection H as -> ->. auto.
Qed.
(* std::map insert of a fresh key is multimap insert *)
Lemma m_set_fresh : forall T k (v : T) m, m_find k m = None -> m_set k v m = mm_insert k v m.
Proof.
  induction m as [|[a w] m IH]; intros H; cbn [m_set mm_insert m_find] in *; [reflexivity|].
  destruct (Z.eqb_spec a k) as [E|E]; [discriminate|]. destruct (Z.ltb_spec a k), (Z.leb_spec a k); try lia; [|reflexivity].
  rewrite IH by exact H. reflexivity.
Qed.
Lemma db_add_unique_ok : forall T (nm : T -> name) v m, m_find (n_hash (nm v)) m = None -> 
  db_add_unique (nm v) v m = db_add (nm v) v m.
Proof.
  intros T nm v m Hf. unfold db_add_unique, db_add, m_insert. rewrite Hf, m_set_fresh by exact Hf. reflexivity.
Qed.

(* ---- uniques ---- *)
Lemma uniques_ok : forall T (nm : T -> name) add, (forall v m, m_find (n_hash (nm v)) m = None -> add (nm v) v m = db_add (nm v) v m) ->
  forall s d, wf_table nm d -> wf_table nm s ->
  exists d', MergeUniques nm add d s = Ok d' /\ wf_table nm d' /\ uniques_merged d s d'.
Proof.
  intros T nm add Hadd. induction s as [|[k v] s IH]; intros d Hd Hs; cbn [MergeUniques].
  - exists d. split; [reflexivity|]. split; [exact Hd|]. intros k. destruct (m_range k d); reflexivity.
  - destruct (wf_tail _ _ _ _ _ Hs) as [Hs' [Hk Hnz]]. destruct (m_find k d) as [w|] eqn:Ef; cbn [obind].
    + destruct (IH d Hd Hs') as [d' [H1 [H2 H3]]]. exists d'. split; [exact H1|]. split; [exact H2|].
      intros k'. rewrite H3, m_range_cons. destruct (Z.eqb_spec k k') as [E|E]; [|reflexivity]. subst k'.
      destruct (m_range k d) eqn:Er; [|reflexivity]. apply m_range_nil_iff in Er. congruence.
    + subst k. rewrite Hadd by exact Ef. destruct (db_add_ok _ nm v d Hd Hnz) as [Ha Hw]. rewrite Ha. cbn [obind].
      destruct (IH _ Hw Hs') as [d' [H1 [H2 H3]]]. exists d'. split; [exact H1|]. split; [exact H2|].
      intros k'. rewrite H3, m_range_cons, m_range_insert by apply Hd. destruct (Z.eqb_spec (n_hash (nm v)) k') as [E|E]; [|reflexivity].
      subst k'. apply m_range_nil_iff in Ef. rewrite Ef. reflexivity.
Qed.
Lemma uniques_again : forall T (nm : T -> name) add s d, (forall k, In k (keys s) -> In k (keys d)) -> MergeUniques nm add d s = Ok d.
Proof.
  induction s as [|[k v] s IH]; intros d H; cbn [MergeUniques]; [reflexivity|].
  destruct (m_find k d) as [w|] eqn:E.
  - cbn [obind]. apply IH. intros k' Hk'. apply H. right. exact Hk'.
  - exfalso. apply m_find_none in E. apply E. apply H. left. reflexivity.
Qed.
Lemma uniques_merged_keys : forall T (d s d' : zmap T), uniques_merged d s d' -> forall k, In k (keys s) -> In k (keys d').
Proof.
  intros T d s d' H k Hk. apply m_find_some_iff. rewrite m_find_range, H. apply m_find_some_iff in Hk. destruct Hk as [v Hv]. 
  rewrite m_find_range in Hv. destruct (m_range k d) as [|x l]; [|exists x; reflexivity]. destruct (m_range k s) as [|y l]; [discriminate|]. exists y. reflexivity.
Qed.

(* uniqueness of keys is kept *)
Lemma range_le1_ssorted : forall T (m : zmap T), sorted (keys m) -> (forall k, (length (m_range k m) <= 1)%nat) -> ssorted (keys m).
Proof.
  induction m as [|[a w] m IH]; intros Hs Hr; [exact I|]. cbn [keys map fst sorted ssorted] in *. split.
  - intros b Hb. destruct Hs as [Hs _]. pose proof (Hs b Hb). destruct (Z.eq_dec a b) as [E|E]; [|lia]. subst b. exfalso.
    specialize (Hr a). rewrite m_range_cons, Z.eqb_refl in Hr. apply m_find_some_iff in Hb. destruct Hb as [v Hv]. rewrite m_find_range in Hv.
    destruct (m_range a m); [discriminate|]. cbn in Hr. lia.
  - apply IH; [tauto|]. intros k. specialize (Hr k). rewrite m_range_cons in Hr. destruct (a =? k); cbn in Hr; lia.
Qed.
Lemma ssorted_range_le1 : forall T (m : zmap T), ssorted (keys m) -> forall k, (length (m_range k m) <= 1)%nat.
Proof.
  induction m as [|[a w] m IH]; intros Hs k; [cbn; lia|]. cbn [keys map fst ssorted] in Hs. rewrite m_range_cons.
  destruct (Z.eqb_spec a k) as [E|E]; [|apply IH; tauto]. subst k.
  assert (Hn : m_range a m = []). { apply m_range_nil_iff. apply m_find_none. intros H. apply Hs in H. lia. }
  rewrite Hn. cbn. lia.
Qed.
Lemma uniques_map : forall T (nm : T -> name) d s d', wf_map nm d -> wf_table nm d' -> uniques_merged d s d' -> wf_map nm d'.
Proof.
  intros T nm d s d' [Hd1 _] Hd' H. split; [|exact Hd']. apply range_le1_ssorted; [apply Hd'|]. intros k. rewrite H.
  pose proof (ssorted_range_le1 _ d Hd1 k). destruct (m_range k d); [|assumption]. destruct (m_range k s); cbn; lia.
Qed.

(* ---- overloads ---- *)
Lemma overloads_ok : forall T (nm : T -> name) eqb s d, wf_table nm d -> wf_table nm s ->
  exists d', MergeOverloads nm eqb d s = Ok d' /\ wf_table nm d' /\ overloads_merged eqb d s d'.
Proof.
  intros T nm eqb. induction s as [|[k v] s IH]; intros d Hd Hs; cbn [MergeOverloads].
  - exists d. split; [reflexivity|]. split; [exact Hd|]. intros k. exists []. rewrite app_nil_r. split; [reflexivity|].
    split; [intros v []|]. split; [intros v []|]. intros a v b H. destruct a; discriminate.
  - destruct (wf_tail _ _ _ _ _ Hs) as [Hs' [Hk Hnz]].
    assert (Hcase : (exists d1, wf_table nm d1 /\
        match m_find k d with None => db_add (nm v) v d | Some _ => if existsb (fun x => eqb x v) (m_range k d) then Ok d else db_add (nm v) v d end = Ok d1 /\
        ((d1 = d /\ existsb (fun x => eqb x v) (m_range k d) = true) \/
         (d1 = mm_insert k v d /\ existsb (fun x => eqb x v) (m_range k d) = false)))).
    { destruct (db_add_ok _ nm v d Hd ltac:(congruence)) as [Ha Hw]. rewrite <- Hk in *.
      destruct (m_find k d) as [w|] eqn:Ef.
      - destruct (existsb (fun x => eqb x v) (m_range k d)) eqn:Ee; eauto 8.
      - apply m_range_nil_iff in Ef. rewrite Ef. cbn [existsb]. eauto 8. }
    destruct Hcase as [d1 [Hw1 [He Hc]]]. rewrite He. cbn [obind].
    destruct (IH d1 Hw1 Hs') as [d' [H1 [H2 H3]]]. exists d'. split; [exact H1|]. split; [exact H2|].
    intros k'. destruct (H3 k') as [new [Hr [Hfrom [Hall Hnodup]]]]. rewrite m_range_cons.
    destruct Hc as [[-> Hex]|[-> Hex]].
    + exists new. split; [exact Hr|]. destruct (Z.eqb_spec k k') as [E|E]; [|auto]. subst k'.
      split; [intros x Hx; right; apply Hfrom; exact Hx|]. split; [|exact Hnodup].
      intros x [<-|Hx]; [|apply Hall; exact Hx]. apply existsb_exists in Hex. destruct Hex as [w [Hw Hew]].
      exists w. split; [rewrite Hr; apply in_or_app; left; exact Hw|auto].
    + rewrite m_range_insert in Hr, Hnodup by apply Hd. destruct (Z.eqb_spec k k') as [E|E].
      * subst k'. exists (v :: new). rewrite <- app_assoc in Hr. cbn [app] in Hr. split; [exact Hr|].
        split; [intros x [<-|Hx]; [left; reflexivity|right; apply Hfrom; exact Hx]|]. split.
        -- intros x [<-|Hx]; [|apply Hall; exact Hx]. exists v. split; [rewrite Hr; apply in_or_app; right; left; reflexivity|auto].
        -- intros a x b Hab w Hw. destruct a as [|y a].
           ++ injection Hab as <- <-. rewrite app_nil_r in Hw. destruct (eqb w v) eqn:Ew; [|reflexivity].
              exfalso. assert (existsb (fun x => eqb x v) (m_range k d) = true) by (apply existsb_exists; eauto). congruence.
           ++ injection Hab as <- Hab. apply (Hnodup a x b Hab). rewrite <- app_assoc. exact Hw.
      * exists new. auto.
Qed.
Lemma overloads_again : forall T (nm : T -> name) eqb s d,
  (forall k v, In (k, v) s -> exists w, In w (m_range k d) /\ eqb w v = true) -> MergeOverloads nm eqb d s = Ok d.
Proof.
  induction s as [|[k v] s IH]; intros d H; cbn [MergeOverloads]; [reflexivity|].
  destruct (H k v (or_introl eq_refl)) as [w [Hw He]].
  assert (Hex : existsb (fun x => eqb x v) (m_range k d) = true) by (apply existsb_exists; eauto). rewrite Hex.
  destruct (m_find k d) eqn:E; [|apply m_range_nil_iff in E; rewrite E in Hw; destruct Hw].
  cbn [obind]. apply IH. intros k' v' H'. apply H. right. exact H'.
Qed.
Lemma overloads_merged_all : forall T (eqb : T -> T -> bool) d s d', overloads_merged eqb d s d' ->
  (forall k v, In (k, v) s -> eqb v v = true) ->
  forall k v, In (k, v) s -> exists w, In w (m_range k d') /\ eqb w v = true.
Proof.
  intros T eqb d s d' H Hrefl k v Hin. destruct (H k) as [new [_ [_ [Hall _]]]].
  destruct (Hall v (proj2 (m_range_In _ _ _ _) Hin)) as [w [Hw [->|He]]]; eauto.
Qed.

(* ---- classes ---- *)
Lemma m_update_range : forall T k (v : T) m k', m_range k' (m_update k v m) =
  if k =? k' then match m_range k' m with [] => [] | _ :: r => v :: r end else m_range k' m.
Proof.
  induction m as [|[a w] m IH]; intros k'; cbn [m_update].
  - destruct (k =? k'); reflexivity.
  - destruct (Z.eqb_spec a k) as [E|E].
    + subst a. rewrite !m_range_cons. destruct (Z.eqb_spec k k'); reflexivity.
    + rewrite !m_range_cons, IH. destruct (Z.eqb_spec k k') as [Ek|Ek]; [|reflexivity]. subst k'.
      replace (a =? k) with false by lia. reflexivity.
Qed.
Lemma m_update_keys : forall T k (v : T) m, keys (m_update k v m) = keys m.
Proof. induction m as [|[a w] m IH]; cbn [m_update keys map fst]; [reflexivity|]. destruct (a =? k); cbn [map fst]; [reflexivity|]. f_equal. exact IH. Qed.
Lemma m_update_In : forall T k (v : T) m e, In e (m_update k v m) -> e = (k, v) \/ In e m.
Proof.
  induction m as [|[a w] m IH]; intros e H; cbn [m_update] in H; [destruct H|].
  destruct (Z.eqb_spec a k) as [E|E]; cbn [In] in *.
  - subst. destruct H as [<-|H]; auto.
  - destruct H as [<-|H]; [auto|]. apply IH in H. tauto.
Qed.
Lemma classes_ok : forall s d, wf_table class_name d -> wf_table class_name s ->
  exists d', MergeClasses d s = Ok d' /\ wf_table class_name d' /\ classes_merged d s d'.
Proof.
  induction s as [|[k v] s IH]; intros d Hd Hs; cbn [MergeClasses].
  - exists d. split; [reflexivity|]. split; [exact Hd|]. intros k. split; [|reflexivity].
    change (m_range k []) with (@nil class). cbn [find hd_error]. destruct (m_find k d) as [c|]; [|reflexivity]. destruct (is_fwd c); reflexivity.
  - destruct (wf_tail _ _ _ _ _ Hs) as [Hs' [Hk Hnz]]. destruct (m_find k d) as [c|] eqn:Ef.
    + fold (is_fwd c). fold (is_fwd v). destruct (is_fwd c && negb (is_fwd v)) eqn:Eb; cbn [obind].
      * apply andb_true_iff in Eb. destruct Eb as [Ec Ev]. apply negb_true_iff in Ev.
        assert (Hw : wf_table class_name (m_update k v d)).
        { split; [rewrite m_update_keys; apply Hd|]. intros k' w H. apply m_update_In in H. destruct H as [H|H]; [|apply Hd; exact H].
          injection H as -> ->. auto. }
        destruct (IH _ Hw Hs') as [d' [H1 [H2 H3]]]. exists d'. split; [exact H1|]. split; [exact H2|].
        intros k'. destruct (H3 k') as [H4 H5]. rewrite (m_find_range _ k' (m_update k v d)), m_update_range in H4. rewrite m_update_range in H5. rewrite m_range_cons.
        destruct (Z.eqb_spec k k') as [E|E].
        -- subst k'. rewrite m_find_range in Ef. destruct (m_range k d) as [|c0 rest] eqn:Er; [discriminate|]. cbn [hd_error] in *.
           injection Ef as ->. rewrite (m_find_range _ k d), Er. cbn [hd_error find]. rewrite Ev in *. rewrite Ec. cbn [negb]. split; [exact H4|exact H5].
        -- rewrite (m_find_range _ k' d). auto.
      * destruct (IH d Hd Hs') as [d' [H1 [H2 H3]]]. exists d'. split; [exact H1|]. split; [exact H2|].
        intros k'. destruct (H3 k') as [H4 H5]. split; [|exact H5]. rewrite H4, m_range_cons. destruct (Z.eqb_spec k k') as [E|E]; [|reflexivity].
        subst k'. rewrite Ef. cbn [find]. destruct (is_fwd c) eqn:Ec; [|reflexivity]. cbn in Eb. destruct (is_fwd v); [reflexivity|discriminate].
    + subst k. destruct (db_add_ok _ class_name v d Hd Hnz) as [Ha Hw]. rewrite Ha. cbn [obind].
      destruct (IH _ Hw Hs') as [d' [H1 [H2 H3]]]. exists d'. split; [exact H1|]. split; [exact H2|].
      intros k'. destruct (H3 k') as [H4 H5]. rewrite (m_find_range _ k' (mm_insert _ _ _)), m_range_insert in H4 by apply Hd. rewrite m_range_insert in H5 by apply Hd.
      rewrite m_range_cons. destruct (Z.eqb_spec (n_hash (class_name v)) k') as [E|E].
      * subst k'. pose proof Ef as Ef'. apply m_range_nil_iff in Ef. rewrite Ef in *. rewrite Ef'. cbn [app hd_error tl] in *.
        split; [|exact H5]. rewrite H4. cbn [find]. destruct (is_fwd v); reflexivity.
      * rewrite (m_find_range _ k' d). auto.
Qed.
Lemma classes_again : forall s d,
  (forall k v, In (k, v) s -> exists c, m_find k d = Some c /\ (is_fwd c = true -> is_fwd v = true)) -> MergeClasses d s = Ok d.
Proof.
  induction s as [|[k v] s IH]; intros d H; cbn [MergeClasses]; [reflexivity|].
  destruct (H k v (or_introl eq_refl)) as [c [Hc Hf]]. rewrite Hc. fold (is_fwd c). fold (is_fwd v).
  replace (is_fwd c && negb (is_fwd v)) with false by (destruct (is_fwd c); [rewrite Hf by reflexivity; reflexivity|reflexivity]).
  cbn [obind]. apply IH. intros k' v' H'. apply H. right. exact H'.
Qed.
Lemma find_none_iff : forall A (f : A -> bool) l, find f l = None -> forall x, In x l -> f x = false.
Proof. intros A f l H x Hx. destruct (f x) eqn:E; [|reflexivity]. exfalso. eapply find_none in H; eauto. congruence. Qed.
Lemma classes_merged_cover : forall d s d', classes_merged d s d' -> forall k v, In (k, v) s ->
  exists c, m_find k d' = Some c /\ (is_fwd c = true -> is_fwd v = true).
Proof.
  intros d s d' H k v Hin. destruct (H k) as [Hf _]. apply m_range_In in Hin.
  destruct (m_find k d) as [c|].
  - destruct (is_fwd c) eqn:Ec.
    + destruct (find (fun c0 => negb (is_fwd c0)) (m_range k s)) as [c'|] eqn:Efd.
      * exists c'. split; [exact Hf|]. apply find_some in Efd. destruct Efd as [_ Efd]. intros Hx. rewrite Hx in Efd. discriminate.
      * exists c. split; [exact Hf|]. intros _. pose proof (find_none_iff _ _ _ Efd v Hin) as Hv. cbn in Hv. destruct (is_fwd v); [reflexivity|discriminate].
    + exists c. split; [exact Hf|]. congruence.
  - destruct (find (fun c0 => negb (is_fwd c0)) (m_range k s)) as [c'|] eqn:Efd.
    + exists c'. split; [exact Hf|]. apply find_some in Efd. destruct Efd as [_ Efd]. intros Hx. rewrite Hx in Efd. discriminate.
    + destruct (m_range k s) as [|c0 r] eqn:Er; [destruct Hin|]. exists c0. split; [exact Hf|]. intros _.
      pose proof (find_none_iff _ _ _ Efd v Hin) as Hv. cbn in Hv. destruct (is_fwd v); [reflexivity|discriminate].
Qed.

(* ---- names ---- *)
Lemma MergeNames_get_names : forall s d, MergeNames d s = get_names d (map (fun e => n_text (snd e)) s).
Proof. induction s as [|[h n] s IH]; intros d; cbn [MergeNames map get_names snd]; [reflexivity|]. destruct (GetName d (Some (n_text n))); cbn [obind]; auto. Qed.
Definition texts (s : zmap name) : list (list Z) := map (fun e => n_text (snd e)) s.
Lemma texts_ok : forall s, (forall h n, In (h, n) s -> text_ok (n_text n)) -> Forall text_ok (texts s).
Proof. intros s H. apply Forall_forall. intros t Ht. apply in_map_iff in Ht. destruct Ht as [[h n] [<- Hi]]. eapply H; eauto. Qed.
Lemma ssorted_find : forall T (m : zmap T) k v, ssorted (keys m) -> In (k, v) m -> m_find k m = Some v.
Proof.
  induction m as [|[a w] m IH]; intros k v Hs Hin; [destruct Hin|]. cbn [keys map fst ssorted] in Hs. cbn [m_find].
  destruct Hin as [Hin|Hin].
  - injection Hin as -> ->. rewrite Z.eqb_refl. reflexivity.
  - destruct (Z.eqb_spec a k) as [E|E]; [|apply IH; tauto]. subst a. assert (In k (keys m)) by (apply keys_In; eauto). apply Hs in H. lia.
Qed.
Lemma names_ok' : forall s d d', names_ok d -> names_ok s -> (forall h n, In (h, n) s -> text_ok (n_text n)) ->
  MergeNames d s = Ok d' -> names_ok d' /\ names_merged d s d'.
Proof.
  intros s d d' Hd Hs Ht H. rewrite MergeNames_get_names in H. fold (texts s) in H. pose proof (texts_ok s Ht) as Htx.
  split; [exact (get_names_ok _ _ _ Hd Htx H)|]. intros h n. rewrite (get_names_content _ _ _ Hd Htx H h n). split.
  - intros [Hc|[Hin [Hn [Hh Hz]]]]; [auto|]. right. apply in_map_iff in Hin. destruct Hin as [[h2 n2] [E Hin]]. cbn in E.
    pose proof (ssorted_find _ _ _ _ (proj1 Hs) Hin) as Hf. destruct (proj2 Hs _ _ Hf) as [H1 [H2 H3]].
    rewrite E in H2. assert (Hhh : h2 = h) by congruence. rewrite Hhh in *. rewrite Hf. f_equal. rewrite Hn, <- E. destruct n2 as [a b]. cbn in *. congruence.
  - intros [Hc|Hc]; [auto|]. right. destruct (proj2 Hs _ _ Hc) as [H1 [H2 H3]]. split; [|split; [|auto]].
    + apply in_map_iff. exists (h, n). split; [reflexivity|apply m_find_In; exact Hc].
    + destruct n as [a b]. cbn in *. subst. reflexivity.
Qed.
Lemma names_again : forall s d, names_ok d -> names_ok s -> (forall h n, In (h, n) s -> text_ok (n_text n)) ->
  (forall h n, m_find h s = Some n -> m_find h d = Some n) -> MergeNames d s = Ok d.
Proof.
  intros s d Hd [Hs1 Hs2] Ht Hsub.
  assert (Hall : forall h n, In (h, n) s -> text_ok (n_text n) /\ hash32 (n_text n) 0 = h /\ h <> 0 /\ m_find h d = Some n).
  { intros h n Hin. pose proof (ssorted_find _ _ _ _ Hs1 Hin) as Hf. destruct (Hs2 _ _ Hf) as [H1 [H2 H3]].
    split; [eapply Ht; eauto|]. split; [exact H2|]. split; [exact H3|]. apply Hsub. exact Hf. }
  clear Hs1 Hs2 Ht Hsub. induction s as [|[h n] s IH]; cbn [MergeNames]; [reflexivity|].
  destruct (Hall h n (or_introl eq_refl)) as [H1 [H2 [H3 H4]]].
  destruct (get_name_cases d (n_text n) Hd H1) as [[E1 E2]|[[E1 [E2 E3]]|[[E1 [[nm [Ea Eb]] E3]]|[E1 [E2 E3]]]]]; cbn zeta in *; rewrite H2 in *.
  - contradiction.
  - rewrite E3. cbn [obind snd]. apply IH. intros h' n' H'. apply Hall. right. exact H'.
  - rewrite H4 in Ea. injection Ea as <-. contradiction.
  - congruence.
Qed.

(* ---- whole databases ---- *)
Lemma merge_db : forall d s d', wf_db d -> wf_db s -> MergeDatabases d s = Ok d' -> wf_db d' /\ merged d s d'.
Proof.
  intros d s d' Hd Hs H. unfold MergeDatabases in H.
  destruct Hd as [Dn [Dt [D1 [D2 [D3 [D4 [D5 [D6 [D7 [D8 [D9 [D10 [D11 [D12 [D13 [D14 [D15 [D16 D17]]]]]]]]]]]]]]]]]].
  destruct Hs as [Sn [St [S1 [S2 [S3 [S4 [S5 [S6 [S7 [S8 [S9 [S10 [S11 [S12 [S13 [S14 [S15 [S16 S17]]]]]]]]]]]]]]]]]].
  destruct (MergeNames (m_names d) (m_names s)) as [names| | |] eqn:En; cbn [obind] in H; try discriminate.
  destruct (names_ok' _ _ _ Dn Sn St En) as [Nn Nm].
  assert (Hadd : forall T (nm : T -> name), forall v m, m_find (n_hash (nm v)) m = None -> db_add (nm v) v m = db_add (nm v) v m) by reflexivity.
  assert (Hadu : forall T (nm : T -> name), forall v m, m_find (n_hash (nm v)) m = None -> db_add_unique (nm v) v m = db_add (nm v) v m)
    by (intros; apply db_add_unique_ok; assumption).
  destruct (uniques_ok _ p_name db_add (Hadd _ _) _ _ D1 S1) as [x1 [A1 [B1 C1]]]. rewrite A1 in H. cbn [obind] in H.
  destruct (uniques_ok _ _ db_add (Hadd _ _) _ _ D2 S2) as [x2 [A2 [B2 C2]]]. rewrite A2 in H. cbn [obind] in H.
  destruct (uniques_ok _ _ db_add (Hadd _ _) _ _ D6 S6) as [x6 [A6 [B6 C6]]]. rewrite A6 in H. cbn [obind] in H.
  destruct (uniques_ok _ p_name db_add (Hadd _ _) _ _ D3 S3) as [x3 [A3 [B3 C3]]]. rewrite A3 in H. cbn [obind] in H.
  destruct (uniques_ok _ _ db_add (Hadd _ _) _ _ D4 S4) as [x4 [A4 [B4 C4]]]. rewrite A4 in H. cbn [obind] in H.
  destruct (classes_ok _ _ D5 S5) as [x5 [A5 [B5 C5]]]. rewrite A5 in H. cbn [obind] in H.
  destruct (overloads_ok _ _ enum_const_eqb _ _ D7 S7) as [x7 [A7 [B7 C7]]]. rewrite A7 in H. cbn [obind] in H.
  destruct (overloads_ok _ _ function_eqb _ _ D8 S8) as [x8 [A8 [B8 C8]]]. rewrite A8 in H. cbn [obind] in H.
  destruct (overloads_ok _ _ field_eqb _ _ D9 S9) as [x9 [A9 [B9 C9]]]. rewrite A9 in H. cbn [obind] in H.
  destruct (overloads_ok _ p_name prim_eqb _ _ D10 S10) as [x10 [A10 [B10 C10]]]. rewrite A10 in H. cbn [obind] in H.
  destruct (overloads_ok _ _ int_attr_eqb _ _ D11 S11) as [x11 [A11 [B11 C11]]]. rewrite A11 in H. cbn [obind] in H.
  destruct (overloads_ok _ _ float_attr_eqb _ _ D12 S12) as [x12 [A12 [B12 C12]]]. rewrite A12 in H. cbn [obind] in H.
  destruct (overloads_ok _ _ prim_attr_eqb _ _ D13 S13) as [x13 [A13 [B13 C13]]]. rewrite A13 in H. cbn [obind] in H.
  destruct (overloads_ok _ _ text_attr_eqb _ _ D14 S14) as [x14 [A14 [B14 C14]]]. rewrite A14 in H. cbn [obind] in H.
  destruct (uniques_ok _ ci_name db_add_unique (Hadu _ _) _ _ (proj2 D15) (proj2 S15)) as [x15 [A15 [B15 C15]]]. rewrite A15 in H. cbn [obind] in H.
  destruct (uniques_ok _ ti_name db_add_unique (Hadu _ _) _ _ (proj2 D16) (proj2 S16)) as [x16 [A16 [B16 C16]]]. rewrite A16 in H. cbn [obind] in H.
  injection H as <-. split.
  - unfold wf_db. cbn. split; [exact Nn|]. split.
    { intros h n Hin. pose proof (ssorted_find _ _ _ _ (proj1 Nn) Hin) as Hf. apply Nm in Hf. destruct Hf as [Hf|Hf]; apply m_find_In in Hf; eauto. }
    repeat (split; [assumption|]).
    split; [exact (uniques_map _ _ _ _ _ D15 B15 C15)|]. split; [exact (uniques_map _ _ _ _ _ D16 B16 C16)|].
    intros k v Hin. apply m_range_In in Hin. destruct (C12 k) as [new [Hr [Hf _]]]. rewrite Hr in Hin. apply in_app_or in Hin.
    destruct Hin as [Hin|Hin]; [apply m_range_In in Hin; eapply D17; eauto|apply Hf in Hin; apply m_range_In in Hin; eapply S17; eauto].
  - unfold merged. cbn. repeat (split; [assumption|]). assumption.
Qed.

(* Equals is an equivalence *)
Lemma name_eqb_eq : forall a b, name_eqb a b = true <-> n_hash a = n_hash b.
Proof. intros. unfold name_eqb. apply Z.eqb_eq. Qed.
Definition equivalence {T} (ok : T -> Prop) (eqb : T -> T -> bool) : Prop :=
  (forall a, ok a -> eqb a a = true) /\ (forall a b, eqb a b = true -> eqb b a = true) /\
  (forall a b c, eqb a b = true -> eqb b c = true -> eqb a c = true).
Definition any {T} (_ : T) : Prop := True.
Lemma prim_equiv : equivalence any prim_eqb.
Proof.
  unfold equivalence, prim_eqb. split; [|split]; intros; rewrite ?andb_true_iff, ?name_eqb_eq in *; intuition congruence.
Qed.
Ltac equiv := unfold equivalence; split; [|split]; intros; rewrite ?andb_true_iff, ?name_eqb_eq, ?Z.eqb_eq, ?list_eqb_eq in *; intuition (try congruence).
Lemma prim_refl : forall a, prim_eqb a a = true. Proof. intros a. exact (proj1 prim_equiv a I). Qed.
Lemma prim_sym : forall a b, prim_eqb a b = true -> prim_eqb b a = true. Proof. exact (proj1 (proj2 prim_equiv)). Qed.
Lemma prim_trans : forall a b c, prim_eqb a b = true -> prim_eqb b c = true -> prim_eqb a c = true. Proof. exact (proj2 (proj2 prim_equiv)). Qed.
#[export] Hint Resolve prim_refl prim_sym prim_trans : prim.
Lemma enum_const_equiv : equivalence any enum_const_eqb.
Proof. unfold enum_const_eqb. equiv; eauto with prim. Qed.
Lemma function_equiv : equivalence any function_eqb.
Proof. unfold function_eqb. equiv; eauto with prim. Qed.
Lemma int_attr_equiv : equivalence any int_attr_eqb.
Proof. unfold int_attr_eqb. equiv; eauto with prim. Qed.
Lemma prim_attr_equiv : equivalence any prim_attr_eqb.
Proof. unfold prim_attr_eqb. equiv; eauto with prim. Qed.
Lemma text_attr_equiv : equivalence any text_attr_eqb.
Proof. unfold text_attr_eqb. equiv; eauto with prim. Qed.
Lemma qual_eqb_eq : forall a b, qual_eqb a b = true <-> a = b.
Proof.
  intros [[] []] [[] []]; cbn; split; intros; try discriminate; try reflexivity.
Qed.
Lemma field_equiv : equivalence any field_eqb.
Proof. unfold field_eqb. unfold equivalence; split; [|split]; intros; rewrite ?andb_true_iff, ?name_eqb_eq, ?Z.eqb_eq, ?qual_eqb_eq in *; intuition (try congruence); eauto with prim. Qed.
Lemma f_eqb_equiv : equivalence (fun v => f_is_nan v = false) f_eqb.
Proof.
  unfold f_eqb. split; [|split].
  - intros a Ha. rewrite Ha, Z.eqb_refl. reflexivity.
  - intros a b H. rewrite !andb_true_iff, orb_true_iff, andb_true_iff, Z.eqb_eq in *. intuition.
  - intros a b c H1 H2. rewrite !andb_true_iff, orb_true_iff, andb_true_iff, Z.eqb_eq in *. intuition (subst; auto).
Qed.
Lemma float_attr_equiv : equivalence (fun a => f_is_nan (fa_value a) = false) float_attr_eqb.
Proof.
  destruct f_eqb_equiv as [F1 [F2 F3]]. unfold float_attr_eqb. split; [|split]; intros; rewrite ?andb_true_iff in *.
  - split; [apply prim_refl|auto].
  - destruct H. split; [apply prim_sym; auto|auto].
  - destruct H, H0. split; eauto with prim.
Qed.

(* second merge *)
Lemma merge_again : forall d s d', wf_db d -> wf_db s -> MergeDatabases d s = Ok d' -> MergeDatabases d' s = Ok d'.
Proof.
  intros d s d' Hd Hs H. destruct (merge_db d s d' Hd Hs H) as [Hd' Hm]. clear H. unfold merged in Hm.
  destruct Hm as [Mn [M1 [M2 [M3 [M4 [M6 [M15 [M16 [M5 [M7 [M8 [M9 [M10 [M11 [M12 [M13 M14]]]]]]]]]]]]]]]].
  assert (Hov : forall T (nm : T -> name) eqb ok (a b c : zmap T), equivalence ok eqb -> (forall k v, In (k, v) b -> ok v) ->
     overloads_merged eqb a b c -> MergeOverloads nm eqb c b = Ok c).
  { intros T nm eqb ok a b c [Hrefl _] Hok Hmm. apply overloads_again. eapply overloads_merged_all; eauto. }
  destruct Hs as [Sn [St [S1 [S2 [S3 [S4 [S5 [S6 [S7 [S8 [S9 [S10 [S11 [S12 [S13 [S14 [S15 [S16 S17]]]]]]]]]]]]]]]]]].
  unfold MergeDatabases.
  rewrite (names_again (m_names s) (m_names d')); [|apply Hd'|exact Sn|exact St|intros h n Hf; apply Mn; auto]. cbn [obind].
  rewrite (uniques_again _ _ _ (m_namespaces s) (m_namespaces d')) by (eapply uniques_merged_keys; eauto). cbn [obind].
  rewrite (uniques_again _ _ _ (m_types s) (m_types d')) by (eapply uniques_merged_keys; eauto). cbn [obind].
  rewrite (uniques_again _ _ _ (m_enums s) (m_enums d')) by (eapply uniques_merged_keys; eauto). cbn [obind].
  rewrite (uniques_again _ _ _ (m_templates s) (m_templates d')) by (eapply uniques_merged_keys; eauto). cbn [obind].
  rewrite (uniques_again _ _ _ (m_template_types s) (m_template_types d')) by (eapply uniques_merged_keys; eauto). cbn [obind].
  rewrite (classes_again (m_classes s) (m_classes d')) by (eapply classes_merged_cover; eauto). cbn [obind].
  rewrite (Hov _ _ _ any _ (m_enum_consts s) (m_enum_consts d') enum_const_equiv ltac:(intros; exact I) M7). cbn [obind].
  rewrite (Hov _ _ _ any _ (m_functions s) (m_functions d') function_equiv ltac:(intros; exact I) M8). cbn [obind].
  rewrite (Hov _ _ _ any _ (m_fields s) (m_fields d') field_equiv ltac:(intros; exact I) M9). cbn [obind].
  rewrite (Hov _ _ _ any _ (m_flag_attrs s) (m_flag_attrs d') prim_equiv ltac:(intros; exact I) M10). cbn [obind].
  rewrite (Hov _ _ _ any _ (m_int_attrs s) (m_int_attrs d') int_attr_equiv ltac:(intros; exact I) M11). cbn [obind].
  rewrite (Hov _ _ _ _ _ (m_float_attrs s) (m_float_attrs d') float_attr_equiv S17 M12). cbn [obind].
  rewrite (Hov _ _ _ any _ (m_prim_attrs s) (m_prim_attrs d') prim_attr_equiv ltac:(intros; exact I) M13). cbn [obind].
  rewrite (Hov _ _ _ any _ (m_text_attrs s) (m_text_attrs d') text_attr_equiv ltac:(intros; exact I) M14). cbn [obind].
  rewrite (uniques_again _ _ _ (m_containers s) (m_containers d')) by (eapply uniques_merged_keys; eauto). cbn [obind].
  rewrite (uniques_again _ _ _ (m_inherits s) (m_inherits d')) by (eapply uniques_merged_keys; eauto). cbn [obind].
  destruct d'. reflexivity.
Qed.

(* merging only fails on a name collision *)
Lemma merge_defined : forall d s, wf_db d -> wf_db s -> (exists names, MergeNames (m_names d) (m_names s) = Ok names) ->
  exists d', MergeDatabases d s = Ok d'.
Proof.
  intros d s Hd Hs [names En]. unfold MergeDatabases.
  destruct Hd as [Dn [Dt [D1 [D2 [D3 [D4 [D5 [D6 [D7 [D8 [D9 [D10 [D11 [D12 [D13 [D14 [D15 [D16 D17]]]]]]]]]]]]]]]]]].
  destruct Hs as [Sn [St [S1 [S2 [S3 [S4 [S5 [S6 [S7 [S8 [S9 [S10 [S11 [S12 [S13 [S14 [S15 [S16 S17]]]]]]]]]]]]]]]]]].
  assert (Hadd : forall T (nm : T -> name), forall v m, m_find (n_hash (nm v)) m = None -> db_add (nm v) v m = db_add (nm v) v m) by reflexivity.
  assert (Hadu : forall T (nm : T -> name), forall v m, m_find (n_hash (nm v)) m = None -> db_add_unique (nm v) v m = db_add (nm v) v m)
    by (intros; apply db_add_unique_ok; assumption).
  rewrite En. cbn [obind].
  destruct (uniques_ok _ p_name db_add (Hadd _ _) _ _ D1 S1) as [x1 [A1 _]]. rewrite A1. cbn [obind].
  destruct (uniques_ok _ _ db_add (Hadd _ _) _ _ D2 S2) as [x2 [A2 _]]. rewrite A2. cbn [obind].
  destruct (uniques_ok _ _ db_add (Hadd _ _) _ _ D6 S6) as [x6 [A6 _]]. rewrite A6. cbn [obind].
  destruct (uniques_ok _ p_name db_add (Hadd _ _) _ _ D3 S3) as [x3 [A3 _]]. rewrite A3. cbn [obind].
  destruct (uniques_ok _ _ db_add (Hadd _ _) _ _ D4 S4) as [x4 [A4 _]]. rewrite A4. cbn [obind].
  destruct (classes_ok _ _ D5 S5) as [x5 [A5 _]]. rewrite A5. cbn [obind].
  destruct (overloads_ok _ _ enum_const_eqb _ _ D7 S7) as [x7 [A7 _]]. rewrite A7. cbn [obind].
  destruct (overloads_ok _ _ function_eqb _ _ D8 S8) as [x8 [A8 _]]. rewrite A8. cbn [obind].
  destruct (overloads_ok _ _ field_eqb _ _ D9 S9) as [x9 [A9 _]]. rewrite A9. cbn [obind].
  destruct (overloads_ok _ p_name prim_eqb _ _ D10 S10) as [x10 [A10 _]]. rewrite A10. cbn [obind].
  destruct (overloads_ok _ _ int_attr_eqb _ _ D11 S11) as [x11 [A11 _]]. rewrite A11. cbn [obind].
  destruct (overloads_ok _ _ float_attr_eqb _ _ D12 S12) as [x12 [A12 _]]. rewrite A12. cbn [obind].
  destruct (overloads_ok _ _ prim_attr_eqb _ _ D13 S13) as [x13 [A13 _]]. rewrite A13. cbn [obind].
  destruct (overloads_ok _ _ text_attr_eqb _ _ D14 S14) as [x14 [A14 _]]. rewrite A14. cbn [obind].
  destruct (uniques_ok _ ci_name db_add_unique (Hadu _ _) _ _ (proj2 D15) (proj2 S15)) as [x15 [A15 _]]. rewrite A15. cbn [obind].
  destruct (uniques_ok _ ti_name db_add_unique (Hadu _ _) _ _ (proj2 D16) (proj2 S16)) as [x16 [A16 _]]. rewrite A16. cbn [obind].
  eauto.
Qed.

(* ---- when merging fails ---- *)
Lemma MergeNames_run : forall s d, names_ok d -> ssorted (keys s) ->
  (forall h n, In (h, n) s -> text_ok (n_text n) /\ n_hash n = h /\ hash32 (n_text n) 0 = h /\ h <> 0) ->
  (exists d', MergeNames d s = Ok d') \/
  (MergeNames d s = Trap /\ exists h n1 n2, m_find h d = Some n1 /\ In (h, n2) s /\ n1 <> n2).
Proof.
  induction s as [|[h n] s IH]; intros d Hd Hs Hall; cbn [MergeNames]; [eauto|].
  destruct (Hall h n (or_introl eq_refl)) as [H1 [Hnh [H2 H3]]]. cbn [keys map fst ssorted] in Hs.
  assert (Hall' : forall h0 n0, In (h0, n0) s -> text_ok (n_text n0) /\ n_hash n0 = h0 /\ hash32 (n_text n0) 0 = h0 /\ h0 <> 0) by (intros; apply Hall; right; assumption).
  destruct (get_name_cases d (n_text n) Hd H1) as [[E1 E2]|[[E1 [E2 E3]]|[[E1 [[nm [Ea Eb]] E3]]|[E1 [E2 E3]]]]]; cbn zeta in *; rewrite H2 in *.
  - contradiction.
  - rewrite E3. cbn [obind snd]. destruct (IH d Hd ltac:(tauto) Hall') as [?|[? [h' [n1 [n2 [? [? ?]]]]]]]; [auto|].
    right. split; [assumption|]. exists h', n1, n2. split; [assumption|]. split; [right; assumption|assumption].
  - right. rewrite E3. split; [reflexivity|]. exists h, nm, n. split; [exact Ea|]. split; [left; reflexivity|congruence].
  - rewrite E3. cbn [obind snd]. pose proof (get_name_ok _ _ _ _ Hd H1 E3) as Hd1.
    destruct (IH _ Hd1 ltac:(tauto) Hall') as [?|[? [h' [n1 [n2 [Hf [Hin Hne]]]]]]]; [auto|].
    right. split; [assumption|]. exists h', n1, n2. rewrite m_find_set in Hf by apply Hd.
    destruct (Z.eqb_spec h h') as [E|E]; [|split; [assumption|]; split; [right; assumption|assumption]].
    exfalso. subst h'. assert (In h (keys s)) by (apply keys_In; eauto). apply Hs in H0. lia.
Qed.
Lemma names_all : forall d, wf_db d -> forall h n, In (h, n) (m_names d) -> text_ok (n_text n) /\ n_hash n = h /\ hash32 (n_text n) 0 = h /\ h <> 0.
Proof.
  intros d Hd h n Hin. destruct Hd as [Hn [Ht _]]. split; [eapply Ht; eauto|]. apply (proj2 Hn). apply ssorted_find; [apply Hn|exact Hin].
Qed.
Lemma merge_fails : forall d s, wf_db d -> wf_db s ->
  (compatible d s -> exists d', MergeDatabases d s = Ok d') /\ (~ compatible d s -> MergeDatabases d s = Trap).
Proof.
  intros d s Hd Hs. pose proof (MergeNames_run (m_names s) (m_names d) (proj1 Hd) (proj1 (proj1 Hs)) (names_all s Hs)) as Hrun. split.
  - intros Hc. apply merge_defined; try assumption. destruct Hrun as [?|[_ [h [n1 [n2 [Hf [Hin Hne]]]]]]]; [assumption|].
    exfalso. apply Hne. apply (Hc h n1 n2 Hf). apply ssorted_find; [apply (proj1 Hs)|exact Hin].
  - intros Hc. destruct Hrun as [[d' Hr]|[Hr _]].
    + exfalso. apply Hc. destruct (names_ok' _ _ _ (proj1 Hd) (proj1 Hs) (proj1 (proj2 Hs)) Hr) as [_ Hm].
      intros h n1 n2 H1 H2. assert (Some n1 = Some n2); [|congruence]. rewrite <- (proj2 (Hm h n1) (or_introl H1)). apply Hm. auto.
    + unfold MergeDatabases. rewrite Hr. reflexivity.
Qed.

(* ---- sequences ---- *)
Lemma wf_empty : wf_db db_empty.
Proof.
  unfold wf_db, db_empty. cbn. split; [apply names_ok_nil|]. split; [intros ? ? []|].
  repeat (split; [apply wf_nil|]). split; [split; [exact I|apply wf_nil]|]. split; [split; [exact I|apply wf_nil]|]. intros ? ? [].
Qed.
Lemma all_wf : forall l d d', wf_db d -> Forall wf_db l -> MergeAll d l = Ok d' -> wf_db d'.
Proof.
  induction l as [|s l IH]; intros d d' Hd Hl H; cbn [MergeAll] in H; [congruence|]. inversion Hl; subst.
  destruct (MergeDatabases d s) as [d1| | |] eqn:E; cbn [obind] in H; try discriminate.
  exact (IH d1 d' (proj1 (merge_db d s d1 Hd H2 E)) H3 H).
Qed.
Lemma classes_fwd : forall d s d', classes_merged d s d' -> forall k,
  (forall c, m_find k d' = Some c -> is_fwd c = true ->
     (forall c', m_find k d = Some c' -> is_fwd c' = true) /\ (forall c', In c' (m_range k s) -> is_fwd c' = true)) /\
  (forall c, m_find k d = Some c -> is_fwd c = false -> m_find k d' = Some c).
Proof.
  intros d s d' H k. destruct (H k) as [Hf _]. split.
  - intros c Hc Hfwd. assert (Hs : forall c', In c' (m_range k s) -> is_fwd c' = true).
    { intros c' Hin. apply m_range_In in Hin. destruct (classes_merged_cover _ _ _ H k c' Hin) as [c2 [H2 H3]].
      rewrite Hc in H2. injection H2 as <-. auto. }
    split; [|exact Hs]. intros c' Hc'. rewrite Hc' in Hf. destruct (is_fwd c') eqn:E; [reflexivity|]. rewrite Hc in Hf. injection Hf as <-. congruence.
  - intros c Hc Hn. rewrite Hc, Hn in Hf. exact Hf.
Qed.
Lemma all_fwd : forall l d d', wf_db d -> Forall wf_db l -> MergeAll d l = Ok d' -> forall k,
  (forall c, m_find k (m_classes d') = Some c -> is_fwd c = true ->
     (forall c', m_find k (m_classes d) = Some c' -> is_fwd c' = true) /\
     (forall s c', In s l -> In c' (m_range k (m_classes s)) -> is_fwd c' = true)) /\
  (forall c, m_find k (m_classes d) = Some c -> is_fwd c = false -> m_find k (m_classes d') = Some c).
Proof.
  induction l as [|s l IH]; intros d d' Hd Hl H k; cbn [MergeAll] in H.
  - injection H as <-. split; [|auto]. intros c Hc Hf. split; [|intros ? ? []]. intros c' Hc'. congruence.
  - inversion Hl; subst. destruct (MergeDatabases d s) as [d1| | |] eqn:E; cbn [obind] in H; try discriminate.
    destruct (merge_db _ _ _ Hd H2 E) as [Hd1 Hm]. destruct (IH d1 d' Hd1 H3 H k) as [I1 I2].
    assert (Hcm : classes_merged (m_classes d) (m_classes s) (m_classes d1)) by (unfold merged in Hm; tauto).
    destruct (classes_fwd _ _ _ Hcm k) as [F1 F2]. split.
    + intros c Hc Hf. destruct (I1 c Hc Hf) as [J1 J2].
      destruct (m_find k (m_classes d1)) as [c1|] eqn:E1.
      * destruct (F1 c1 eq_refl (J1 c1 eq_refl)) as [K1 K2]. split; [exact K1|].
        intros s' c' [<-|Hin] Hc'; [apply K2; exact Hc'|eapply J2; eauto].
      * assert (Hno : forall c', In c' (m_range k (m_classes s)) -> False).
        { intros c' Hin. apply m_range_In in Hin. destruct (classes_merged_cover _ _ _ Hcm k c' Hin) as [c2 [X _]]. congruence. }
        split.
        -- intros c' Hc'. destruct (is_fwd c') eqn:Ef; [reflexivity|]. pose proof (F2 c' Hc' Ef) as X. congruence.
        -- intros s' c' [<-|Hin] Hc'; [destruct (Hno _ Hc')|eapply J2; eauto].
    + intros c Hc Hn. apply I2; [apply F2; assumption|exact Hn].
Qed.
(* a class mentioned anywhere is in the result *)
Lemma all_classes : forall l d d', wf_db d -> Forall wf_db l -> MergeAll d l = Ok d' -> forall k,
  (exists c, m_find k (m_classes d') = Some c) <->
  ((exists c, m_find k (m_classes d) = Some c) \/ exists s c, In s l /\ m_find k (m_classes s) = Some c).
Proof.
  induction l as [|s l IH]; intros d d' Hd Hl H k; cbn [MergeAll] in H.
  - injection H as <-. split; [auto|]. intros [?|[s [c [[] _]]]]. assumption.
  - inversion Hl; subst. destruct (MergeDatabases d s) as [d1| | |] eqn:E; cbn [obind] in H; try discriminate.
    destruct (merge_db _ _ _ Hd H2 E) as [Hd1 Hm]. rewrite (IH d1 d' Hd1 H3 H k).
    assert (Hcm : classes_merged (m_classes d) (m_classes s) (m_classes d1)) by (unfold merged in Hm; tauto).
    assert (Hk : (exists c, m_find k (m_classes d1) = Some c) <->
                 ((exists c, m_find k (m_classes d) = Some c) \/ (exists c, m_find k (m_classes s) = Some c))).
    { destruct (Hcm k) as [Hf _]. rewrite (m_find_range _ k (m_classes s)), Hf.
      destruct (m_find k (m_classes d)) as [c|].
      - split; [intros _; left; exists c; reflexivity|]. intros _.
        destruct (is_fwd c); [destruct (find _ _) as [c'|]; [exists c'|exists c]|exists c]; reflexivity.
      - destruct (m_range k (m_classes s)) as [|x r]; cbn [find hd_error].
        + split; [intros [? X]; discriminate|]. intros [[? X]|[? X]]; discriminate.
        + split; [intros _; right; exists x; reflexivity|]. intros _. destruct (negb (is_fwd x)); [exists x; reflexivity|].
          destruct (find (fun c => negb (is_fwd c)) r) as [c'|]; [exists c'|exists x]; reflexivity. }
    rewrite Hk. cbn [In]. split.
    + intros [[?|[c Hc]]|[s' [c [Hin Hc]]]]; [auto|right; exists s, c; auto|right; exists s', c; auto].
    + intros [?|[s' [c [[<-|Hin] Hc]]]]; [auto|left; right; eauto|right; eauto].
Qed.

(* overloads *)
Lemma FOP_app : forall T (R : T -> T -> Prop) a b, ForallOrdPairs R a -> ForallOrdPairs R b -> (forall x y, In x a -> In y b -> R x y) ->
  ForallOrdPairs R (a ++ b).
Proof.
  induction a as [|x a IH]; intros b Ha Hb H; cbn [app]; [exact Hb|]. inversion Ha; subst. constructor.
  - apply Forall_app. split; [assumption|]. apply Forall_forall. intros y Hy. apply H; [left; reflexivity|exact Hy].
  - apply IH; auto. intros y z Hy Hz. apply H; [right; exact Hy|exact Hz].
Qed.
Lemma FOP_split : forall T (R : T -> T -> Prop) l, (forall a v b, l = a ++ v :: b -> forall w, In w a -> R w v) -> ForallOrdPairs R l.
Proof.
  induction l as [|x l IH]; intros H; [constructor|]. constructor.
  - apply Forall_forall. intros y Hy. apply in_split in Hy. destruct Hy as [a [b ->]]. apply (H (x :: a) y b eq_refl). left. reflexivity.
  - apply IH. intros a v b -> w Hw. apply (H (x :: a) v b eq_refl). right. exact Hw.
Qed.
Definition run_ov {T} (eqb : T -> T -> bool) (sel : database -> zmap T) : Prop :=
  forall d s d', wf_db d -> wf_db s -> MergeDatabases d s = Ok d' -> overloads_merged eqb (sel d) (sel s) (sel d').
Lemma runs : each_overload_table (@run_ov).
Proof.
  unfold each_overload_table, run_ov.
  repeat split; intros d s d' Hd Hs H; destruct (merge_db _ _ _ Hd Hs H) as [_ Hm]; unfold merged in Hm; tauto.
Qed.
Lemma all_overloads : forall T (eqb : T -> T -> bool) sel ok, run_ov eqb sel -> equivalence ok eqb ->
  forall l d d', wf_db d -> Forall wf_db l -> (forall s k v, In s l -> In (k, v) (sel s) -> ok v) -> 
  MergeAll d l = Ok d' -> forall k,
  exists new, m_range k (sel d') = m_range k (sel d) ++ new /\
    (forall v, In v new -> exists s, In s l /\ In v (m_range k (sel s))) /\
    (forall s v, In s l -> In v (m_range k (sel s)) -> exists w, In w (m_range k (sel d')) /\ eqb w v = true) /\
    ForallOrdPairs (fun a b => eqb a b = false) new /\ (forall w v, In w (m_range k (sel d)) -> In v new -> eqb w v = false).
Proof.
  intros T eqb sel ok Hrun Heq. induction l as [|s l IH]; intros d d' Hd Hl Hok H k; cbn [MergeAll] in H.
  - injection H as <-. exists []. rewrite app_nil_r. split; [reflexivity|]. split; [intros ? []|]. split; [intros ? ? []|]. split; [constructor|intros ? ? ? []].
  - inversion Hl; subst. destruct (MergeDatabases d s) as [d1| | |] eqn:E; cbn [obind] in H; try discriminate.
    destruct (merge_db _ _ _ Hd H2 E) as [Hd1 _]. pose proof (Hrun d s d1 Hd H2 E k) as [n1 [A1 [A2 [A3 A4]]]].
    destruct (IH d1 d' Hd1 H3 ltac:(intros; eapply Hok; [right; eassumption|eassumption]) H k) as [n2 [B1 [B2 [B3 [B4 B5]]]]].
    exists (n1 ++ n2). rewrite B1, A1, <- app_assoc. split; [reflexivity|]. split.
    { intros v Hv. apply in_app_or in Hv. destruct Hv as [Hv|Hv]; [exists s; split; [left; reflexivity|auto]|].
      destruct (B2 v Hv) as [s' [X Y]]. exists s'. split; [right; exact X|exact Y]. }
    split.
    { intros s' v [<-|Hin] Hv.
      - destruct (A3 v Hv) as [w [Hw Hwv]]. exists w. rewrite A1 in Hw. split.
        + rewrite app_assoc. apply in_or_app. left. exact Hw.
        + destruct Hwv as [->|]; [|assumption]. apply (proj1 Heq). apply (Hok s k v (or_introl eq_refl)). apply m_range_In. exact Hv.
      - destruct (B3 s' v Hin Hv) as [w [Hw Hwv]]. exists w. split; [|exact Hwv]. rewrite B1, A1, <- app_assoc in Hw. exact Hw. }
    rewrite A1 in B5. split.
    { apply FOP_app; [|exact B4|].
      - apply FOP_split. intros a v b Hab w Hw. apply (A4 a v b Hab). apply in_or_app. right. exact Hw.
      - intros x y Hx Hy. apply B5; [apply in_or_app; right; exact Hx|exact Hy]. }
    intros w v Hw Hv. apply in_app_or in Hv. destruct Hv as [Hv|Hv].
    + apply in_split in Hv. destruct Hv as [a [b ->]]. apply (A4 a v b eq_refl). apply in_or_app. left. exact Hw.
    + apply B5; [apply in_or_app; left; exact Hw|exact Hv].
Qed.
Lemma all_union : forall T (eqb : T -> T -> bool) sel ok, run_ov eqb sel -> equivalence ok eqb -> sel db_empty = [] ->
  (forall d k v, wf_db d -> In (k, v) (sel d) -> ok v) ->
  forall l d', Forall wf_db l -> MergeAll db_empty l = Ok d' -> forall k, overload_union eqb (map sel l) k (m_range k (sel d')).
Proof.
  intros T eqb sel ok Hrun Heq He Hok l d' Hl H k.
  destruct (all_overloads T eqb sel ok Hrun Heq l db_empty d' wf_empty Hl) with (k := k) as [new [A1 [A2 [A3 [A4 _]]]]]; [|exact H|].
  - intros s k' v Hs Hin. rewrite Forall_forall in Hl. eapply Hok; eauto.
  - rewrite He in A1. change (m_range k (@nil (Z * T))) with (@nil T) in A1. cbn [app] in A1. rewrite A1 in *. split; [|split; [|exact A4]].
    + intros v Hv. destruct (A2 v Hv) as [s [Hs Hin]]. exists (sel s). split; [apply in_map; exact Hs|exact Hin].
    + intros s' v Hs Hv. apply in_map_iff in Hs. destruct Hs as [s [<- Hs]]. eauto.
Qed.
(* size of two duplicate-free covers *)
Lemma FOP_remove : forall T (R : T -> T -> Prop) a x b, ForallOrdPairs R (a ++ x :: b) -> ForallOrdPairs R (a ++ b).
Proof.
  induction a as [|y a IH]; intros x b H; cbn [app] in *; inversion H; subst; [assumption|]. constructor; [|eapply IH; eauto].
  apply Forall_app in H2. destruct H2 as [H2 H4]. inversion H4; subst. apply Forall_app. split; assumption.
Qed.
Lemma cover_length : forall T (eqb : T -> T -> bool), (forall a b, eqb a b = true -> eqb b a = true) ->
  (forall a b c, eqb a b = true -> eqb b c = true -> eqb a c = true) ->
  forall r1 r2, ForallOrdPairs (fun a b => eqb a b = false) r1 -> (forall v, In v r1 -> exists w, In w r2 /\ eqb w v = true) ->
  (length r1 <= length r2)%nat.
Proof.
  intros T eqb Hsym Htr. induction r1 as [|x r1 IH]; intros r2 Hp Hc; [cbn; lia|]. inversion Hp; subst.
  destruct (Hc x (or_introl eq_refl)) as [w [Hw Hwx]]. apply in_split in Hw. destruct Hw as [a [b ->]].
  assert (H : (length r1 <= length (a ++ b))%nat).
  { apply IH; [assumption|]. intros v Hv. destruct (Hc v (or_intror Hv)) as [w' [Hw' Hwv]].
    apply in_app_or in Hw'. destruct Hw' as [Hw'|[<-|Hw']]; [exists w'; split; [apply in_or_app; auto|exact Hwv]| |exists w'; split; [apply in_or_app; auto|exact Hwv]].
    exfalso. rewrite Forall_forall in H1. pose proof (H1 v Hv). cbn beta in *. assert (eqb x v = true) by (apply (Htr x w v); auto). congruence. }
  rewrite app_length in *. cbn [length]. lia.
Qed.
Lemma union_same : forall T (eqb : T -> T -> bool) ok l1 l2 k r1 r2, equivalence ok eqb -> (forall s, In s l1 <-> In s l2) ->
  overload_union eqb l1 k r1 -> overload_union eqb l2 k r2 -> same_set eqb r1 r2.
Proof.
  intros T eqb ok l1 l2 k r1 r2 [_ [Hsym Htr]] Hl [A1 [A2 A3]] [B1 [B2 B3]].
  assert (C1 : forall v, In v r1 -> exists w, In w r2 /\ eqb w v = true).
  { intros v Hv. destruct (A1 v Hv) as [s [Hs Hin]]. apply (B2 s v); [apply Hl; exact Hs|exact Hin]. }
  assert (C2 : forall v, In v r2 -> exists w, In w r1 /\ eqb w v = true).
  { intros v Hv. destruct (B1 v Hv) as [s [Hs Hin]]. apply (A2 s v); [apply Hl; exact Hs|exact Hin]. }
  split; [|auto]. pose proof (cover_length _ _ Hsym Htr _ _ A3 C1). pose proof (cover_length _ _ Hsym Htr _ _ B3 C2). lia.
Qed.

(* success does not depend on the order *)
Lemma all_compatible : forall l d, wf_db d -> Forall wf_db l ->
  (exists d', MergeAll d l = Ok d') <-> (forall s1 s2, In s1 (d :: l) -> In s2 (d :: l) -> compatible s1 s2).
Proof.
  induction l as [|s l IH]; intros d Hd Hl; cbn [MergeAll].
  - split; [|eauto]. intros _ s1 s2 [<-|[]] [<-|[]] h n1 n2 H1 H2. congruence.
  - inversion Hl; subst. destruct (merge_fails d s Hd H1) as [Hok Hbad]. split.
    + intros [d' H]. destruct (MergeDatabases d s) as [d1| | |] eqn:E; cbn [obind] in H; try discriminate.
      destruct (merge_db _ _ _ Hd H1 E) as [Hd1 Hm]. destruct Hm as [Mn _].
      pose proof (proj1 (IH d1 Hd1 H2) (ex_intro _ d' H)) as Hall.
      intros s1 s2 Hs1 Hs2 h n1 n2 F1 F2.
      assert (G : forall s3 n3, In s3 (d :: s :: l) -> m_find h (m_names s3) = Some n3 -> exists s4, In s4 (d1 :: l) /\ m_find h (m_names s4) = Some n3).
      { intros s3 n3 [<-|[<-|Hin]] F; [exists d1; split; [left; reflexivity|apply Mn; auto]|exists d1; split; [left; reflexivity|apply Mn; auto]|exists s3; split; [right; exact Hin|exact F]]. }
      destruct (G s1 n1 Hs1 F1) as [a [Ga Fa]]. destruct (G s2 n2 Hs2 F2) as [b [Gb Fb]]. exact (Hall a b Ga Gb h n1 n2 Fa Fb).
    + intros Hall. destruct Hok as [d1 E]; [apply Hall; [left; reflexivity|right; left; reflexivity]|]. rewrite E. cbn [obind].
      destruct (merge_db _ _ _ Hd H1 E) as [Hd1 Hm]. destruct Hm as [Mn _]. apply (IH d1 Hd1 H2).
      intros s1 s2 Hs1 Hs2 h n1 n2 F1 F2.
      assert (G : forall s3 n3, In s3 (d1 :: l) -> m_find h (m_names s3) = Some n3 -> exists s4, In s4 (d :: s :: l) /\ m_find h (m_names s4) = Some n3).
      { intros s3 n3 [<-|Hin] F; [apply Mn in F; destruct F as [F|F]; [exists d|exists s]; cbn [In]; auto|exists s3; cbn [In]; auto]. }
      destruct (G s1 n1 Hs1 F1) as [a [Ga Fa]]. destruct (G s2 n2 Hs2 F2) as [b [Gb Fb]]. exact (Hall a b Ga Gb h n1 n2 Fa Fb).
Qed.
Lemma all_perm : forall l1 l2, Forall wf_db l1 -> Permutation l1 l2 ->
  (exists d', MergeAll db_empty l1 = Ok d') -> exists d', MergeAll db_empty l2 = Ok d'.
Proof.
  intros l1 l2 Hl Hp H. assert (Hl2 : Forall wf_db l2) by (eapply Permutation_Forall; eauto).
  rewrite (all_compatible l1 _ wf_empty Hl) in H. rewrite (all_compatible l2 _ wf_empty Hl2).
  intros s1 s2 H1 H2. apply H; (eapply Permutation_in; [apply perm_skip; apply Permutation_sym; exact Hp|assumption]).
Qed.

Lemma eqb_same :
  (forall a b, prim_eqb a b = true <-> same_prim a b) /\ (forall a b, enum_const_eqb a b = true <-> same_enum_const a b) /\
  (forall a b, function_eqb a b = true <-> same_function a b) /\ (forall a b, field_eqb a b = true <-> same_field a b) /\
  (forall a b, int_attr_eqb a b = true <-> same_int_attr a b) /\ (forall a b, float_attr_eqb a b = true <-> same_float_attr a b) /\
  (forall a b, prim_attr_eqb a b = true <-> same_prim_attr a b) /\ (forall a b, text_attr_eqb a b = true <-> same_text_attr a b).
Proof.
  assert (HP : forall a b, prim_eqb a b = true <-> same_prim a b).
  { intros a b. unfold prim_eqb, name_eqb, same_prim. rewrite andb_true_iff, !Z.eqb_eq. reflexivity. }
  assert (HQ : forall a b, qual_eqb a b = true <-> a = b).
  { intros [[| |] [|]] [[| |] [|]]; cbn; split; intros; try discriminate; reflexivity. }
  split; [exact HP|]. split; [|split; [|split; [|split; [|split; [|split]]]]]; intros a b.
  - unfold enum_const_eqb, same_enum_const. rewrite andb_true_iff, HP, Z.eqb_eq. reflexivity.
  - unfold function_eqb, same_function. rewrite andb_true_iff, HP, Z.eqb_eq. reflexivity.
  - unfold field_eqb, same_field, name_eqb. rewrite !andb_true_iff, HP, HQ, !Z.eqb_eq. tauto.
  - unfold int_attr_eqb, same_int_attr. rewrite andb_true_iff, HP, Z.eqb_eq. reflexivity.
  - unfold float_attr_eqb, same_float_attr, f_eqb. rewrite !andb_true_iff, HP, !negb_true_iff, orb_true_iff, andb_true_iff, Z.eqb_eq. tauto.
  - unfold prim_attr_eqb, same_prim_attr, name_eqb. rewrite andb_true_iff, HP, Z.eqb_eq. reflexivity.
  - unfold text_attr_eqb, same_text_attr. rewrite andb_true_iff, HP, list_eqb_eq. reflexivity.
Qed.
