(* std::map<u32, T> and std::multimap<u32, T> as lists sorted by key.
   Trusted: this is what the C++ library containers do. *)
From Verif Require Import Base.

Notation zmap T := (list (Z * T)).

(* find: the first entry with the key *)
Fixpoint m_find {T} (k : Z) (m : zmap T) : option T :=
  match m with
  | [] => None
  | (k', v) :: r => if k' =? k then Some v else m_find k r
  end.
(* equal_range: all values with the key, in order *)
Definition m_range {T} (k : Z) (m : zmap T) : list T :=
  map snd (filter (fun e => fst e =? k) m).
(* multimap insert: after the entries with keys not greater *)
Fixpoint mm_insert {T} (k : Z) (v : T) (m : zmap T) : zmap T :=
  match m with
  | [] => [(k, v)]
  | (k', v') :: r => if k' <=? k then (k', v') :: mm_insert k v r else (k, v) :: m
  end.
(* map operator[] = : replace or insert *)
Fixpoint m_set {T} (k : Z) (v : T) (m : zmap T) : zmap T :=
  match m with
  | [] => [(k, v)]
  | (k', v') :: r =>
      if k' <? k then (k', v') :: m_set k v r
      else if k' =? k then (k, v) :: r else (k, v) :: m
  end.
(* map insert: keeps an existing entry *)
Definition m_insert {T} (k : Z) (v : T) (m : zmap T) : zmap T :=
  match m_find k m with Some _ => m | None => m_set k v m end.
(* assignment through the iterator find returned: the first entry with the key *)
Fixpoint m_update {T} (k : Z) (v : T) (m : zmap T) : zmap T :=
  match m with
  | [] => []
  | (k', v') :: r => if k' =? k then (k', v) :: r else (k', v') :: m_update k v r
  end.

Definition keys {T} (m : zmap T) : list Z := map fst m.
Fixpoint sorted (l : list Z) : Prop :=
  match l with
  | [] => True
  | a :: r => (forall b, In b r -> a <= b) /\ sorted r
  end.
Fixpoint ssorted (l : list Z) : Prop :=
  match l with
  | [] => True
  | a :: r => (forall b, In b r -> a < b) /\ ssorted r
  end.

Lemma mm_insert_In : forall T k (v : T) m e, In e (mm_insert k v m) <-> e = (k, v) \/ In e m.
Proof.
  induction m as [|[k' v'] m IH]; intros e; cbn [mm_insert].
  - cbn. intuition.
  - destruct (k' <=? k); cbn [In]; [rewrite IH|]; cbn [In]; intuition.
Qed.
Lemma keys_In : forall T k (m : zmap T), In k (keys m) <-> exists v, In (k, v) m.
Proof.
  intros T k m. unfold keys. rewrite in_map_iff. split.
  - intros [[k' v] [E H]]. cbn in E. subst. eauto.
  - intros [v H]. exists (k, v). auto.
Qed.
Lemma mm_insert_keys : forall T k (v : T) m k', In k' (keys (mm_insert k v m)) <-> k' = k \/ In k' (keys m).
Proof.
  intros. rewrite !keys_In. split.
  - intros [w H]. apply mm_insert_In in H. destruct H as [H|H]; [left; congruence|right; eauto].
  - intros [->|[w H]]; [exists v|exists w]; apply mm_insert_In; auto.
Qed.
Lemma mm_insert_sorted : forall T k (v : T) m, sorted (keys m) -> sorted (keys (mm_insert k v m)).
Proof.
  induction m as [|[k' v'] m IH]; intros H; cbn [mm_insert].
  - cbn. tauto.
  - destruct (Z.leb_spec k' k) as [E|E].
    + cbn [keys map fst sorted] in *. destruct H as [H1 H2]. split; [|apply IH; exact H2].
      intros b Hb. apply (mm_insert_keys T k v m b) in Hb. destruct Hb as [->|Hb]; [exact E|apply H1; exact Hb].
    + cbn [keys map fst sorted] in *. split; [|exact H]. intros b [<-|Hb]; [lia|]. apply H in Hb. lia.
Qed.
Lemma m_find_In : forall T k (m : zmap T) v, m_find k m = Some v -> In (k, v) m.
Proof.
  induction m as [|[k' v'] m IH]; intros v H; cbn [m_find] in H; [discriminate|].
  destruct (Z.eqb_spec k' k) as [E|E]; [injection H as <-; subst; left; reflexivity|right; auto].
Qed.
Lemma m_find_none : forall T k (m : zmap T), m_find k m = None <-> ~ In k (keys m).
Proof.
  induction m as [|[k' v'] m IH]; cbn [m_find keys map fst In]; [tauto|].
  destruct (Z.eqb_spec k' k) as [E|E].
  - split; [discriminate|]. intros H. exfalso. auto.
  - rewrite IH. unfold keys. tauto.
Qed.
Lemma m_find_some_iff : forall T k (m : zmap T), (exists v, m_find k m = Some v) <-> In k (keys m).
Proof.
  intros T k m. destruct (m_find k m) as [v|] eqn:E.
  - split; [|eauto]. intros _. apply keys_In. exists v. apply m_find_In. exact E.
  - apply m_find_none in E. split; [intros [v H]; discriminate|contradiction].
Qed.
(* inserting a fresh key *)
Lemma m_find_mm_insert_new : forall T k (v : T) m k', sorted (keys m) -> ~ In k (keys m) ->
  m_find k' (mm_insert k v m) = if k =? k' then Some v else m_find k' m.
Proof.
  induction m as [|[a w] m IH]; intros k' Hs Hn; cbn [mm_insert].
  - cbn [m_find]. reflexivity.
  - cbn [keys map fst In] in Hn. cbn [keys map fst sorted] in Hs. destruct (Z.leb_spec a k) as [E|E]; cbn [m_find].
    + rewrite IH by (cbn in *; tauto). destruct (Z.eqb_spec a k') as [Ea|Ea]; [|reflexivity].
      destruct (Z.eqb_spec k k'); [|reflexivity]. exfalso. apply Hn. left. congruence.
    + destruct (Z.eqb_spec k k'); reflexivity.
Qed.
Lemma m_find_mm_insert_old : forall T k (v : T) m k' w, sorted (keys m) -> m_find k' m = Some w -> 
  m_find k' (mm_insert k v m) = Some w.
Proof.
  induction m as [|[a x] m IH]; intros k' w Hs Hf; cbn [mm_insert m_find] in *; [discriminate|].
  cbn [keys map fst sorted] in Hs. destruct (Z.leb_spec a k) as [E|E]; cbn [m_find].
  - destruct (a =? k'); [exact Hf|]. apply IH; tauto.
  - destruct (Z.eqb_spec k k') as [Ek|Ek]; [|exact Hf]. exfalso. subst k'.
    destruct (Z.eqb_spec a k); [lia|]. apply m_find_In in Hf. assert (In k (keys m)) by (apply keys_In; eauto).
    apply Hs in H. lia.
Qed.
Lemma m_range_In : forall T k (m : zmap T) v, In v (m_range k m) <-> In (k, v) m.
Proof.
  intros T k m v. unfold m_range. rewrite in_map_iff. split.
  - intros [[k' w] [E H]]. cbn in E. subst w. apply filter_In in H. destruct H as [H1 H2]. cbn in H2. apply Z.eqb_eq in H2. subst. exact H1.
  - intros H. exists (k, v). split; [reflexivity|]. apply filter_In. split; [exact H|]. cbn. apply Z.eqb_refl.
Qed.
Lemma filter_none : forall A (f : A -> bool) l, (forall x, In x l -> f x = false) -> filter f l = [].
Proof. induction l as [|a l IH]; intros H; [reflexivity|]. cbn. rewrite (H a) by (left; reflexivity). apply IH. intros x Hx. apply H. right. exact Hx. Qed.
Lemma m_range_insert : forall T k (v : T) m k', sorted (keys m) ->
  m_range k' (mm_insert k v m) = if k =? k' then m_range k' m ++ [v] else m_range k' m.
Proof.
  induction m as [|[a w] m IH]; intros k' Hs; cbn [mm_insert].
  - unfold m_range. cbn [filter fst]. destruct (k =? k'); reflexivity.
  - cbn [keys map fst sorted] in Hs. destruct (Z.leb_spec a k) as [E|E].
    + specialize (IH k' (proj2 Hs)). unfold m_range in *. cbn [filter fst map]. destruct (a =? k').
      * cbn [map snd]. rewrite IH. destruct (k =? k'); reflexivity.
      * exact IH.
    + unfold m_range. cbn [filter fst]. destruct (Z.eqb_spec k k') as [Ek|Ek]; [|reflexivity].
      subst k'. replace (a =? k) with false by lia.
      rewrite (filter_none _ _ m); [reflexivity|]. intros [b x] Hb. cbn.
      assert (In b (keys m)) by (apply keys_In; eauto). apply Hs in H. lia.
Qed.
Lemma m_find_range : forall T k (m : zmap T), m_find k m = hd_error (m_range k m).
Proof.
  induction m as [|[a w] m IH]; [reflexivity|]. unfold m_range in *. cbn [m_find filter fst].
  destruct (a =? k); [reflexivity|exact IH].
Qed.

(* m_set *)
Lemma m_set_In : forall T k (v : T) m e, In e (m_set k v m) -> e = (k, v) \/ In e m.
Proof.
  induction m as [|[a w] m IH]; intros e H; cbn [m_set] in H.
  - destruct H as [<-|[]]. auto.
  - destruct (a <? k); [|destruct (a =? k)]; cbn [In] in *.
    + destruct H as [<-|H]; [auto|]. apply IH in H. tauto.
    + destruct H as [<-|H]; auto.
    + destruct H as [<-|H]; auto.
Qed.
Lemma m_set_keys : forall T k (v : T) m k', In k' (keys (m_set k v m)) <-> k' = k \/ In k' (keys m).
Proof.
  induction m as [|[a w] m IH]; intros k'; cbn [m_set].
  - cbn. intuition.
  - destruct (Z.ltb_spec a k); [|destruct (Z.eqb_spec a k)]; cbn [keys map fst In] in *; [rewrite IH|subst|]; intuition.
Qed.
Lemma m_set_ssorted : forall T k (v : T) m, ssorted (keys m) -> ssorted (keys (m_set k v m)).
Proof.
  induction m as [|[a w] m IH]; intros H; cbn [m_set].
  - cbn. tauto.
  - cbn [keys map fst ssorted] in H. destruct (Z.ltb_spec a k); [|destruct (Z.eqb_spec a k)]; cbn [keys map fst ssorted].
    + split; [|apply IH; tauto]. intros b Hb. apply (m_set_keys T k v m b) in Hb. destruct Hb as [->|Hb]; [lia|apply H; exact Hb].
    + subst. exact H.
    + split; [|exact H]. intros b [<-|Hb]; [lia|]. apply H in Hb. lia.
Qed.
Lemma m_find_set : forall T k (v : T) m k', ssorted (keys m) ->
  m_find k' (m_set k v m) = if k =? k' then Some v else m_find k' m.
Proof.
  induction m as [|[a w] m IH]; intros k' H; cbn [m_set].
  - reflexivity.
  - cbn [keys map fst ssorted] in H. destruct (Z.ltb_spec a k); [|destruct (Z.eqb_spec a k)]; cbn [m_find].
    + rewrite IH by tauto. destruct (Z.eqb_spec a k'), (Z.eqb_spec k k'); try reflexivity; lia.
    + subst. destruct (k =? k'); reflexivity.
    + destruct (k =? k'); reflexivity.
Qed.
Lemma ssorted_sorted : forall l, ssorted l -> sorted l.
Proof. induction l as [|a l IH]; intros H; cbn in *; [tauto|]. split; [|tauto]. intros b Hb. apply H in Hb. lia. Qed.
(* two strictly sorted maps with the same lookups are equal *)
Lemma m_ext : forall T (m m' : zmap T), ssorted (keys m) -> ssorted (keys m') ->
  (forall k, m_find k m = m_find k m') -> m = m'.
Proof.
  induction m as [|[a w] m IH]; intros m' H H' Hf.
  - destruct m' as [|[b x] m']; [reflexivity|]. specialize (Hf b). cbn in Hf. rewrite Z.eqb_refl in Hf. discriminate.
  - destruct m' as [|[b x] m'].
    + specialize (Hf a). cbn in Hf. rewrite Z.eqb_refl in Hf. discriminate.
    + cbn [keys map fst ssorted] in H, H'.
      assert (Hab : a = b).
      { pose proof (Hf a) as Ha. pose proof (Hf b) as Hb. cbn [m_find] in Ha, Hb. rewrite Z.eqb_refl in *.
        destruct (Z.eqb_spec b a); [congruence|]. destruct (Z.eqb_spec a b); [congruence|].
        symmetry in Ha. apply m_find_In in Ha. apply m_find_In in Hb.
        assert (In a (keys m')) by (apply keys_In; eauto). assert (In b (keys m)) by (apply keys_In; eauto).
        apply H' in H0. apply H in H1. lia. }
      subst b. pose proof (Hf a) as Ha. cbn [m_find] in Ha. rewrite Z.eqb_refl in Ha. injection Ha as ->. f_equal.
      apply IH; try tauto. intros k. specialize (Hf k). cbn [m_find] in Hf. destruct (Z.eqb_spec a k) as [->|E]; [|exact Hf].
      assert (H1 : m_find k m = None) by (apply m_find_none; intros Hi; apply H in Hi; lia).
      assert (H2 : m_find k m' = None) by (apply m_find_none; intros Hi; apply H' in Hi; lia). congruence.
Qed.
