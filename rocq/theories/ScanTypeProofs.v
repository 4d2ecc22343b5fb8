From Verif Require Import Base BaseProofs Text HashModel Maps FileUtilsModel FileUtilsSpec FileUtilsProofs DatabaseModel AttrModel ScanModel ScanSpec.
Local Open Scope string_scope.
Local Open Scope list_scope.
Local Open Scope Z_scope.

(* ---- names ---- *)
Definition nwf (m : zmap name) : Prop :=
  ssorted (keys m) /\ forall h n, m_find h m = Some n -> n = mk_name h (n_text n) /\ thash (n_text n) = h.
Lemma nwf_nil : nwf [].
Proof. split; [exact I|]. intros h n H. discriminate H. Qed.
Lemma name_of_hash : forall t, n_hash (name_of t) = thash t.
Proof. intros t. unfold name_of. destruct (Z.eqb_spec (thash t) 0) as [E|E]; [symmetry; exact E|reflexivity]. Qed.
Lemma hash_thash : forall t h, HashNameString (t ++ [0]) 0 = Ok h -> h = thash t.
Proof. intros t h H. unfold thash. rewrite H. reflexivity. Qed.
Lemma GetName_spec : forall m t n m', nwf m -> GetName m (Some t) = Ok (n, m') -> n = name_of t /\ nwf m'.
Proof.
  intros m t n m' [Hs Hn] H. unfold GetName in H.
  destruct (HashNameString (t ++ [0]) 0) as [h| | |] eqn:Eh; cbn [obind] in H; try discriminate H.
  apply hash_thash in Eh. subst h. unfold name_of. destruct (thash t =? 0) eqn:Ez.
  - apply (f_equal (fun o => match o with Ok x => x | _ => (n, m) end)) in H. cbn in H. 
    assert (n = noname /\ m' = m) as [-> ->] by (split; congruence). split; [reflexivity|split; assumption].
  - destruct (m_find (thash t) m) as [nm|] eqn:Ef.
    + destruct (list_eqb (n_text nm) t) eqn:El; cbn [assert obind] in H; [|discriminate H].
      assert (n = nm /\ m' = m) as [-> ->] by (split; congruence). apply list_eqb_eq in El.
      destruct (Hn _ _ Ef) as [H1 _]. rewrite El in H1. split; [exact H1|split; assumption].
    + assert (n = mk_name (thash t) t /\ m' = m_set (thash t) (mk_name (thash t) t) m) as [-> ->] by (split; congruence).
      split; [reflexivity|]. split; [apply m_set_ssorted; exact Hs|].
      intros h nm. rewrite m_find_set by exact Hs. destruct (Z.eqb_spec (thash t) h) as [E|E]; [|apply Hn].
      intros H1. assert (nm = mk_name (thash t) t) as -> by congruence. cbn. rewrite E. auto.
Qed.
Lemma obind_ok : forall A B (m : outcome A) (f : A -> outcome B) r, obind m f = Ok r -> exists a, m = Ok a /\ f a = Ok r.
Proof. intros A B [a| | |] f r H; cbn in H; try discriminate H. eauto. Qed.
Lemma db_name_spec : forall d t n d', nwf (m_names d) -> db_name d t = Ok (n, d') ->
  n = name_of t /\ nwf (m_names d') /\ d' = set_names (m_names d') d.
Proof.
  intros d t n d' Hn H. unfold db_name in H. apply obind_ok in H. destruct H as [[n1 m1] [H1 H2]]. cbn [fst snd] in H2.
  destruct (GetName_spec _ _ _ _ Hn H1) as [-> Hm].
  assert (n = name_of t) as -> by congruence. assert (d' = set_names m1 d) as -> by congruence. cbn. auto.
Qed.

(* ---- texts ---- *)
Lemma find_from_some : forall s pat pos i, find_from s pat pos = Some i ->
  exists a b, s = a ++ pat ++ b /\ i = (pos + length a)%nat /\ (forall a' b', s = a' ++ pat ++ b' -> (length a <= length a')%nat).
Proof.
  induction s as [|c s IH]; intros pat pos i H; cbn [find_from] in H.
  - destruct (is_prefix pat []) eqn:E; [|discriminate H]. apply is_prefix_spec in E. destruct E as [r Er].
    exists [], r. split; [exact Er|]. split; [injection H as <-; cbn; lia|]. intros. cbn. lia.
  - destruct (is_prefix pat (c :: s)) eqn:E.
    + apply is_prefix_spec in E. destruct E as [r Er]. exists [], r. split; [exact Er|]. split; [injection H as <-; cbn; lia|]. intros. cbn. lia.
    + apply IH in H. destruct H as [a [b [H1 [H2 H3]]]]. exists (c :: a), b. split; [cbn; congruence|]. split; [cbn; lia|].
      intros a' b' Hab. destruct a' as [|c' a'].
      * cbn in Hab. rewrite Hab, is_prefix_app in E. discriminate E.
      * cbn in Hab. cbn. assert (s = a' ++ pat ++ b') by congruence. specialize (H3 _ _ H). lia.
Qed.
Lemma find_from_none : forall s pat pos, find_from s pat pos = None -> forall a b, s <> a ++ pat ++ b.
Proof.
  induction s as [|c s IH]; intros pat pos H a b Hs; cbn [find_from] in H.
  - destruct (is_prefix pat []) eqn:E; [discriminate H|]. destruct a; [|discriminate Hs]. cbn in Hs. rewrite Hs, is_prefix_app in E. discriminate E.
  - destruct (is_prefix pat (c :: s)) eqn:E; [discriminate H|]. destruct a as [|c' a].
    + cbn in Hs. rewrite Hs, is_prefix_app in E. discriminate E.
    + cbn in Hs. assert (s = a ++ pat ++ b) by congruence. eapply IH; eassumption.
Qed.
Lemma firstn_app_len : forall A (a b : list A), firstn (length a) (a ++ b) = a.
Proof. intros. rewrite firstn_app, Nat.sub_diag, firstn_all, firstn_O, app_nil_r. reflexivity. Qed.
Lemma skipn_app_len : forall A (a b : list A) n, n = length a -> skipn n (a ++ b) = b.
Proof. intros A a b n ->. rewrite skipn_app, Nat.sub_diag, skipn_all, skipn_O. reflexivity. Qed.
Lemma remove_loop_ok : forall fuel s pat, pat <> [] -> (length s < fuel)%nat -> exists r, remove_loop fuel s pat = Ok r /\ removed pat s r.
Proof.
  induction fuel as [|fuel IH]; intros s pat Hp Hl; [lia|]. cbn [remove_loop]. unfold string_find.
  replace (length s <? 0)%nat with false by (symmetry; apply Nat.ltb_ge; lia). cbn [skipn].
  destruct (find_from s pat 0) as [i|] eqn:E.
  - apply find_from_some in E. destruct E as [a [b [H1 [H2 H3]]]]. cbn in H2. subst i s.
    rewrite firstn_app_len. rewrite app_assoc, (skipn_app_len _ (a ++ pat) b) by (rewrite app_length; reflexivity).
    destruct (IH (a ++ b) pat Hp) as [r [Hr1 Hr2]].
    + destruct pat as [|c pat]; [congruence|]. rewrite !app_length in *. cbn in Hl. lia.
    + exists r. split; [exact Hr1|]. rewrite <- app_assoc. constructor; assumption.
  - exists s. split; [reflexivity|]. constructor. eapply find_from_none. exact E.
Qed.
Lemma removed_fun : forall pat s r, removed pat s r -> forall r', removed pat s r' -> r = r'.
Proof.
  intros pat s r H. induction H as [s H|a b r H1 H2 IH]; intros r' H'.
  - inversion H' as [s' Hs'|a b r0 Ha Hb]; subst; [reflexivity|]. exfalso. eapply H. reflexivity.
  - inversion H' as [s' Hs'|a' b' r0 Ha Hb Heq]; subst; [exfalso; eapply Hs'; reflexivity|].
    apply IH. assert (length a = length a').
    { assert (length a' <= length a)%nat by (eapply Ha; exact Heq). assert (length a <= length a')%nat by (eapply H1; symmetry; exact Heq). lia. }
    assert (Ea : a = a').
    { apply (f_equal (firstn (length a))) in Heq. rewrite firstn_app_len in Heq. rewrite H, firstn_app_len in Heq. congruence. }
    subst a'. apply app_inv_head in Heq. apply app_inv_head in Heq. subst b'. exact Hb.
Qed.
Lemma Remove_ok : forall s pat, pat <> [] -> exists r, Remove s pat = Ok r /\ removed pat s r.
Proof. intros. apply remove_loop_ok; [assumption|lia]. Qed.
Lemma Remove_spec : forall s pat r, pat <> [] -> (Remove s pat = Ok r <-> removed pat s r).
Proof.
  intros s pat r Hp. destruct (Remove_ok s pat Hp) as [r' [H1 H2]]. rewrite H1. split; intros H.
  - assert (r' = r) by congruence. subst. exact H2.
  - f_equal. eapply removed_fun; eassumption.
Qed.
Lemma Replace_spec : forall s pat rep r, pat <> [] -> (Replace s pat rep = Ok r <-> replaced pat rep s r).
Proof.
  intros s pat rep r Hp. destruct (replace_ok (S (length s)) pat rep s Hp) as [r' [H1 H2]]; [lia|].
  unfold Replace. rewrite H1. split; intros H.
  - assert (r' = r) by congruence. subst. exact H2.
  - f_equal. eapply replaced_fun; eassumption.
Qed.
Lemma tidy_spec : forall s r, tidy s = Ok r <-> tidied s r.
Proof.
  intros s r. unfold tidy, tidied. split.
  - intros H. apply obind_ok in H. destruct H as [a [Ha H]]. apply obind_ok in H. destruct H as [b [Hb H]].
    apply obind_ok in H. destruct H as [c [Hc H]]. apply obind_ok in H. destruct H as [d [Hd H]].
    exists a, b, c, d. apply Remove_spec in Ha; [|discriminate]. apply Remove_spec in Hb; [|discriminate]. apply Remove_spec in Hc; [|discriminate].
    apply Replace_spec in Hd; [|discriminate]. apply Replace_spec in H; [|discriminate]. auto.
  - intros [a [b [c [d [Ha [Hb [Hc [Hd H]]]]]]]].
    apply Remove_spec in Ha; [|discriminate]. apply Remove_spec in Hb; [|discriminate]. apply Remove_spec in Hc; [|discriminate].
    apply Replace_spec in Hd; [|discriminate]. apply Replace_spec in H; [|discriminate].
    rewrite Ha. cbn [obind]. rewrite Hb. cbn [obind]. rewrite Hc. cbn [obind]. rewrite Hd. cbn [obind]. exact H.
Qed.
Lemma tidied_fun : forall s r r', tidied s r -> tidied s r' -> r = r'.
Proof. intros s r r' H H'. apply tidy_spec in H. apply tidy_spec in H'. congruence. Qed.

(* ---- types ---- *)
Lemma update_not_sugar : forall q c t, update q = Q c t -> forall q', t <> T_sugar q'.
Proof.
  fix IH 1. intros [c0 t0] c t H q' Ht. subst t. destruct t0; cbn [update] in H; try discriminate H.
  destruct (update to) as [c1 t1] eqn:E. assert (t1 = T_sugar q') by congruence. eapply (IH to); eassumption.
Qed.
Lemma stands_update : forall q c t, stands q c t <-> update q = Q c t.
Proof.
  intros q c t. split.
  - intros H. induction H as [c t H|c q c' t H IH].
    + destruct t; cbn; try reflexivity. exfalso. eapply H. reflexivity.
    + cbn [update]. rewrite IH. reflexivity.
  - revert c t. revert q. fix IH 1. intros [c0 t0] c t H. destruct t0; cbn [update] in H;
      try (injection H as <- <-; constructor; intros q; discriminate).
    destruct (update to) as [c1 t1] eqn:E. injection H as <- <-. constructor. apply IH. exact E.
Qed.
(* shape as a function *)
Definition shape_of (q : qt) : qop * qt :=
  match update q with
  | Q _ (T_pointer to) => (POINTER, to)
  | Q _ (T_reference to) => (REFERENCE, to)
  | q1 => (VALUE, q1)
  end.
Lemma update_update : forall q, update (update q) = update q.
Proof.
  intros q. destruct (update q) as [c t] eqn:E. destruct t; try reflexivity. exfalso. eapply update_not_sugar; [exact E|reflexivity].
Qed.
Lemma shape_spec : forall q op c t, shape q op c t <-> exists q2, shape_of q = (op, q2) /\ update q2 = Q c t.
Proof.
  intros q op c t. unfold shape_of. split.
  - intros H. inversion H as [q0 c0 to c1 t1 H1 H2|q0 c0 to c1 t1 H1 H2|q0 c1 t1 H1 H2 H3]; subst; apply stands_update in H1.
    + apply stands_update in H2. rewrite H1. eauto.
    + apply stands_update in H2. rewrite H1. eauto.
    + rewrite H1. exists (Q c t). rewrite <- H1 at 2. rewrite update_update, H1. split; [|reflexivity].
      destruct t; try reflexivity; [exfalso; eapply H2; reflexivity|exfalso; eapply H3; reflexivity].
  - intros [q2 [H1 H2]]. destruct (update q) as [c0 t0] eqn:E.
    assert (D : (exists to, t0 = T_pointer to /\ op = POINTER /\ q2 = to) \/ (exists to, t0 = T_reference to /\ op = REFERENCE /\ q2 = to) \/
      ((forall to, t0 <> T_pointer to) /\ (forall to, t0 <> T_reference to) /\ op = VALUE /\ q2 = Q c0 t0)).
    { destruct t0; injection H1 as <- <-; [right; right|right; right|right; right|right; right|right; right|left|right; left|right; right|right; right];
        try (repeat split; intros to0; discriminate); eauto. }
    destruct D as [[to [-> [-> ->]]]|[[to [-> [-> ->]]]|[D1 [D2 [-> ->]]]]].
    + eapply sh_pointer; [apply stands_update; exact E|apply stands_update; exact H2].
    + eapply sh_reference; [apply stands_update; exact E|apply stands_update; exact H2].
    + assert (t0 = t /\ c0 = c) as [-> ->]. { rewrite <- E, update_update, E in H2. split; congruence. }
      apply sh_value; [apply stands_update; exact E|exact D1|exact D2].
Qed.
Definition sized_of (q : qt) : option (Z * qt) :=
  match q with
  | Q _ (T_array n of) => if UINT_MAX <? n then None else Some (n, of)
  | _ => Some (0, q)
  end.
Lemma sized_spec : forall q n e, sized q n e <-> sized_of q = Some (n, e).
Proof.
  intros q n e. split.
  - intros H. inversion H as [c n0 e0 H1|c t H1]; subst; cbn [sized_of].
    + replace (UINT_MAX <? n) with false; [reflexivity|]. symmetry. apply Z.ltb_ge. exact H1.
    + destruct t; try reflexivity. exfalso. eapply H1. reflexivity.
  - destruct q as [c t]. intros H. destruct t; cbn [sized_of] in H; try (injection H as <- <-; constructor; intros; discriminate).
    destruct (Z.ltb_spec UINT_MAX n0) as [Hn|Hn]; [discriminate H|]. injection H as <- <-. constructor. exact Hn.
Qed.
