(* Merging databases one after the other into an empty one, table by table. *)
From Verif Require Import Base BaseProofs Text HashModel HashSpec Maps DatabaseModel AttrModel NamesProofs MergeModel MergeSpec MergeProofs BinarySpec TextDbSpec ScanModel
  PipeInvProofs PipeSpec PipeFileProofs.
Local Open Scope list_scope.
Local Open Scope Z_scope.

Lemma range_find : forall T k (m : zmap T), m_find k m = hd_error (m_range k m).
Proof.
  intros T k m. induction m as [|[k0 v] m IH]; [reflexivity|]. rewrite m_range_cons. cbn [m_find].
  destruct (Z.eqb_spec k0 k) as [E|E].
  - destruct (Z.eqb_spec k k0); [reflexivity|congruence].
  - destruct (Z.eqb_spec k k0); [congruence|exact IH].
Qed.
(* ---- names ---- *)
Lemma all_names : forall l d d', wf_db d -> Forall wf_db l -> MergeAll d l = Ok d' ->
  forall h n, m_find h (m_names d') = Some n <-> exists s, In s (d :: l) /\ m_find h (m_names s) = Some n.
Proof.
  induction l as [|s l IH]; intros d d' Hd Hl H h n; cbn [MergeAll] in H.
  - assert (d = d') by congruence. subst d'. split; [intros X; exists d; split; [left; reflexivity|exact X]|]. intros [s [[<-|[]] X]]. exact X.
  - inversion Hl; subst. apply obind_ok in H. destruct H as [d1 [E H]]. destruct (merge_db _ _ _ Hd H2 E) as [W [M _]]. rewrite (IH d1 d' W H3 H). split.
    + intros [x [[<-|Hx] Hf]]; [|exists x; split; [right; right; exact Hx|exact Hf]]. apply M in Hf. destruct Hf as [Hf|Hf]; [exists d|exists s]; (split; [|exact Hf]); [left|right; left]; reflexivity.
    + intros [x [[<-|[<-|Hx]] Hf]].
      * exists d1. split; [left; reflexivity|]. apply M. left. exact Hf.
      * exists d1. split; [left; reflexivity|]. apply M. right. exact Hf.
      * exists x. split; [right; exact Hx|exact Hf].
Qed.
Lemma all_known : forall l d' s n, Forall wf_db l -> MergeAll db_empty l = Ok d' -> In s l -> known (m_names s) n -> known (m_names d') n.
Proof.
  intros l d' s n Hl H Hs [->|Hk]; [left; reflexivity|right]. apply (all_names l db_empty d' wf_empty Hl H). exists s. split; [right; exact Hs|exact Hk].
Qed.
Lemma known_inj : forall N a b, names_ok N -> known N a -> known N b -> n_hash a = n_hash b -> a = b.
Proof.
  intros N a b [_ HN] [->|Ha] [->|Hb] E; [reflexivity| | |congruence].
  - rewrite <- E in Hb. apply HN in Hb. destruct Hb as [_ [_ Hb]]. cbn in Hb. congruence.
  - rewrite E in Ha. apply HN in Ha. destruct Ha as [_ [_ Ha]]. cbn in Ha. congruence.
Qed.
Lemma known_prim_inj : forall N a b, names_ok N -> known_prim N a -> known_prim N b -> same_prim a b -> a = b.
Proof. intros N [a1 a2] [b1 b2] HN [A1 A2] [B1 B2] [E1 E2]. cbn in *. f_equal; eapply known_inj; eassumption. Qed.

(* ---- one object per name: the first one ---- *)
Lemma firstn1_app : forall T (a b : list T), firstn 1 (a ++ b) = match a with [] => firstn 1 b | _ => firstn 1 a end.
Proof. intros T [|x a] b; reflexivity. Qed.
Lemma all_first : forall T (sel : database -> zmap T),
  (forall d s d', wf_db d -> wf_db s -> MergeDatabases d s = Ok d' -> uniques_merged (sel d) (sel s) (sel d')) ->
  forall l d d', wf_db d -> Forall wf_db l -> MergeAll d l = Ok d' -> forall k,
  m_range k (sel d') = match m_range k (sel d) with [] => firstn 1 (flat_map (fun s => m_range k (sel s)) l) | r => r end.
Proof.
  intros T sel Hsel. induction l as [|s l IH]; intros d d' Hd Hl H k; cbn [MergeAll] in H.
  - assert (d = d') by congruence. subst d'. cbn [flat_map firstn]. destruct (m_range k (sel d)); reflexivity.
  - inversion Hl; subst. apply obind_ok in H. destruct H as [d1 [E H]]. destruct (merge_db _ _ _ Hd H2 E) as [W _]. rewrite (IH d1 d' W H3 H k).
    pose proof (Hsel _ _ _ Hd H2 E k) as R. rewrite R. destruct (m_range k (sel d)) as [|x r] eqn:Er; [|reflexivity].
    cbn [flat_map]. rewrite firstn1_app. destruct (m_range k (sel s)) as [|y q]; reflexivity.
Qed.
Lemma first_of : forall T (sel : database -> zmap T), sel db_empty = [] ->
  (forall d s d', wf_db d -> wf_db s -> MergeDatabases d s = Ok d' -> uniques_merged (sel d) (sel s) (sel d')) ->
  forall l d', Forall wf_db l -> MergeAll db_empty l = Ok d' -> forall k, m_range k (sel d') = firstn 1 (flat_map (fun s => m_range k (sel s)) l).
Proof. intros T sel H0 Hsel l d' Hl H k. rewrite (all_first T sel Hsel l db_empty d' wf_empty Hl H k), H0. reflexivity. Qed.
Ltac uniq := intros d s d' Hd Hs H; destruct (merge_db _ _ _ Hd Hs H) as [_ M]; unfold merged in M; tauto.
Lemma first_namespaces : forall l d', Forall wf_db l -> MergeAll db_empty l = Ok d' -> forall k, m_range k (m_namespaces d') = firstn 1 (flat_map (fun s => m_range k (m_namespaces s)) l).
Proof. apply first_of; [reflexivity|uniq]. Qed.
Lemma first_types : forall l d', Forall wf_db l -> MergeAll db_empty l = Ok d' -> forall k, m_range k (m_types d') = firstn 1 (flat_map (fun s => m_range k (m_types s)) l).
Proof. apply first_of; [reflexivity|uniq]. Qed.
Lemma first_templates : forall l d', Forall wf_db l -> MergeAll db_empty l = Ok d' -> forall k, m_range k (m_templates d') = firstn 1 (flat_map (fun s => m_range k (m_templates s)) l).
Proof. apply first_of; [reflexivity|uniq]. Qed.
Lemma first_ttypes : forall l d', Forall wf_db l -> MergeAll db_empty l = Ok d' -> forall k, m_range k (m_template_types d') = firstn 1 (flat_map (fun s => m_range k (m_template_types s)) l).
Proof. apply first_of; [reflexivity|uniq]. Qed.
Lemma first_enums : forall l d', Forall wf_db l -> MergeAll db_empty l = Ok d' -> forall k, m_range k (m_enums d') = firstn 1 (flat_map (fun s => m_range k (m_enums s)) l).
Proof. apply first_of; [reflexivity|uniq]. Qed.
Lemma first_containers : forall l d', Forall wf_db l -> MergeAll db_empty l = Ok d' -> forall k, m_range k (m_containers d') = firstn 1 (flat_map (fun s => m_range k (m_containers s)) l).
Proof. apply first_of; [reflexivity|uniq]. Qed.
Lemma first_inherits : forall l d', Forall wf_db l -> MergeAll db_empty l = Ok d' -> forall k, m_range k (m_inherits d') = firstn 1 (flat_map (fun s => m_range k (m_inherits s)) l).
Proof. apply first_of; [reflexivity|uniq]. Qed.

(* ---- classes ---- *)
Definition isdef (c : class) : bool := negb (is_fwd c).
Lemma best_cons : forall A B, best_class (best_class A ++ B) = best_class (A ++ B).
Proof.
  intros A B. unfold best_class. fold isdef. rewrite !filter_app, <- !app_assoc. destruct (filter isdef A) as [|x f] eqn:E.
  - cbn [app]. destruct A as [|a A]; [reflexivity|]. cbn [firstn app filter]. assert (isdef a = false) as ->.
    { destruct (isdef a) eqn:Ea; [|reflexivity]. cbn [filter] in E. rewrite Ea in E. discriminate E. }
    cbn [app]. destruct (filter isdef B); reflexivity.
  - cbn [app firstn filter]. assert (isdef x = true) as ->.
    { assert (In x (filter isdef A)) as Hx by (rewrite E; left; reflexivity). apply filter_In in Hx. apply Hx. }
    reflexivity.
Qed.
Lemma find_filter : forall T (p : T -> bool) l, find p l = hd_error (filter p l).
Proof. induction l as [|x l IH]; [reflexivity|]. cbn [find filter]. destruct (p x); [reflexivity|exact IH]. Qed.
Lemma classes_best : forall d s d' k, classes_merged d s d' -> (length (m_range k d) <= 1)%nat ->
  m_range k d' = best_class (m_range k d ++ m_range k s).
Proof.
  intros d s d' k H L. destruct (H k) as [F T]. rewrite !range_find in F. rewrite find_filter in F. fold isdef in F. unfold best_class. fold isdef. rewrite filter_app.
  destruct (m_range k d) as [|c [|c2 r]]; [| |cbn in L; lia]; cbn [hd_error filter app tl] in *.
  - destruct (m_range k d') as [|x q]; cbn [hd_error tl] in *; subst; destruct (filter isdef (m_range k s)) as [|y f]; cbn [hd_error] in F; try discriminate F.
    + destruct (m_range k s); [reflexivity|discriminate F].
    + destruct (m_range k s); [discriminate F|]. cbn in *. congruence.
    + cbn. congruence.
  - destruct (m_range k d') as [|x q]; cbn [hd_error tl] in *; subst; unfold isdef at 1; destruct (is_fwd c); cbn [negb] in *; cbn [app firstn].
    + destruct (filter isdef (m_range k s)); discriminate F.
    + discriminate F.
    + destruct (filter isdef (m_range k s)) as [|y f]; cbn in *; congruence.
    + congruence.
Qed.
Lemma best_length : forall cs, (length (best_class cs) <= 1)%nat.
Proof. intros cs. unfold best_class. rewrite firstn_length. lia. Qed.
Lemma all_best : forall l d d', wf_db d -> Forall wf_db l -> MergeAll d l = Ok d' -> forall k, (length (m_range k (m_classes d)) <= 1)%nat ->
  best_class (m_range k (m_classes d)) = m_range k (m_classes d) ->
  m_range k (m_classes d') = best_class (m_range k (m_classes d) ++ flat_map (fun s => m_range k (m_classes s)) l).
Proof.
  induction l as [|s l IH]; intros d d' Hd Hl H k L B; cbn [MergeAll] in H.
  - assert (d = d') by congruence. subst d'. cbn [flat_map]. rewrite app_nil_r. symmetry. exact B.
  - inversion Hl; subst. apply obind_ok in H. destruct H as [d1 [E H]]. destruct (merge_db _ _ _ Hd H2 E) as [W M].
    assert (C : m_range k (m_classes d1) = best_class (m_range k (m_classes d) ++ m_range k (m_classes s))).
    { apply classes_best; [|exact L]. unfold merged in M. tauto. }
    rewrite (IH d1 d' W H3 H k).
    + rewrite C, best_cons. cbn [flat_map]. rewrite app_assoc. reflexivity.
    + rewrite C. apply best_length.
    + rewrite C. rewrite <- (app_nil_r (best_class (_ ++ _))) at 1. rewrite best_cons, app_nil_r. reflexivity.
Qed.
Lemma best_classes : forall l d', Forall wf_db l -> MergeAll db_empty l = Ok d' -> forall k,
  m_range k (m_classes d') = best_class (flat_map (fun s => m_range k (m_classes s)) l).
Proof. intros l d' Hl H k. apply (all_best l db_empty d' wf_empty Hl H k); cbn; [lia|reflexivity]. Qed.

(* ---- overloads: exactly what is there, once ---- *)
Lemma union_exact : forall T (eqb : T -> T -> bool) (sel : database -> zmap T) l d' k,
  overload_union eqb (map sel l) k (m_range k (sel d')) ->
  (forall s v k', In s l -> In (k', v) (sel s) -> forall s' v' k'', In s' l -> In (k'', v') (sel s') -> (eqb v v' = true <-> v = v')) ->
  (forall v, In (k, v) (sel d') <-> exists s, In s l /\ In (k, v) (sel s)) /\ NoDup (m_range k (sel d')).
Proof.
  intros T eqb sel l d' k [A1 [A2 A3]] He.
  assert (I1 : forall v, In v (m_range k (sel d')) -> exists s, In s l /\ In (k, v) (sel s)).
  { intros v Hv. destruct (A1 v Hv) as [m [Hm Hin]]. apply in_map_iff in Hm. destruct Hm as [s [<- Hs]]. exists s. split; [exact Hs|]. apply m_range_In. exact Hin. }
  split.
  - intros v. rewrite <- m_range_In. split; [apply I1|]. intros [s [Hs Hin]]. destruct (A2 (sel s) v (in_map sel _ _ Hs) (proj2 (m_range_In _ _ _ _) Hin)) as [w [Hw Ew]].
    destruct (I1 w Hw) as [s' [Hs' Hin']]. apply (He s' w k Hs' Hin' s v k Hs Hin) in Ew. subst w. exact Hw.
  - clear A1 A2. revert I1 A3. generalize (m_range k (sel d')). induction l0 as [|x r IH]; intros I1 A3; [constructor|]. inversion A3; subst. constructor.
    + intros Hx. rewrite Forall_forall in H1. specialize (H1 x Hx). cbn beta in H1. destruct (I1 x (or_introl eq_refl)) as [s [Hs Hin]].
      rewrite (proj2 (He s x k Hs Hin s x k Hs Hin) eq_refl) in H1. discriminate H1.
    + apply IH; [|assumption]. intros v Hv. apply I1. right. exact Hv.
Qed.
