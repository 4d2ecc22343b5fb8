(* Scans merged: what is in the result, against what the runs declare. *)
From Verif Require Import Base BaseProofs Text HashModel HashSpec Maps DatabaseModel AttrModel NamesProofs MergeModel MergeSpec MergeProofs BinarySpec TextDbSpec ScanModel
  PipeInvProofs PipeSpec PipeFileProofs PipeMergeProofs MergeProps.
From Verif Require ScanSpec ScanProps.
Import ListNotations.
Local Open Scope list_scope.
Local Open Scope Z_scope.

Lemma scanned_inv : forall sf runs ds, scanned sf runs ds -> Forall inv ds.
Proof. intros sf runs ds H. induction H as [|tus d runs ds [_ [fuel [w H]]] _ IH]; constructor; [eapply scan_inv; exact H|exact IH]. Qed.
Lemma scanned_wf : forall sf runs ds, scanned sf runs ds -> Forall mergeable ds -> Forall wf_db ds.
Proof.
  intros sf runs ds H M. apply scanned_inv in H. rewrite Forall_forall in *. intros d Hd. apply inv_wf; auto.
Qed.
Lemma scanned_left : forall sf runs ds d, scanned sf runs ds -> In d ds -> exists tus, In tus runs /\ ScanSpec.coherent (ScanSpec.units tus) /\ exists fuel w, scan fuel sf tus = Ok (d, w).
Proof.
  intros sf runs ds d H. induction H as [|tus d0 runs ds X _ IH]; [intros []|]. intros [<-|Hd]; [exists tus; split; [left; reflexivity|exact X]|].
  destruct (IH Hd) as [t [A B]]. exists t. split; [right; exact A|exact B].
Qed.
Lemma scanned_right : forall sf runs ds tus, scanned sf runs ds -> In tus runs -> exists d, In d ds /\ ScanSpec.coherent (ScanSpec.units tus) /\ exists fuel w, scan fuel sf tus = Ok (d, w).
Proof.
  intros sf runs ds tus H. induction H as [|t0 d0 runs ds X _ IH]; [intros []|]. intros [<-|Hd]; [exists d0; split; [left; reflexivity|exact X]|].
  destruct (IH Hd) as [t [A B]]. exists t. split; [right; exact A|exact B].
Qed.
(* a table whose rows of each scan are what it declares *)
Lemma declared_rows : forall T (sel : database -> zmap T) (key : T -> name) (mk : T -> ScanSpec.event) sf runs ds,
  (forall fuel tus d w, ScanSpec.coherent (ScanSpec.units tus) -> scan fuel sf tus = Ok (d, w) -> forall k v, In (k, v) (sel d) <-> k = n_hash (key v) /\ ScanSpec.given sf tus (mk v)) ->
  scanned sf runs ds -> forall k v, (exists s, In s ds /\ In (k, v) (sel s)) <-> k = n_hash (key v) /\ declared sf runs (mk v).
Proof.
  intros T sel key mk sf runs ds Hs H k v. split.
  - intros [s [Hin Hv]]. destruct (scanned_left _ _ _ _ H Hin) as [tus [A [B [fuel [w C]]]]]. apply (Hs fuel tus s w B C) in Hv. destruct Hv as [E G]. split; [exact E|]. exists tus. auto.
  - intros [E [tus [Ht G]]]. destruct (scanned_right _ _ _ _ H Ht) as [s [A [B [fuel [w C]]]]]. exists s. split; [exact A|]. apply (Hs fuel tus s w B C). auto.
Qed.

Section Merged.
Variables (ds : list database) (d' : database).
Hypothesis Hinv : Forall inv ds.
Hypothesis Hwf : Forall wf_db ds.
Hypothesis Hm : MergeAll db_empty ds = Ok d'.
Lemma merged_wf : wf_db d'.
Proof. exact (all_wf ds db_empty d' wf_empty Hwf Hm). Qed.
Lemma merged_names : names_ok (m_names d').
Proof. exact (proj1 merged_wf). Qed.
Lemma lift : forall s n, In s ds -> known (m_names s) n -> known (m_names d') n.
Proof. intros s n Hs. exact (all_known ds d' s n Hwf Hm Hs). Qed.
Lemma lift_prim : forall s p, In s ds -> known_prim (m_names s) p -> known_prim (m_names d') p.
Proof. intros s p Hs [A B]. split; apply (lift s); assumption. Qed.
Lemma inv_in : forall s, In s ds -> inv s.
Proof. rewrite Forall_forall in Hinv. exact Hinv. Qed.
Ltac sound_at H := let X := fresh in pose proof (inv_in _ H) as X; destruct X as [_ X]; unfold sound in X.
Lemma row_fields : forall s k f, In s ds -> In (k, f) (m_fields s) -> k = n_hash (p_name (f_prim f)) /\ k <> 0 /\ g_field (m_names s) f.
Proof. intros s k f Hs. pose proof (inv_in _ Hs) as [_ X]. unfold sound in X. destruct X as [_ [_ [_ [_ [_ [_ [_ [_ [[_ X] _]]]]]]]]]. apply X. Qed.
Lemma row_functions : forall s k f, In s ds -> In (k, f) (m_functions s) -> k = n_hash (p_name (fn_prim f)) /\ k <> 0 /\ g_fun (m_names s) f.
Proof. intros s k f Hs. pose proof (inv_in _ Hs) as [_ X]. unfold sound in X. destruct X as [_ [_ [_ [_ [_ [_ [_ [[_ X] _]]]]]]]]. apply X. Qed.
Lemma row_consts : forall s k f, In s ds -> In (k, f) (m_enum_consts s) -> k = n_hash (p_name (ec_prim f)) /\ k <> 0 /\ g_const (m_names s) f.
Proof. intros s k f Hs. pose proof (inv_in _ Hs) as [_ X]. unfold sound in X. destruct X as [_ [_ [_ [_ [_ [_ [[_ X] _]]]]]]]. apply X. Qed.
Lemma eq_fields : forall s v k, In s ds -> In (k, v) (m_fields s) -> forall s' v' k', In s' ds -> In (k', v') (m_fields s') -> (field_eqb v v' = true <-> v = v').
Proof.
  intros s v k Hs Hv s' v' k' Hs' Hv'. destruct C36_what_is_compared as [_ [_ [_ [E _]]]]. rewrite E. clear E. split; [|intros <-; unfold same_field, same_prim; tauto].
  destruct (row_fields _ _ _ Hs Hv) as [_ [_ [A1 [A2 _]]]]. destruct (row_fields _ _ _ Hs' Hv') as [_ [_ [B1 [B2 _]]]].
  apply (lift_prim s) in A1; [|exact Hs]. apply (lift s) in A2; [|exact Hs]. apply (lift_prim s') in B1; [|exact Hs']. apply (lift s') in B2; [|exact Hs'].
  intros [E1 [E2 [E3 [E4 E5]]]]. destruct v, v'. cbn in *. subst. f_equal; [eapply known_prim_inj|eapply known_inj]; try eassumption; apply merged_names.
Qed.
Lemma eq_functions : forall s v k, In s ds -> In (k, v) (m_functions s) -> forall s' v' k', In s' ds -> In (k', v') (m_functions s') -> (function_eqb v v' = true <-> v = v').
Proof.
  intros s v k Hs Hv s' v' k' Hs' Hv'. destruct C36_what_is_compared as [_ [_ [E _]]]. rewrite E. clear E. split; [|intros <-; unfold same_function, same_prim; tauto].
  destruct (row_functions _ _ _ Hs Hv) as [_ [_ [A1 [_ A2]]]]. destruct (row_functions _ _ _ Hs' Hv') as [_ [_ [B1 [_ B2]]]].
  apply (lift_prim s) in A1; [|exact Hs]. apply (lift_prim s') in B1; [|exact Hs'].
  intros [E1 E2]. destruct v, v'. cbn in *. subst. f_equal. eapply known_prim_inj; try eassumption; apply merged_names.
Qed.
Lemma eq_consts : forall s v k, In s ds -> In (k, v) (m_enum_consts s) -> forall s' v' k', In s' ds -> In (k', v') (m_enum_consts s') -> (enum_const_eqb v v' = true <-> v = v').
Proof.
  intros s v k Hs Hv s' v' k' Hs' Hv'. destruct C36_what_is_compared as [_ [E _]]. rewrite E. clear E. split; [|intros <-; unfold same_enum_const, same_prim; tauto].
  destruct (row_consts _ _ _ Hs Hv) as [_ [_ [A1 _]]]. destruct (row_consts _ _ _ Hs' Hv') as [_ [_ [B1 _]]].
  apply (lift_prim s) in A1; [|exact Hs]. apply (lift_prim s') in B1; [|exact Hs'].
  intros [E1 E2]. destruct v, v'. cbn in *. subst. f_equal. eapply known_prim_inj; try eassumption; apply merged_names.
Qed.
Lemma merged_fields : (forall k v, In (k, v) (m_fields d') <-> exists s, In s ds /\ In (k, v) (m_fields s)) /\ forall k, NoDup (m_range k (m_fields d')).
Proof.
  destruct (C36_overloads_are_the_union ds d' Hwf Hm) as [_ [_ [U _]]].
  split; intros k; [intros v|]; apply (union_exact _ _ _ _ _ _ (U k) eq_fields).
Qed.
Lemma merged_functions : (forall k v, In (k, v) (m_functions d') <-> exists s, In s ds /\ In (k, v) (m_functions s)) /\ forall k, NoDup (m_range k (m_functions d')).
Proof.
  destruct (C36_overloads_are_the_union ds d' Hwf Hm) as [_ [U _]].
  split; intros k; [intros v|]; apply (union_exact _ _ _ _ _ _ (U k) eq_functions).
Qed.
Lemma merged_consts : (forall k v, In (k, v) (m_enum_consts d') <-> exists s, In s ds /\ In (k, v) (m_enum_consts s)) /\ forall k, NoDup (m_range k (m_enum_consts d')).
Proof.
  destruct (C36_overloads_are_the_union ds d' Hwf Hm) as [U _].
  split; intros k; [intros v|]; apply (union_exact _ _ _ _ _ _ (U k) eq_consts).
Qed.
End Merged.

(* the events of each run *)
Lemma scanned_events : forall sf runs ds, scanned sf runs ds -> exists evss,
  Forall2 (ScanSpec.run_events sf []) runs evss /\ Forall2 (fun d evs => ScanSpec.blank d = ScanSpec.noted evs db_empty) ds evss.
Proof.
  intros sf runs ds H. induction H as [|tus d runs ds [Hc [fuel [w H]]] _ [evss [I1 I2]]]; [exists []; split; constructor|].
  destruct (ScanProps.C75_scan_records _ _ _ _ _ Hc H) as [evs [A B]]. exists (evs :: evss). split; constructor; assumption.
Qed.
Lemma flat_map_both : forall A B C (P : A -> B -> Prop) (f : A -> list C) (g : B -> list C) l1 l2, (forall a b, P a b -> f a = g b) -> Forall2 P l1 l2 -> flat_map f l1 = flat_map g l2.
Proof. intros A B C P f g l1 l2 H F. induction F as [|a b l1 l2 Hp _ IH]; [reflexivity|]. cbn. rewrite IH, (H a b Hp). reflexivity. Qed.
Lemma named_concat : forall T h (what : ScanSpec.event -> option (name * T)) evss, ScanSpec.named h what (concat evss) = flat_map (ScanSpec.named h what) evss.
Proof. intros T h what evss. induction evss as [|e r IH]; [reflexivity|]. cbn [concat flat_map]. rewrite <- IH. unfold ScanSpec.named. rewrite flat_map_app. reflexivity. Qed.
Lemma first_flat : forall A T (f : A -> list T) l, firstn 1 (flat_map (fun x => firstn 1 (f x)) l) = firstn 1 (flat_map f l).
Proof.
  intros A T f l. induction l as [|x l IH]; [reflexivity|]. cbn [flat_map]. rewrite !firstn1_app. destruct (f x); [exact IH|reflexivity].
Qed.
Lemma keys_range : forall T k (m : zmap T), In k (keys m) <-> m_range k m <> [].
Proof.
  intros T k m. unfold keys. rewrite in_map_iff. split.
  - intros [[k' v] [E Hin]] X. cbn in E. subst k'. apply m_range_In in Hin. rewrite X in Hin. destruct Hin.
  - destruct (m_range k m) as [|v r] eqn:E; [congruence|]. intros _. exists (k, v). split; [reflexivity|]. apply m_range_In. rewrite E. left. reflexivity.
Qed.
Lemma first_row : forall T (sel : database -> zmap T) ds d', (forall k, m_range k (sel d') = firstn 1 (flat_map (fun s => m_range k (sel s)) ds)) ->
  (forall k v, In (k, v) (sel d') -> exists s, In s ds /\ In (k, v) (sel s)) /\
  (forall k, In k (keys (sel d')) <-> exists s, In s ds /\ In k (keys (sel s))).
Proof.
  intros T sel ds d' H. assert (A : forall k v, In (k, v) (sel d') -> exists s, In s ds /\ In (k, v) (sel s)).
  { intros k v Hin. apply m_range_In in Hin. rewrite H in Hin. assert (X : In v (flat_map (fun s => m_range k (sel s)) ds)).
    { destruct (flat_map (fun s => m_range k (sel s)) ds) as [|x r]; [destruct Hin|]. cbn in Hin. destruct Hin as [->|[]]. left. reflexivity. }
    apply in_flat_map in X. destruct X as [s [Hs Hv]]. exists s. split; [exact Hs|]. apply m_range_In. exact Hv. }
  split; [exact A|]. intros k. split.
  - intros Hk. unfold keys in Hk. apply in_map_iff in Hk. destruct Hk as [[k' v] [E Hin]]. cbn in E. subst k'. destruct (A _ _ Hin) as [s [Hs Hv]]. exists s. split; [exact Hs|]. unfold keys. apply in_map_iff. exists (k, v). auto.
  - intros [s [Hs Hk]]. apply keys_range in Hk. apply keys_range. rewrite H. intros X. apply Hk.
    assert (Y : forall v, ~ In v (flat_map (fun s => m_range k (sel s)) ds)) by (intros v Hv; destruct (flat_map (fun s => m_range k (sel s)) ds); [destruct Hv|discriminate X]).
    destruct (m_range k (sel s)) as [|v r] eqn:E; [reflexivity|]. exfalso. apply (Y v). apply in_flat_map. exists s. split; [exact Hs|]. rewrite E. left. reflexivity.
Qed.
(* attributes *)
Lemma merged_attrs : forall T (eqb : T -> T -> bool) (sel : database -> zmap T) ds d', (forall a b c, eqb a b = true -> eqb b c = true -> eqb a c = true) ->
  (forall k, overload_union eqb (map sel ds) k (m_range k (sel d'))) ->
  (forall k v, In (k, v) (sel d') -> exists s, In s ds /\ In (k, v) (sel s)) /\
  (forall k s v v0, In s ds -> In (k, v) (sel s) -> v = v0 \/ eqb v v0 = true -> exists w, In (k, w) (sel d') /\ eqb w v0 = true).
Proof.
  intros T eqb sel ds d' Tr U. split.
  - intros k v Hin. apply m_range_In in Hin. destruct (U k) as [A _]. destruct (A v Hin) as [m [Hm Hv]]. apply in_map_iff in Hm. destruct Hm as [s [<- Hs]]. exists s. split; [exact Hs|]. apply m_range_In. exact Hv.
  - intros k s v v0 Hs Hin E. destruct (U k) as [_ [B _]]. destruct (B (sel s) v (in_map sel _ _ Hs) (proj2 (m_range_In _ _ _ _) Hin)) as [w [Hw Ew]].
    exists w. split; [apply m_range_In; exact Hw|]. destruct E as [<-|E]; [exact Ew|]. exact (Tr _ _ _ Ew E).
Qed.
