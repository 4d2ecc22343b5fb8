(* Every reference in an export leads somewhere in it. *)
From Coq Require Import Permutation Sorted.
From Verif Require Import Base BaseProofs Text Maps DatabaseModel ExportModel ExportSpec ExportProofs ExportTablesProofs ExportParentProofs ExportLinkProofs ExportMainProofs.
From Verif Require Import LaidModel LaidSpec LaidImageProofs.
#[local] Open Scope Z_scope.

Lemma offs_range : forall ts pos o, 0 <= pos -> In o (offs pos ts) -> 0 <= o <= pos + zlen (packed ts).
Proof.
  induction ts as [|t ts IH]; intros pos o P H; [contradiction|]. cbn [offs] in H. unfold packed. cbn [flat_map]. fold (packed ts). rewrite !zlen_app. change (zlen [0]) with 1.
  pose proof (zlen_nonneg _ t). pose proof (zlen_nonneg _ (packed ts)). destruct H as [<-|H]; [lia|]. apply IH in H; lia.
Qed.
Lemma name_array_range : forall names n, In n (name_array names) -> ofs_ok (zlen (packed (name_texts names))) (snd n).
Proof.
  intros names [h o] H. apply in_combine_r in H. apply in_map_iff in H. destruct H as [z [<- H]]. cbn [snd ofs_ok]. apply offs_range in H; lia.
Qed.
Lemma off_of_range : forall names h, ofs_ok (zlen (packed (name_texts names))) (off_of (name_array names) h).
Proof.
  intros names h. unfold off_of. destruct (m_find h (name_array names)) as [[o|]|] eqn:E; try exact I. apply m_find_In in E. exact (name_array_range names (h, Some o) E).
Qed.
Section Link.
Variables (L : layout) (fuel : nat) (db : database) (e : export).
Hypothesis Hx : exportable L fuel db.
Hypothesis Howned : forall l, In l (places db KPrimAttr) -> owner db l <> None.
Hypothesis F : facts L db e.
Notation V l := (In l (places db (fst l))).
Lemma rows_length : forall k, length (x_rows e k) = length (items db k).
Proof. intros k. rewrite (fx_rows _ _ _ F). unfold T_of. apply map_length. Qed.
Lemma valid_iff : forall l, valid e l <-> V l.
Proof. intros l. unfold valid. rewrite rows_length, places_In. tauto. Qed.
Lemma places_locs : forall k, places db k = locs (x_rows e) k.
Proof. intros k. unfold places, locs. rewrite rows_length. reflexivity. Qed.
Lemma or_null_ok : forall o, (forall l, o = Some l -> V l) -> ref_ok e (or_null o).
Proof. intros [l|] H; cbn [or_null ref_ok]; [|reflexivity]. apply valid_iff. apply H. reflexivity. Qed.
Lemma typed_ok : forall h, ref_ok e (or_null (type_named db h)).
Proof. intros h. apply or_null_ok. intros l H. apply type_valid in H. tauto. Qed.
Lemma tmethod_valid : forall l s f, tmethod db l s = Some f -> V f.
Proof. intros l s f H. apply find_some in H. apply (F_valid db KFunction). tauto. Qed.
Lemma method_ok : forall l s r, method_called db l s r -> ref_ok e r.
Proof.
  intros l s [z|f] H; cbn [method_called ref_ok] in *; [tauto|]. apply valid_iff. destruct H as [H _]. unfold children in H. apply filter_In in H. destruct H as [H _].
  apply in_flat_map in H. destruct H as [k [_ H]]. apply (F_valid db k). exact H.
Qed.
Lemma children_valid : forall a o c, In c (children db a o) -> V c.
Proof. intros a o c H. unfold children in H. apply filter_In in H. destruct H as [H _]. apply in_flat_map in H. destruct H as [k [_ H]]. apply (F_valid db k). exact H. Qed.
Lemma linked_ok : linked e.
Proof.
  split.
  - destruct (fx_infos _ _ _ F) as [-> ->]. rewrite !map_length. reflexivity.
  - intros l H. apply valid_iff in H. destruct (fx_parent _ _ _ F l H) as [[-> _]|(t & T1 & -> & _)].
    + unfold plain_parent. destruct (owner db l) as [o|] eqn:E.
      * apply valid_iff. apply first_owner_valid in E. tauto.
      * destruct l as [k j]. cbn [fst] in *. destruct k; try reflexivity. contradiction (Howned (KPrimAttr, j) H E).
    + apply valid_iff. apply (F_valid db KTemplateType). exact T1.
  - intros l H. apply valid_iff in H. rewrite (fx_type _ _ _ F l H). apply typed_ok.
  - intros l H. apply valid_iff in H. rewrite (fx_args _ _ _ F l H). apply Forall_map. apply Forall_forall. intros h _. apply typed_ok.
  - intros l K H. apply valid_iff in H. rewrite (fx_ret _ _ _ F l) by (rewrite K in H; exact H). apply or_null_ok. intros p E. apply find_some in E. apply (children_valid AParameters l). tauto.
  - intros l [K|K] H; apply valid_iff in H; rewrite K in H.
    + destruct (fx_class_ctor _ _ _ F l H) as [H1 H2]. split; eapply method_ok; eassumption.
    + destruct (fx_tt_ctor _ _ _ F l H) as [-> ->]. split; apply or_null_ok; intros f E; eapply tmethod_valid; exact E.
  - intros l H. apply valid_iff in H. rewrite (fx_prim _ _ _ F l H). apply or_null_ok. intros f E. eapply ref_valid; exact E.
  - intros [a o]. apply Forall_forall. intros r Hr. destruct (ak_eqb_spec a ABases) as [->|N].
    + rewrite (fx_bases _ _ _ F) in Hr. apply in_map_iff in Hr. destruct Hr as [b [<- Hr]]. apply valid_iff. unfold bases_of in Hr. apply in_flat_map in Hr. destruct Hr as [i [_ Hr]].
      destruct (type_named db (n_hash (ti_base (snd i)))) as [b'|] eqn:E; [|contradiction]. destruct (type_named db (n_hash (ti_derived (snd i)))) as [d|]; [|contradiction]. destruct (loc_eqb d o); [|contradiction].
      destruct Hr as [<-|[]]. apply type_valid in E. tauto.
    + destruct (fx_arr _ _ _ F a o N) as [P _]. apply (Permutation_in r P) in Hr. apply in_map_iff in Hr. destruct Hr as [c [<- Hc]]. apply filter_In in Hc. apply valid_iff. apply (children_valid a o). tauto.
  - intros a. rewrite (fx_global _ _ _ F). apply Forall_forall. intros l Hl. destruct (global_kind a) as [k|]; [|contradiction]. apply filter_In in Hl. apply valid_iff. apply (F_valid db k). tauto.
  - destruct (fx_infos _ _ _ F) as [_ ->]. apply Forall_map. apply Forall_forall. intros c _. unfold iters_of. cbn [fst snd]. split; apply typed_ok.
  - intros l i E. rewrite (fx_ci _ _ _ F) in E. destruct (fx_infos _ _ _ F) as [-> _]. rewrite map_length. unfold info_at in E. apply find_some in E. destruct E as [E _]. apply in_rev in E. apply in_seq in E. lia.
  - intros k r Hr. rewrite (fx_rows _ _ _ F) in Hr. destruct (fx_names _ _ _ F) as [-> _]. unfold T_of in Hr. apply in_map_iff in Hr. destruct Hr as [i [<- _]]. apply off_of_range.
  - destruct (fx_names _ _ _ F) as [-> ->]. apply name_array_range.
  - intros i Hi. destruct (fx_names _ _ _ F) as [-> _]. destruct (fx_infos _ _ _ F) as [E _]. rewrite E in Hi. apply in_map_iff in Hi. destruct Hi as [c [<- _]]. apply off_of_range.
  - destruct (fx_texts _ _ _ F) as [-> ->]. intros o Ho. apply offs_range in Ho; lia.
  - rewrite (fx_types _ _ _ F). destruct Hx as (_ & _ & _ & _ & _ & S & _). destruct (S (map (entry_of db) (type_places db))) as [P _].
    eapply Permutation_trans; [apply Permutation_map; exact P|]. rewrite map_map. cbn [entry_of snd]. unfold type_places. rewrite !places_locs. apply Permutation_refl.
Qed.
End Link.
