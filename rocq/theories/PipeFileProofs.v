(* The database of a scan meets what the files and the merger ask for. *)
From Verif Require Import Base BaseProofs Text HashModel HashSpec Maps DatabaseModel AttrModel NamesProofs MergeSpec MergeProofs BinarySpec TextDbSpec ScanModel
  PipeInvProofs PipeSpec.
Local Open Scope list_scope.
Local Open Scope Z_scope.

Lemma tab_file : forall T (nm : T -> name) (g g' : T -> Prop) m, tab nm g m -> at_most_rows m -> (forall k v, In (k, v) m -> g v -> g' v) -> table_ok nm g' m.
Proof. intros T nm g g' m [H1 H2] H3 H4. split; [exact H1|]. split; [exact H3|]. intros k v Hin. destruct (H2 k v Hin) as [A [B C]]. split; [exact A|]. split; [exact B|]. exact (H4 k v Hin C). Qed.
Lemma ssorted_sorted : forall l, ssorted l -> sorted l.
Proof.
  induction l as [|x l IH]; [exact (fun _ => I)|]. intros [H1 H2]. split; [|apply IH; exact H2]. intros y Hy. specialize (H1 y Hy). lia.
Qed.
Lemma tab1_tab : forall T (nm : T -> name) (g : T -> Prop) m, tab1 nm g m -> ~ In 0 (keys m) -> tab nm g m.
Proof.
  intros T nm g m [H1 H2] H3. split; [apply ssorted_sorted; exact H1|]. intros k v Hin. destruct (H2 k v Hin) as [A B]. split; [exact A|]. split; [|exact B].
  intros E. apply H3. rewrite <- E. unfold keys. apply in_map_iff. exists (k, v). auto.
Qed.
Lemma inv_storable : forall d, inv d -> fits d -> storable d.
Proof.
  intros d [[Hn1 Hn2] H] F. destruct F as [F1 [F2 [L1 [L2 [L3 [L4 [L5 [L6 [L7 [L8 [L9 [L10 [L11 [L12 [L13 [L14 [L15 [L16 [V1 [V2 [V3 [V4 [V5 [K1 K2]]]]]]]]]]]]]]]]]]]]]]]].
  destruct H as [H1 [H2 [H3 [H4 [H5 [H6 [H7 [H8 [H9 [H10 [H11 [H12 [H13 [H14 [H15 H16]]]]]]]]]]]]]]].
  pose proof (proj1 H15) as S1. pose proof (proj1 H16) as S2. apply tab1_tab in H15; [|exact K1]. apply tab1_tab in H16; [|exact K2].
  unfold storable. cbv zeta. split; [exact Hn1|]. split; [exact F1|]. split.
  { intros h n Hin. destruct (Hn2 h n Hin) as [A [B [C D]]]. split; [exact A|]. split; [exact B|]. split; [exact C|]. exact (F2 h n Hin). }
  split; [eapply tab_file; [exact H1|exact L1|auto]|]. split; [eapply tab_file; [exact H2|exact L2|auto]|].
  split; [eapply tab_file; [exact H3|exact L3|auto]|]. split; [eapply tab_file; [exact H4|exact L4|auto]|].
  split; [eapply tab_file; [exact H5|exact L5|auto]|].
  split; [eapply tab_file; [exact H6|exact L6|]; intros k v Hin [A B]; split; [exact A|]; rewrite B; split; [unfold is_u64; lia|exact (V1 k v Hin)]|].
  split; [eapply tab_file; [exact H7|exact L7|auto]|].
  split; [eapply tab_file; [exact H8|exact L8|]; intros k v _ [A [B _]]; auto|].
  split; [eapply tab_file; [exact H9|exact L9|]; intros k v Hin [A [B C]]; pose proof (V2 k v Hin); auto|].
  split; [eapply tab_file; [exact H10|exact L10|auto]|]. split; [eapply tab_file; [exact H11|exact L11|auto]|].
  split; [eapply tab_file; [exact H12|exact L12|]; intros k v Hin A; pose proof (V3 k v Hin); auto|].
  split; [eapply tab_file; [exact H13|exact L13|auto]|].
  split; [eapply tab_file; [exact H14|exact L14|]; intros k v Hin A; pose proof (V4 k v Hin); auto|].
  split; [eapply tab_file; [exact H15|exact L15|]; intros k v Hin [A [B [C D]]]; pose proof (V5 k v Hin); auto|].
  split; [eapply tab_file; [exact H16|exact L16|auto]|]. split; assumption.
Qed.
Lemma inv_stored : forall d, inv d -> stored d = d.
Proof.
  intros d [_ H]. destruct H as [_ [_ [_ [_ [_ [_ [_ [H _]]]]]]]]. destruct d. unfold stored. cbn in *. f_equal.
  destruct H as [_ H]. induction m_functions as [|[k f] m IH]; [reflexivity|]. cbn [map fst snd]. rewrite IH by (intros; apply H; right; assumption). f_equal. f_equal.
  destruct (H k f (or_introl eq_refl)) as [_ [_ [_ [_ A]]]]. destruct f. cbn in *. unfold without_address. cbn. rewrite A. reflexivity.
Qed.
Lemma tab_text : forall T (nm : T -> name) (g g' : T -> Prop) m, tab nm g m -> (forall k v, In (k, v) m -> g v -> g' v) -> text_table nm g' m.
Proof. intros T nm g g' m [H1 H2] H4. split; [exact H1|]. intros k v Hin. destruct (H2 k v Hin) as [A [B C]]. split; [exact A|]. split; [exact B|]. exact (H4 k v Hin C). Qed.
Lemma inv_text : forall pf d, inv d -> fits_text pf d -> text_storable pf d.
Proof.
  intros pf d [[Hn1 Hn2] H] [F1 [V1 [V3 [V4 [K1 K2]]]]].
  destruct H as [H1 [H2 [H3 [H4 [H5 [H6 [H7 [H8 [H9 [H10 [H11 [H12 [H13 [H14 [H15 H16]]]]]]]]]]]]]]].
  pose proof (proj1 H15) as S1. pose proof (proj1 H16) as S2. apply tab1_tab in H15; [|exact K1]. apply tab1_tab in H16; [|exact K2].
  unfold text_storable. cbv zeta. split; [exact Hn1|]. split.
  { intros h n Hin. destruct (Hn2 h n Hin) as [A [B [C D]]]. split; [exact A|]. split; [exact B|]. split; [exact C|]. exact (F1 h n Hin). }
  split; [eapply tab_text; [exact H1|auto]|]. split; [eapply tab_text; [exact H2|intros k v _ A; apply A]|].
  split; [eapply tab_text; [exact H3|auto]|]. split; [eapply tab_text; [exact H4|intros k v _ [A [_ B]]; auto]|].
  split; [eapply tab_text; [exact H5|intros k v _ A; apply A]|].
  split; [eapply tab_text; [exact H6|]; intros k v Hin [A _]; split; [exact A|exact (V1 k v Hin)]|].
  split; [eapply tab_text; [exact H7|intros k v _ A; apply A]|]. split; [eapply tab_text; [exact H8|intros k v _ A; apply A]|].
  split; [eapply tab_text; [exact H9|intros k v _ [A [B _]]; auto]|]. split; [eapply tab_text; [exact H10|auto]|].
  split; [eapply tab_text; [exact H11|intros k v _ A; apply A]|].
  split; [eapply tab_text; [exact H12|]; intros k v Hin A; pose proof (V3 k v Hin); auto|].
  split; [eapply tab_text; [exact H13|auto]|].
  split; [eapply tab_text; [exact H14|]; intros k v Hin A; pose proof (V4 k v Hin); auto|].
  split; [eapply tab_text; [exact H15|intros k v _ [A [B [C _]]]; auto]|]. split; [eapply tab_text; [exact H16|auto]|]. split; assumption.
Qed.

(* ---- merging ---- *)
Lemma tab_wf : forall T (nm : T -> name) (g : T -> Prop) m, tab nm g m -> wf_table nm m.
Proof. intros T nm g m [H1 H2]. split; [exact H1|]. intros k v Hin. destruct (H2 k v Hin) as [A [B _]]. auto. Qed.
Lemma inv_wf : forall d, inv d -> mergeable d -> wf_db d.
Proof.
  intros d [[Hn1 Hn2] H] [T [V [K1 K2]]]. destruct H as [H1 [H2 [H3 [H4 [H5 [H6 [H7 [H8 [H9 [H10 [H11 [H12 [H13 [H14 [H15 H16]]]]]]]]]]]]]]].
  pose proof (proj1 H15) as S1. pose proof (proj1 H16) as S2. apply tab1_tab in H15; [|exact K1]. apply tab1_tab in H16; [|exact K2].
  unfold wf_db. split.
  { split; [exact Hn1|]. intros h n Hf. apply m_find_In in Hf. destruct (Hn2 h n Hf) as [A [B [_ C]]]. split; [exact A|]. split; [|exact B].
    destruct (text_hash _ (T h n Hf)) as [D _]. rewrite D in C. injection C as C. exact C. }
  split; [exact T|]. do 14 (split; [eapply tab_wf; eassumption|]). split; [split; [exact S1|eapply tab_wf; eassumption]|]. split; [split; [exact S2|eapply tab_wf; eassumption]|]. exact V.
Qed.
