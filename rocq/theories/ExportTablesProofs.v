(* Names, texts and the raw tables. *)
From Verif Require Import Base BaseProofs Text HashModel HashSpec HashProofs SearchModel Maps DatabaseModel NamesProofs MergeSpec ExportModel ExportSpec ExportProofs ExportParentProofs.
From Coq Require Import Sorted Permutation.

(* ---- texts one after the other ---- *)
Definition packed (ts : list (list Z)) : list Z := flat_map (fun t => t ++ [0]) ts.
Fixpoint offs (pos : Z) (ts : list (list Z)) : list Z :=
  match ts with [] => [] | t :: r => pos :: offs (pos + zlen t + 1) r end.
Lemma packed_app : forall a b, packed (a ++ b) = packed a ++ packed b.
Proof. intros. unfold packed. apply flat_map_app. Qed.
Lemma offs_app : forall a b pos, offs pos (a ++ b) = offs pos a ++ offs (pos + zlen (packed a)) b.
Proof.
  induction a as [|t a IH]; intros b pos; cbn [app offs packed flat_map]; [rewrite Z.add_0_r; reflexivity|].
  f_equal. rewrite IH. f_equal. f_equal. fold (packed a). rewrite !zlen_app. change (zlen [0]) with 1. lia.
Qed.
Lemma offs_length : forall ts pos, length (offs pos ts) = length ts.
Proof. induction ts as [|t ts IH]; intros pos; cbn [offs length]; [reflexivity|]. rewrite IH. reflexivity. Qed.
Lemma offs_text : forall ts i t, nth_error ts i = Some t -> ~ In 0 t ->
  exists off, nth_error (offs 0 ts) i = Some off /\ c_str (skipn (Z.to_nat off) (packed ts)) = Ok t.
Proof.
  intros ts i t H Hz. apply nth_error_split in H. destruct H as (a & b & -> & <-).
  exists (zlen (packed a)). split.
  - rewrite offs_app. rewrite nth_error_app2 by (rewrite offs_length; lia). rewrite offs_length, Nat.sub_diag. reflexivity.
  - rewrite packed_app. unfold zlen. rewrite Nat2Z.id, skipn_app, skipn_all, Nat.sub_diag. cbn [app skipn packed flat_map].
    rewrite <- app_assoc. cbn [app]. apply c_str_app. rewrite Forall_forall. intros x Hx ->. contradiction.
Qed.
Lemma c_str_inv : forall l t, c_str l = Ok t -> exists rest, l = t ++ 0 :: rest.
Proof.
  induction l as [|c l IH]; intros t H; cbn [c_str] in H; [discriminate|]. destruct (Z.eqb_spec c 0) as [->|Hc].
  - assert (t = []) by congruence. subst t. exists l. reflexivity.
  - destruct (c_str l) as [u| | |] eqn:E; cbn [obind] in H; try discriminate. destruct (IH u eq_refl) as [rest ->]. assert (t = c :: u) by congruence. subst t. exists rest. reflexivity.
Qed.
Lemma fold_size : forall A (f : A -> list Z) l n, fold_left (fun n e => n + zlen (f e) + 1) l n = n + zlen (packed (map f l)).
Proof.
  induction l as [|a l IH]; intros n; cbn [fold_left map packed flat_map]; [change (zlen []) with 0; lia|].
  rewrite IH. fold (packed (map f l)). rewrite !zlen_app. change (zlen [0]) with 1. lia.
Qed.
Lemma repeat_split : forall A (x : A) n m, (m <= n)%nat -> repeat x n = repeat x m ++ repeat x (n - m).
Proof. intros. rewrite <- repeat_app. f_equal. lia. Qed.

Lemma m_set_last : forall V (m : zmap V) k v, (forall x, In x (keys m) -> x < k) -> m_set k v m = m ++ [(k, v)].
Proof.
  induction m as [|[k' v'] m IH]; intros k v H; cbn [m_set app]; [reflexivity|].
  replace (k' <? k) with true by (symmetry; apply Z.ltb_lt; apply H; left; reflexivity). f_equal. apply IH. intros x Hx. apply H. right. exact Hx.
Qed.
Lemma ssorted_app : forall a k b, ssorted (a ++ k :: b) -> forall x, In x a -> x < k.
Proof.
  induction a as [|y a IH]; intros k b H x Hx; [contradiction|]. cbn [app ssorted] in H.
  destruct H as [H1 H2]. destruct Hx as [<-|Hx].
  - clear IH. revert y H1. induction a as [|z a IHa]; intros y H1; cbn in H1; [apply H1; left; reflexivity|].
    apply H1. right. apply in_or_app. right. left. reflexivity.
  - apply (IH k b H2 x Hx).
Qed.

Definition name_texts (names : zmap name) : list (list Z) := map (fun e => n_text (snd e)) names.
Definition name_array (names : zmap name) : list (Z * option Z) := combine (keys names) (map Some (offs 0 (name_texts names))).
Lemma name_array_keys : forall names, keys (name_array names) = keys names.
Proof.
  intros. unfold name_array, keys. assert (H : length (map fst names) = length (map Some (offs 0 (name_texts names)))).
  { rewrite !map_length, offs_length. unfold name_texts. rewrite map_length. reflexivity. }
  revert H. generalize (map Some (offs 0 (name_texts names))). generalize (map fst names). induction l as [|a l IH]; intros [|b l2] H; try discriminate; cbn; [reflexivity|].
  f_equal. apply IH. cbn in H. lia.
Qed.
Lemma combine_app2 : forall A B (a1 a2 : list A) (b1 b2 : list B), length a1 = length b1 -> combine (a1 ++ a2) (b1 ++ b2) = combine a1 b1 ++ combine a2 b2.
Proof. induction a1 as [|x a1 IH]; intros a2 [|y b1] b2 H; try discriminate; cbn; [reflexivity|]. f_equal. apply IH. cbn in H. lia. Qed.

Lemma BuildNames_ok : forall L names, ssorted (keys names) ->
  BuildNames L names = Ok (packed (name_texts names), name_array names, name_array names).
Proof.
  intros L names Hs. unfold BuildNames, name_data_size. rewrite (fold_size _ (fun e : Z * name => n_text (snd e))). rewrite Z.add_0_l. fold (name_texts names).
  set (N := Z.to_nat (zlen (packed (name_texts names)))).
  destruct (each_inv _ _ copy_name (fun done s => s = (packed (name_texts done) ++ repeat (lay_junk L) (N - length (packed (name_texts done))), name_array done, zlen (packed (name_texts done)))) names
     (repeat (lay_junk L) N, [], 0)) as [s [H1 H2]].
  - cbn [name_texts map packed flat_map app length]. rewrite Nat.sub_0_r. reflexivity.
  - intros done e s [rest E] ->. unfold copy_name.
    assert (Hl : (length (packed (name_texts done)) + length (n_text (snd e) ++ [0%Z]) <= N)%nat).
    { unfold N. rewrite E. unfold name_texts. rewrite map_app, packed_app. cbn [map packed flat_map]. unfold zlen. rewrite Nat2Z.id, !app_length. cbn [length]. lia. }
    rewrite (repeat_split _ _ _ (length (n_text (snd e) ++ [0]))) by lia.
    rewrite (wr_bytes_app (packed (name_texts done))) by (rewrite ?repeat_length; reflexivity). cbn [obind]. eexists. split; [reflexivity|].
    assert (Hn : name_texts (done ++ [e]) = name_texts done ++ [n_text (snd e)]) by (unfold name_texts; rewrite map_app; reflexivity).
    rewrite Hn, packed_app. cbn [packed flat_map]. rewrite app_nil_r. f_equal; [f_equal|].
    + rewrite (app_length (packed _)), Nat.sub_add_distr, <- !app_assoc. reflexivity.
    + rewrite m_set_last.
      * unfold name_array. rewrite Hn, offs_app. unfold keys. rewrite !map_app. rewrite combine_app2 by (rewrite !map_length, offs_length; unfold name_texts; rewrite map_length; reflexivity).
        reflexivity.
      * rewrite name_array_keys. intros x Hx. rewrite E in Hs. unfold keys in Hs. rewrite map_app in Hs. cbn [map] in Hs. apply (ssorted_app _ _ _ Hs). exact Hx.
    + rewrite zlen_app, zlen_app. change (zlen [0]) with 1. lia.
  - rewrite H1, H2. cbn [obind]. replace (N - length (packed (name_texts names)))%nat with O; [cbn [repeat]; rewrite app_nil_r; reflexivity|].
    unfold N, zlen. rewrite Nat2Z.id. lia.
Qed.

Lemma AssignAttributeText_ok : forall L vals, AssignAttributeText L vals = Ok (packed vals, offs 0 vals).
Proof.
  intros L vals. unfold AssignAttributeText, text_data_size. rewrite (fold_size _ (fun v => v)), map_id, Z.add_0_l.
  set (N := Z.to_nat (zlen (packed vals))).
  destruct (each_inv _ _ copy_text (fun done s => s = (packed done ++ repeat (lay_junk L) (N - length (packed done)), offs 0 done, zlen (packed done))) vals
     (repeat (lay_junk L) N, [], 0)) as [s [H1 H2]].
  - cbn [packed flat_map app length]. rewrite Nat.sub_0_r. reflexivity.
  - intros done e s [rest E] ->. unfold copy_text.
    assert (Hl : (length (packed done) + length (e ++ [0%Z]) <= N)%nat).
    { unfold N. rewrite E. rewrite packed_app. cbn [packed flat_map]. unfold zlen. rewrite Nat2Z.id, !app_length. cbn [length]. lia. }
    rewrite (repeat_split _ _ _ (length (e ++ [0]))) by lia.
    rewrite (wr_bytes_app (packed done)) by (rewrite ?repeat_length; reflexivity). cbn [obind]. eexists. split; [reflexivity|].
    rewrite packed_app, offs_app. cbn [packed flat_map offs]. rewrite app_nil_r. f_equal; [f_equal|].
    + rewrite (app_length (packed _)), Nat.sub_add_distr, <- !app_assoc. reflexivity.
    + rewrite zlen_app, zlen_app. change (zlen [0]) with 1. lia.
  - rewrite H1, H2. cbn [obind fst]. replace (N - length (packed vals))%nat with O; [cbn [repeat]; rewrite app_nil_r; reflexivity|].
    unfold N, zlen. rewrite Nat2Z.id. lia.
Qed.

(* ---- the tables ---- *)
Definition off_of (nm : zmap (option Z)) (h : Z) : option Z := match m_find h nm with Some t => t | None => None end.
Definition row_of (nm : zmap (option Z)) (i : item) : row :=
  mk_row (n_hash (it_name i)) (off_of nm (n_hash (it_name i))) (n_hash (it_parent i)) (n_hash (it_type i)) (it_uid i)
    (map n_hash (it_args i)) (n_hash (it_ref i)) (it_data i).
Definition info_of (nm : zmap (option Z)) (e : Z * container_info) : info :=
  mk_info (n_hash (ci_name (snd e))) (off_of nm (n_hash (ci_name (snd e)))) (n_hash (ci_read (snd e))) (n_hash (ci_write (snd e))) (ci_flags (snd e)) (ci_count (snd e)).
Lemma BuildCArray_ok : forall T (prim_of : T -> prim) copy src nm, (forall e, In e src -> In (n_hash (p_name (prim_of (snd e)))) (keys nm)) ->
  BuildCArray prim_of copy src nm =
  (map (fun e => let h := n_hash (p_name (prim_of (snd e))) in copy (snd e) (mk_row h (off_of nm h) (n_hash (p_parent (prim_of (snd e)))) 0 0 [] 0 [])) src, nm).
Proof.
  induction src as [|[k v] src IH]; intros nm H; cbn [BuildCArray map snd]; [reflexivity|].
  assert (Hi : In (n_hash (p_name (prim_of v))) (keys nm)) by (apply (H (k, v)); left; reflexivity).
  unfold intern, off_of. apply m_find_some_iff in Hi. destruct Hi as [t Ht]. rewrite Ht. rewrite IH by (intros; apply H; right; assumption). reflexivity.
Qed.
Lemma BuildInfos_ok : forall src nm, (forall e, In e src -> In (n_hash (ci_name (snd e))) (keys nm)) ->
  BuildInfos src nm = (map (info_of nm) src, nm).
Proof.
  induction src as [|[k v] src IH]; intros nm H; cbn [BuildInfos map snd]; [reflexivity|].
  assert (Hi : In (n_hash (ci_name v)) (keys nm)) by (apply (H (k, v)); left; reflexivity).
  unfold info_of at 1, intern, off_of. cbn [snd]. apply m_find_some_iff in Hi. destruct Hi as [t Ht]. rewrite Ht. rewrite IH by (intros; apply H; right; assumption). reflexivity.
Qed.
Definition T_of (db : database) (nm : zmap (option Z)) : table := fun k => map (row_of nm) (items db k).
Lemma BuildTables_ok : forall db nm, (forall k i, In i (items db k) -> In (n_hash (it_name i)) (keys nm)) ->
  (forall e, In e (m_containers db) -> In (n_hash (ci_name (snd e))) (keys nm)) ->
  exists T, BuildTables db nm = (T, map (info_of nm) (m_containers db), nm) /\ forall k, T k = T_of db nm k.
Proof.
  intros db nm Hi Hc. unfold BuildTables.
  assert (HK : forall k A (src : zmap A) (prim_of : A -> prim) (g : Z * A -> item), items db k = map g src -> (forall e, it_name (g e) = p_name (prim_of (snd e))) ->
     forall e, In e src -> In (n_hash (p_name (prim_of (snd e)))) (keys nm)).
  { intros k A src prim_of g E1 E2 e He. rewrite <- E2. apply (Hi k). rewrite E1. apply in_map. exact He. }
  rewrite (BuildCArray_ok _ t_prim) by (eapply (HK KType); reflexivity).
  rewrite (BuildCArray_ok _ ec_prim) by (eapply (HK KEnumConst); reflexivity).
  rewrite (BuildCArray_ok _ e_prim) by (eapply (HK KEnum); reflexivity).
  rewrite (BuildCArray_ok _ f_prim) by (eapply (HK KField); reflexivity).
  rewrite (BuildCArray_ok _ fn_prim) by (eapply (HK KFunction); reflexivity).
  rewrite (BuildCArray_ok _ c_prim) by (eapply (HK KClass); reflexivity).
  rewrite (BuildCArray_ok _ (fun p => p) (fun _ r => r) (m_templates db)) by (eapply (HK KTemplate _ _ (fun p => p)); reflexivity).
  rewrite (BuildCArray_ok _ tt_prim) by (eapply (HK KTemplateType); reflexivity).
  rewrite (BuildCArray_ok _ (fun p => p) (fun _ r => r) (m_namespaces db)) by (eapply (HK KNamespace _ _ (fun p => p)); reflexivity).
  rewrite (BuildCArray_ok _ (fun p => p) (fun _ r => r) (m_flag_attrs db)) by (eapply (HK KFlagAttr _ _ (fun p => p)); reflexivity).
  rewrite (BuildCArray_ok _ ia_prim) by (eapply (HK KIntAttr); reflexivity).
  rewrite (BuildCArray_ok _ fa_prim) by (eapply (HK KFloatAttr); reflexivity).
  rewrite (BuildCArray_ok _ pa_prim) by (eapply (HK KPrimAttr); reflexivity).
  rewrite (BuildCArray_ok _ ta_prim) by (eapply (HK KTextAttr); reflexivity).
  rewrite BuildInfos_ok by exact Hc.
  eexists. split; [reflexivity|]. intros k. unfold T_of. destruct k; cbn [items]; rewrite map_map; apply map_ext; intros [h v]; reflexivity.
Qed.

(* ---- what the tables say ---- *)
Lemma items_at : forall db l, In l (places db (fst l)) -> exists i, at_ db l = Some i /\ In i (items db (fst l)).
Proof.
  intros db l H. apply places_In in H. destruct H as [_ H]. unfold at_. destruct (nth_error (items db (fst l)) (snd l)) as [i|] eqn:E.
  - exists i. split; [reflexivity|]. apply nth_error_In in E. exact E.
  - apply nth_error_None in E. lia.
Qed.
Lemma row_or_T : forall db nm l i, at_ db l = Some i -> row_or (T_of db nm) l = row_of nm i.
Proof. intros db nm l i H. unfold row_or, T_of. unfold at_ in H. rewrite nth_error_map, H. reflexivity. Qed.

Section Facts.
Variable db : database.
Hypothesis Hwf : wf_tables db.
Hypothesis Hint : all_interned db.
Notation nm := (name_array (m_names db)).
Notation names := (packed (name_texts (m_names db))).
Notation T := (T_of db nm).

Lemma names_sorted : ssorted (keys (m_names db)).
Proof. apply Hwf. Qed.
Lemma items_wf : forall k i, In i (items db k) -> n_hash (it_name i) <> 0.
Proof.
  destruct Hwf as (W1 & W2 & W3 & W4 & W5 & W6 & W7 & W8 & W9 & W10 & W11 & W12 & W13 & W14 & W15 & W16 & _).
  intros k i H. destruct k; cbn [items] in H; apply in_map_iff in H; destruct H as [[h v] [<- H]]; cbn [it_name plain snd];
  match goal with W : wf_table _ ?m |- _ => match type of H with In _ m => destruct W as [_ W]; apply W in H; cbn in H; destruct H; congruence end end.
Qed.
Lemma items_sorted : forall k, sorted (map (fun i => n_hash (it_name i)) (items db k)).
Proof.
  destruct Hwf as (W1 & W2 & W3 & W4 & W5 & W6 & W7 & W8 & W9 & W10 & W11 & W12 & W13 & W14 & W15 & W16 & _).
  assert (HS : forall A (g : A -> name) (m : zmap A) (f : Z * A -> item), wf_table g m -> (forall e, it_name (f e) = g (snd e)) -> sorted (map (fun i => n_hash (it_name i)) (map f m))).
  { intros A g m f [S1 S2] E. rewrite map_map. replace (map (fun x => n_hash (it_name (f x))) m) with (keys m); [exact S1|].
    unfold keys. apply map_ext_in. intros [h v] Hin. rewrite E. cbn. apply S2 in Hin. tauto. }
  intros k. destruct k; cbn [items]; eapply HS; try eassumption; reflexivity.
Qed.
Lemma item_known : forall k i, In i (items db k) -> m_find (n_hash (it_name i)) (m_names db) = Some (it_name i).
Proof.
  intros k i H. destruct Hint as [H1 _]. destruct (H1 k i H) as [[E|E] _]; [|exact E]. apply items_wf in H. congruence.
Qed.
Lemma container_known : forall e, In e (m_containers db) -> In (n_hash (ci_name (snd e))) (keys nm).
Proof.
  intros [h c] H. rewrite name_array_keys. cbn [snd]. destruct Hint as [_ H2]. destruct (H2 h c H) as [E|E]; [|apply m_find_some_iff; eauto].
  exfalso. destruct Hwf as (_ & _ & _ & _ & _ & _ & _ & _ & _ & _ & _ & _ & _ & _ & _ & _ & [_ [_ W]] & _). apply W in H. destruct H; congruence.
Qed.
Lemma tables_built : exists T', BuildTables db nm = (T', map (info_of nm) (m_containers db), nm) /\ forall k, T' k = T k.
Proof.
  apply BuildTables_ok.
  - intros k i H. rewrite name_array_keys. apply m_find_some_iff. exists (it_name i). apply (item_known k). exact H.
  - exact container_known.
Qed.
Lemma name_off : forall h n, m_find h (m_names db) = Some n -> exists off, m_find h nm = Some (Some off) /\ c_str (skipn (Z.to_nat off) names) = Ok (n_text n).
Proof.
  intros h n H. assert (Htx : ~ In 0 (n_text n)).
  { apply m_find_In in H. destruct Hwf as (_ & W & _). apply W in H. destruct H as [H _]. apply c_string_nz in H. rewrite Forall_forall in H. intros Hz. apply (H 0 Hz). reflexivity. }
  pose proof names_sorted as Hs. assert (Hnd : forall m : zmap name, ssorted (keys m) -> forall pos, m_find h m = Some n ->
     exists i, nth_error (name_texts m) i = Some (n_text n) /\ m_find h (combine (keys m) (map Some (offs pos (name_texts m)))) = option_map Some (nth_error (offs pos (name_texts m)) i)).
  { clear. induction m as [|[k v] m IH]; intros Hs pos Hf; [discriminate|]. cbn [keys map name_texts fst snd offs combine m_find] in *.
    destruct (k =? h) eqn:E.
    - injection Hf as ->. exists O. split; reflexivity.
    - destruct (IH (proj2 Hs) (pos + zlen (n_text v) + 1) Hf) as [i [E1 E2]]. exists (S i). split; [exact E1|exact E2]. }
  destruct (Hnd _ Hs 0 H) as [i [E1 E2]]. destruct (offs_text _ _ _ E1 Htx) as [off [E3 E4]]. exists off. rewrite E3 in E2. split; [exact E2|exact E4].
Qed.

Lemma name_place : forall h n, m_find h (m_names db) = Some n -> exists off, m_find h nm = Some (Some off) /\ text_at_offset names off (n_text n).
Proof.
  intros h n H. destruct (name_off h n H) as [off [E1 E2]]. exists off. split; [exact E1|].
  assert (Hoff : 0 <= off).
  { apply m_find_In in E1. unfold name_array in E1. apply in_combine_r in E1. apply in_map_iff in E1. destruct E1 as [x [Ex E1]]. injection Ex as ->.
    assert (G : forall ts pos, 0 <= pos -> forall x, In x (offs pos ts) -> 0 <= x).
    { clear. induction ts as [|t ts IH]; intros pos Hp x Hx; cbn [offs] in Hx; [contradiction|]. destruct Hx as [<-|Hx]; [exact Hp|]. apply (IH (pos + zlen t + 1)); [unfold zlen; lia|exact Hx]. }
    apply (G _ 0 ltac:(lia) _ E1). }
  split; [exact Hoff|]. apply c_str_inv. exact E2.
Qed.

Lemma T_len : forall k, length (T k) = length (items db k).
Proof. intros. unfold T_of. apply map_length. Qed.
Lemma T_row : forall l, In l (places db (fst l)) -> exists i, at_ db l = Some i /\ In i (items db (fst l)) /\ row_or T l = row_of nm i.
Proof. intros l H. destruct (items_at db l H) as [i [H1 H2]]. exists i. split; [exact H1|]. split; [exact H2|]. apply row_or_T. exact H1. Qed.
Lemma T_hash : forall l, In l (places db (fst l)) -> r_hash (row_or T l) = hash_at db l.
Proof. intros l H. destruct (T_row l H) as [i (H1 & _ & ->)]. unfold hash_at. rewrite H1. reflexivity. Qed.
Lemma T_parent : forall l, In l (places db (fst l)) -> r_parent (row_or T l) = parent_at db l.
Proof. intros l H. destruct (T_row l H) as [i (H1 & _ & ->)]. unfold parent_at. rewrite H1. reflexivity. Qed.
Lemma T_type : forall l, In l (places db (fst l)) -> r_type (row_or T l) = type_at db l.
Proof. intros l H. destruct (T_row l H) as [i (H1 & _ & ->)]. unfold type_at. rewrite H1. reflexivity. Qed.
Lemma T_uid : forall l, In l (places db (fst l)) -> r_uid (row_or T l) = uid_at db l.
Proof. intros l H. destruct (T_row l H) as [i (H1 & _ & ->)]. unfold uid_at. rewrite H1. reflexivity. Qed.
Lemma T_text : forall l, In l (places db (fst l)) -> text_of names (row_or T l) = Ok (text_at db l).
Proof.
  intros l H. destruct (T_row l H) as [i (H1 & H2 & ->)]. unfold text_at. rewrite H1. unfold text_of, row_of, off_of. cbn [r_text].
  destruct (name_off _ _ (item_known _ _ H2)) as [off [E1 E2]]. rewrite E1. exact E2.
Qed.
Lemma interned_range : forall n, interned db n -> 0 <= n_hash n < 2 ^ 32.
Proof.
  intros n [E|E]; [lia|]. pose proof E as E2. apply m_find_In in E2. destruct Hwf as ([_ W] & W2 & _). apply W2 in E2.
  destruct (W _ _ E) as (_ & W4 & _). rewrite <- W4. destruct (text_hash _ E2) as [_ H]. exact H.
Qed.
Lemma interned_name : forall n, interned db n -> n_hash n <> 0 -> In (n_hash n) (keys (m_names db)).
Proof. intros n [E|E] H; [congruence|]. apply m_find_some_iff. eauto. Qed.
Lemma parent_range : forall l, 0 <= parent_at db l < 2 ^ 32.
Proof.
  intros l. unfold parent_at. destruct (at_ db l) as [i|] eqn:E; [|lia]. apply interned_range. unfold at_ in E. apply nth_error_In in E.
  destruct Hint as [H _]. apply H in E. tauto.
Qed.
Lemma type_range : forall l, 0 <= type_at db l < 2 ^ 32.
Proof.
  intros l. unfold type_at. destruct (at_ db l) as [i|] eqn:E; [|lia]. apply interned_range. unfold at_ in E. apply nth_error_In in E.
  destruct Hint as [H _]. apply H in E. tauto.
Qed.
Lemma hash_in_names : forall l, In l (places db (fst l)) -> In (hash_at db l) (keys (m_names db)) /\ hash_at db l <> 0.
Proof.
  intros l H. destruct (items_at db l H) as [i [H1 H2]]. unfold hash_at. rewrite H1. split; [|apply (items_wf (fst l)); exact H2].
  apply m_find_some_iff. exists (it_name i). apply (item_known (fst l)). exact H2.
Qed.
Lemma hash_range : forall l, 0 <= hash_at db l < 2 ^ 32.
Proof.
  intros l. unfold hash_at. destruct (at_ db l) as [i|] eqn:E; [|lia]. apply interned_range. unfold at_ in E. apply nth_error_In in E.
  destruct Hint as [H _]. apply H in E. tauto.
Qed.
Lemma text_fine : (forall h n, In (h, n) (m_names db) -> zlen (n_text n) < 2 ^ 28) ->
  forall l, In l (places db (fst l)) -> c_string (text_at db l) /\ zlen (text_at db l) < 2 ^ 28 /\ hash32 (text_at db l) 0 = hash_at db l.
Proof.
  intros Hs l H. destruct (items_at db l H) as [i [H1 H2]]. unfold text_at, hash_at. rewrite H1. pose proof (item_known _ _ H2) as H3.
  pose proof (m_find_In _ _ _ _ H3) as H4. destruct Hwf as ([_ W] & W2 & _). split; [apply (W2 _ _ H4)|]. split; [apply (Hs _ _ H4)|]. apply (W _ _ H3).
Qed.
End Facts.
