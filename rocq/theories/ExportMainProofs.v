(* Isolation, and the whole build. *)
From Verif Require Import Base BaseProofs Text HashModel HashSpec HashProofs SearchModel SearchProofs Maps DatabaseModel NamesProofs MergeSpec ExportModel ExportSpec ExportProofs ExportParentProofs ExportTablesProofs ExportLinkProofs ExportFlagProofs.
From Coq Require Import Sorted Permutation.

(* ---- removing entries ---- *)
Lemma stable_remove_ok : forall A (l1 l2 : list A) x, stable_remove (l1 ++ x :: l2) (zlen l1) = Ok (l1 ++ l2).
Proof.
  intros. unfold stable_remove, assert. assert (Hz : zlen (l1 ++ x :: l2) = zlen l1 + 1 + zlen l2) by (unfold zlen; rewrite app_length; cbn [length]; lia).
  pose proof (zlen_nonneg _ l1). pose proof (zlen_nonneg _ l2). replace (zlen l1 <? zlen (l1 ++ x :: l2)) with true by lia. cbn [obind]. f_equal.
  unfold slice. rewrite Hz. cbn [skipn Z.to_nat]. replace (Z.to_nat (zlen l1)) with (length l1) by (unfold zlen; lia).
  rewrite firstn_app, firstn_all, Nat.sub_diag. cbn [firstn]. rewrite app_nil_r. f_equal.
  replace (Z.to_nat (zlen l1 + 1)) with (length l1 + 1)%nat by (unfold zlen; lia). rewrite skipn_app, skipn_all2 by lia. replace (length l1 + 1 - length l1)%nat with 1%nat by lia.
  cbn [app skipn]. apply firstn_all2. unfold zlen. lia.
Qed.
Lemma remove_if_ok : forall bad (f : ref -> bool) a, (forall x, In x a -> bad x = Ok (f x)) -> remove_if bad a = Ok (filter (fun x => negb (f x)) a).
Proof.
  intros bad f a H. unfold remove_if.
  enough (G : forall n rest done, (length rest < n)%nat -> (forall x, In x rest -> bad x = Ok (f x)) ->
     remove_loop n bad (done ++ rest) (zlen done) = Ok (done ++ filter (fun x => negb (f x)) rest)) by (apply (G (S (length a)) a []); [lia|exact H]).
  clear H a. induction n as [|n IH]; intros rest done Hn Hb; [lia|]. cbn [remove_loop]. destruct rest as [|x rest].
  - rewrite app_nil_r. replace (zlen done <? zlen done) with false by lia. cbn [filter]. rewrite app_nil_r. reflexivity.
  - assert (Hz : zlen (done ++ x :: rest) = zlen done + 1 + zlen rest) by (unfold zlen; rewrite app_length; cbn [length]; lia).
    pose proof (zlen_nonneg _ rest). pose proof (zlen_nonneg _ done). replace (zlen done <? zlen (done ++ x :: rest)) with true by lia.
    assert (Hrd : rdA (done ++ x :: rest) (zlen done) = Ok x).
    { unfold rdA, znth. replace (zlen done <? 0) with false by lia. unfold zlen. rewrite Nat2Z.id, nth_error_app2 by lia. rewrite Nat.sub_diag. reflexivity. }
    rewrite Hrd. cbn [obind]. rewrite (Hb x) by (left; reflexivity). cbn [obind filter]. cbn [length] in Hn. destruct (f x); cbn [negb].
    + rewrite stable_remove_ok. cbn [obind]. apply IH; [lia|]. intros; apply Hb; right; assumption.
    + change (x :: rest) with ([x] ++ rest). rewrite app_assoc. replace (zlen done + 1) with (zlen (done ++ [x])) by (unfold zlen; rewrite app_length; cbn [length]; lia).
      rewrite IH; [rewrite <- app_assoc; reflexivity|lia|]. intros; apply Hb; right; assumption.
Qed.
Lemma sorted_filter : forall A (R : A -> A -> Prop) f l, StronglySorted R l -> StronglySorted R (filter f l).
Proof.
  intros A R f l H. induction H as [|x l H IH HF]; cbn [filter]; [constructor|]. destruct (f x); [|exact IH]. constructor; [exact IH|].
  rewrite Forall_forall in *. intros y Hy. apply filter_In in Hy. apply HF. tauto.
Qed.
Lemma filter_filter : forall A (f g : A -> bool) l, filter f (filter g l) = filter (fun x => g x && f x) l.
Proof. induction l as [|x l IH]; cbn [filter]; [reflexivity|]. destruct (g x); cbn [filter andb]; rewrite IH; reflexivity. Qed.
Lemma Permutation_filter : forall A (f : A -> bool) l l', Permutation l l' -> Permutation (filter f l) (filter f l').
Proof.
  intros A f l l' H. induction H; cbn [filter]; try constructor.
  - destruct (f x); [constructor; assumption|assumption].
  - destruct (f x), (f y); try constructor; reflexivity.
  - etransitivity; eassumption.
Qed.

Section Isolate.
Variables (db : database) (T : table).
Notation nm := (name_array (m_names db)).
Hypothesis HT : forall k, T k = T_of db nm k.
Notation V l := (In l (places db (fst l))).
Variables (typ ret : loc -> ref) (arr0 : cell -> list ref).
Hypothesis Htyp : forall l, V l -> typ l = or_null (type_named db (type_at db l)).
Hypothesis Hret : forall f, In f (places db KFunction) -> ret f = or_null (return_of db f).
(* what an array holds before isolation *)
Definition unfiltered (c : cell) : list loc := match fst c with AParameters => filter (fun p => negb (is_return db (snd c) p)) (children db AParameters (snd c)) | a => children db a (snd c) end.
Hypothesis Harr : forall c, fst c <> ABases -> Permutation (arr0 c) (map Ptr (unfiltered c)).

Definition keeps (a : ak) (r : ref) : bool :=
  match r with
  | Ptr x => match a with AFields => has_type db x | AMethods | AFunctions => typed_function db x | _ => true end
  | Int _ => true
  end.
Lemma unfiltered_valid : forall c l, In l (unfiltered c) -> V l /\ lists (fst c) (snd c) l = true /\ owner db l = Some (snd c).
Proof.
  intros [a o] l H. unfold unfiltered in H. cbn [fst snd] in *. destruct a; try (apply child_valid in H; tauto). apply filter_In in H. destruct H as [H _]. apply child_valid in H. tauto.
Qed.
Lemma bad_field_ok : forall l, V l -> bad_field typ (Ptr l) = Ok (negb (has_type db l)).
Proof. intros l H. unfold bad_field, has_type. cbn [loc_of obind]. rewrite Htyp by exact H. destruct (type_named db (type_at db l)); reflexivity. Qed.
Lemma any_bad_ok : forall ls, (forall l, In l ls -> V l) -> any_bad typ (map Ptr ls) = Ok (negb (forallb (has_type db) ls)).
Proof.
  induction ls as [|l ls IH]; intros H; cbn [any_bad map forallb]; [reflexivity|]. rewrite bad_field_ok by (apply H; left; reflexivity). cbn [obind].
  destruct (has_type db l); cbn [negb andb]; [|reflexivity]. apply IH. intros; apply H; right; assumption.
Qed.
Lemma forallb_perm : forall (f : loc -> bool) a b, Permutation a b -> forallb f a = forallb f b.
Proof.
  intros f a b P. destruct (forallb f a) eqn:E1, (forallb f b) eqn:E2; try reflexivity; exfalso.
  - assert (forallb f b = true); [|congruence]. apply forallb_forall. intros x Hx. rewrite forallb_forall in E1. apply E1. apply (Permutation_in x (Permutation_sym P)). exact Hx.
  - assert (forallb f a = true); [|congruence]. apply forallb_forall. intros x Hx. rewrite forallb_forall in E2. apply E2. apply (Permutation_in x P). exact Hx.
Qed.
Lemma bad_function_ok : forall arr f, In f (places db KFunction) -> (forall g, arr (AParameters, g) = arr0 (AParameters, g)) ->
  bad_function typ arr ret (Ptr f) = Ok (negb (typed_function db f)).
Proof.
  intros arr f Hf Hp. unfold bad_function. cbn [loc_of obind]. rewrite Hp. pose proof (Harr (AParameters, f) ltac:(cbn; discriminate)) as P.
  destruct (Permutation_map_inv _ _ P) as [ls [E P2]]. rewrite E. unfold unfiltered in P2. cbn [fst snd] in P2.
  assert (Hv : forall l, In l (filter (fun p => negb (is_return db f p)) (children db AParameters f)) -> V l) by (intros l Hl; apply filter_In in Hl; destruct Hl as [Hl _]; apply child_valid in Hl; tauto).
  rewrite any_bad_ok by (intros l Hl; apply Hv; apply (Permutation_in l (Permutation_sym P2)); exact Hl). cbn [obind].
  rewrite <- (forallb_perm (has_type db) _ _ P2). rewrite (Hret f Hf). unfold typed_function, is_return. destruct (return_of db f) as [r|] eqn:Er; cbn [or_null is_null].
  - apply find_some in Er. destruct Er as [Er _]. rewrite bad_field_ok by (apply child_valid in Er; tauto). cbn [obind]. f_equal. rewrite <- negb_andb. f_equal.
    destruct (forallb (has_type db) (children db AParameters f)) eqn:Ea.
    + rewrite forallb_forall in Ea. apply andb_true_iff. split; [|apply Ea; exact Er]. apply forallb_forall. intros x Hx. apply filter_In in Hx. apply Ea. tauto.
    + apply andb_false_iff. destruct (has_type db r) eqn:Ehr; [left|right; reflexivity].
      destruct (forallb (has_type db) (filter (fun p => negb (loc_eqb r p)) (children db AParameters f))) eqn:Eb; [|reflexivity]. exfalso.
      assert (forallb (has_type db) (children db AParameters f) = true); [|congruence]. apply forallb_forall. intros x Hx. rewrite forallb_forall in Eb.
      destruct (loc_eqb_spec r x) as [<-|Hne]; [exact Ehr|]. apply Eb. apply filter_In. split; [exact Hx|]. destruct (loc_eqb_spec r x); [congruence|reflexivity].
  - change (0 =? 0) with true. cbv iota. rewrite (filter_true _ (fun _ : loc => negb false)) by (intros; reflexivity). reflexivity.
Qed.
Lemma keep_list : forall c bad, fst c <> ABases -> (forall x, In (Ptr x) (arr0 c) -> bad (Ptr x) = Ok (negb (keeps (fst c) (Ptr x)))) ->
  remove_if bad (arr0 c) = Ok (filter (keeps (fst c)) (arr0 c)).
Proof.
  intros c bad Hc H. rewrite (remove_if_ok bad (fun r => negb (keeps (fst c) r))).
  - f_equal. apply filter_ext_in2. intros x _. apply negb_involutive.
  - intros x Hx. pose proof (Permutation_in x (Harr c Hc) Hx) as Hy. apply in_map_iff in Hy. destruct Hy as [l [<- _]]. apply H. exact Hx.
Qed.
Lemma in_unfiltered : forall c x, fst c <> ABases -> In (Ptr x) (arr0 c) -> In x (unfiltered c).
Proof. intros c x Hc H. apply (Permutation_in _ (Harr c Hc)) in H. apply in_map_iff in H. destruct H as [y [E H]]. congruence. Qed.
Lemma iso_fields : forall l, remove_if (bad_field typ) (arr0 (AFields, l)) = Ok (filter (keeps AFields) (arr0 (AFields, l))).
Proof.
  intros l. apply (keep_list (AFields, l)); [cbn; discriminate|]. intros x Hx. apply (in_unfiltered (AFields, l)) in Hx; [|cbn; discriminate]. apply unfiltered_valid in Hx.
  apply bad_field_ok. tauto.
Qed.
Lemma iso_functions : forall a l arr, a = AMethods \/ a = AFunctions -> (forall g, arr (AParameters, g) = arr0 (AParameters, g)) ->
  remove_if (bad_function typ arr ret) (arr0 (a, l)) = Ok (filter (keeps a) (arr0 (a, l))).
Proof.
  intros a l arr Ha Hp. assert (Hb : a <> ABases) by (destruct Ha; congruence). apply (keep_list (a, l)); [exact Hb|]. intros x Hx. apply (in_unfiltered (a, l)) in Hx; [|exact Hb].
  apply unfiltered_valid in Hx. cbn [fst snd] in Hx. destruct Hx as (Hv & Hl & _).
  assert (Hk : fst x = KFunction). { unfold lists in Hl. destruct Ha as [-> | ->]; destruct (fst l), (fst x); cbn in Hl; try discriminate; reflexivity. }
  rewrite bad_function_ok; [|rewrite Hk in Hv; exact Hv|exact Hp]. destruct Ha as [-> | ->]; reflexivity.
Qed.
Definition touched (a : ak) (o : loc) (cl ns : list loc) : Prop := (a = AFields /\ In o cl) \/ (a = AMethods /\ In o cl) \/ (a = AFunctions /\ In o ns).
Lemma isolate_ok : exists arr, IsolateInvalidPrimitives T typ ret arr0 = Ok arr /\ (forall c, fst c <> ABases -> arr c = filter (keeps (fst c)) (arr0 c)) /\ forall l, arr (ABases, l) = arr0 (ABases, l).
Proof.
  unfold IsolateInvalidPrimitives. rewrite !(F_locs db T HT).
  destruct (each_inv _ _ (isolate_class typ ret) (fun done arr => forall a o,
     (touched a o done [] -> arr (a, o) = filter (keeps a) (arr0 (a, o))) /\ (~ touched a o done [] -> arr (a, o) = arr0 (a, o))) (places db KClass) arr0) as [arr1 [H1 H2]].
  - intros a o. split; [|reflexivity]. unfold touched. cbn. tauto.
  - intros done l arr [rest E] I. assert (Hnd : ~ In l done).
    { pose proof (places_NoDup db KClass) as Hn. rewrite E in Hn. apply NoDup_remove in Hn. destruct Hn as [_ Hn]. intros Hin. apply Hn. apply in_or_app. tauto. }
    unfold isolate_class. assert (Hun : forall a, ~ touched a l done []) by (intros a [[_ H]|[[_ H]|[_ []]]]; contradiction).
    rewrite (proj2 (I AFields l) (Hun _)), iso_fields. cbn [obind].
    assert (Hm : updc arr (AFields, l) (filter (keeps AFields) (arr0 (AFields, l))) (AMethods, l) = arr0 (AMethods, l)) by (rewrite updc_other by congruence; apply I; apply Hun).
    rewrite Hm, iso_functions; [|auto|]. 2: { intros g. rewrite updc_other by congruence. apply I. unfold touched. intuition discriminate. }
    cbn [obind]. eexists. split; [reflexivity|]. intros a o. split.
    + intros Ht. destruct (cell_eqb_spec (AMethods, l) (a, o)) as [Ec|Hne]; [injection Ec as <- <-; rewrite updc_same; reflexivity|]. rewrite updc_other by exact Hne.
      destruct (cell_eqb_spec (AFields, l) (a, o)) as [Ec|Hne2]; [injection Ec as <- <-; rewrite updc_same; reflexivity|]. rewrite updc_other by exact Hne2.
      apply I. destruct Ht as [[-> H]|[[-> H]|[_ []]]]; apply in_app_or in H; destruct H as [H|[<-|[]]]; unfold touched; try tauto; congruence.
    + intros Ht. rewrite !updc_other; [apply I| |].
      * intros Hx. apply Ht. destruct Hx as [[-> H]|[[-> H]|[_ []]]]; unfold touched; rewrite in_app_iff; tauto.
      * intros Ec. injection Ec as <- <-. apply Ht. left. split; [reflexivity|]. apply in_or_app. right. left. reflexivity.
      * intros Ec. injection Ec as <- <-. apply Ht. right. left. split; [reflexivity|]. apply in_or_app. right. left. reflexivity.
  - rewrite H1. cbn [obind].
    destruct (each_inv _ _ (isolate_namespace typ ret) (fun done arr => forall a o,
       (touched a o (places db KClass) done -> arr (a, o) = filter (keeps a) (arr0 (a, o))) /\ (~ touched a o (places db KClass) done -> arr (a, o) = arr0 (a, o))) (places db KNamespace) arr1) as [arr2 [H3 H4]].
    + exact H2.
    + intros done l arr [rest E] I. assert (Hnd : ~ In l done).
      { pose proof (places_NoDup db KNamespace) as Hn. rewrite E in Hn. apply NoDup_remove in Hn. destruct Hn as [_ Hn]. intros Hin. apply Hn. apply in_or_app. tauto. }
      unfold isolate_namespace.
      assert (Hu : arr (AFunctions, l) = arr0 (AFunctions, l)) by (apply I; intros [[H _]|[[H _]|[_ H]]]; [discriminate|discriminate|contradiction]).
      rewrite Hu, iso_functions; [|auto|intros g; apply I; intros [[H _]|[[H _]|[H _]]]; discriminate].
      cbn [obind]. eexists. split; [reflexivity|]. intros a o. split.
      * intros Ht. destruct (cell_eqb_spec (AFunctions, l) (a, o)) as [Ec|Hne]; [injection Ec as <- <-; rewrite updc_same; reflexivity|]. rewrite updc_other by exact Hne.
        apply I. destruct Ht as [H|[H|[-> H]]]; [left; exact H|right; left; exact H|]. apply in_app_or in H. destruct H as [H|[<-|[]]]; [right; right; auto|congruence].
      * intros Ht. rewrite updc_other; [apply I|].
        -- intros Hx. apply Ht. destruct Hx as [H|[H|[-> H]]]; unfold touched; rewrite in_app_iff; tauto.
        -- intros Ec. injection Ec as <- <-. apply Ht. right. right. split; [reflexivity|]. apply in_or_app. right. left. reflexivity.
    + exists arr2. split; [exact H3|]. split; [|intros l; apply H4; intros [[H _]|[[H _]|[H _]]]; discriminate]. intros [a o] Hb. cbn [fst] in *.
      assert (Hd : touched a o (places db KClass) (places db KNamespace) \/ ~ touched a o (places db KClass) (places db KNamespace)).
      { pose proof (in_dec (fun x y => reflect_dec _ _ (loc_eqb_spec x y)) o (places db KClass)) as D1.
        pose proof (in_dec (fun x y => reflect_dec _ _ (loc_eqb_spec x y)) o (places db KNamespace)) as D2. unfold touched.
        destruct a, D1, D2; intuition congruence. }
      destruct Hd as [Hd|Hd]; [apply H4; exact Hd|]. rewrite (proj2 (H4 a o) Hd). symmetry. apply filter_true. intros x Hx.
      pose proof (Permutation_in x (Harr (a, o) Hb) Hx) as Hy. apply in_map_iff in Hy. destruct Hy as [y [<- Hy]]. apply unfiltered_valid in Hy. cbn [fst snd] in Hy.
      destruct Hy as (Hv & Hl & Ho). unfold owner in Ho. apply first_owner_valid in Ho. destruct Ho as [_ Ho].
      unfold keeps. unfold lists in Hl. destruct a; try reflexivity; exfalso; apply Hd; unfold touched; destruct (fst o), (fst y); cbn in Hl; try discriminate; tauto.
Qed.
End Isolate.

(* ---- what the exported database holds ---- *)
Definition plain_parent (db : database) (c : loc) : ref :=
  match owner db c with
  | Some o => Ptr o
  | None => match fst c with KPrimAttr => Int (parent_at db c) | _ => Int 0 end
  end.
Definition args_at (db : database) (l : loc) : list Z := match at_ db l with Some i => map n_hash (it_args i) | None => [] end.
Record facts (L : layout) (db : database) (e : export) : Prop := mk_facts {
  fx_names : x_name_text e = packed (name_texts (m_names db)) /\ x_names e = name_array (m_names db);
  fx_texts : x_attr_text e = packed (map (fun e => ta_value (snd e)) (m_text_attrs db)) /\ x_attr_vals e = offs 0 (map (fun e => ta_value (snd e)) (m_text_attrs db));
  fx_rows : forall k, x_rows e k = T_of db (name_array (m_names db)) k;
  fx_infos : x_infos e = map (info_of (name_array (m_names db))) (m_containers db) /\ x_iters e = map (iters_of db) (m_containers db);
  fx_types : x_types e = lay_sort L (map (entry_of db) (type_places db));
  fx_parent : forall c, In c (places db (fst c)) ->
    (x_parent e c = plain_parent db c /\ forall l, In l (places db KTemplateType) -> tmethod db l ctor_name <> Some c /\ tmethod db l dtor_name <> Some c) \/
    (exists l, In l (places db KTemplateType) /\ x_parent e c = Ptr l /\ (tmethod db l ctor_name = Some c \/ tmethod db l dtor_name = Some c));
  fx_type : forall l, In l (places db (fst l)) -> x_type e l = or_null (type_named db (type_at db l));
  fx_args : forall l, In l (places db (fst l)) -> x_args e l = map (fun h => or_null (type_named db h)) (args_at db l);
  fx_arr : forall a o, a <> ABases -> Permutation (x_arr e (a, o)) (map Ptr (filter (kept db a o) (children db a o))) /\ in_order db (x_arr e (a, o));
  fx_bases : forall l, x_arr e (ABases, l) = map Ptr (bases_of db l);
  fx_ret : forall f, In f (places db KFunction) -> x_ret e f = or_null (return_of db f);
  fx_class_ctor : forall l, In l (places db KClass) -> method_called db l ctor_name (x_ctor e l) /\ method_called db l dtor_name (x_dtor e l);
  fx_tt_ctor : forall l, In l (places db KTemplateType) -> x_ctor e l = or_null (tmethod db l ctor_name) /\ x_dtor e l = or_null (tmethod db l dtor_name);
  fx_flags : forall l n, Z.testbit (x_flags e l) n = true <-> own_flag db l n \/ (In l (places db KClass) /\ exists a, derives db l a /\ hands_down db a n);
  fx_prim : forall l, In l (places db (fst l)) -> x_prim e l = or_null (ref_named db (ref_at db l));
  fx_ci : forall l, x_ci e l = info_at db l;
  fx_global : forall a, x_global e a = match global_kind a with Some k => filter (fun l => parent_at db l =? 0) (places db k) | None => [] end }.

Lemma NoDup_map_eq : forall (f : loc -> Z) (l : list loc) x y, NoDup (map f l) -> In x l -> In y l -> f x = f y -> x = y.
Proof.
  induction l as [|z l IH]; intros x y Hn Hx Hy Hxy; [contradiction|]. cbn [map] in Hn. inversion Hn; subst.
  destruct Hx as [<-|Hx], Hy as [<-|Hy]; [reflexivity| | |apply IH; assumption]; exfalso; apply H1.
  - rewrite Hxy. apply in_map. exact Hy.
  - rewrite <- Hxy. apply in_map. exact Hx.
Qed.
Section Main.
Variables (L : layout) (db : database) (T : table) (fuel : nat).
Notation nm := (name_array (m_names db)).
Notation names := (packed (name_texts (m_names db))).
Hypothesis HT : forall k, T k = T_of db nm k.
Hypothesis Hwf : wf_tables db.
Hypothesis Hint : all_interned db.
Hypothesis Howned : fields_owned db.
Hypothesis Hsmall : small_db db.
Hypothesis Hclash : no_clash L db.
Hypothesis Hsort : sorts L.
Hypothesis Huniq : unique_types db.
Hypothesis Hshallow : shallow db fuel.
Notation V l := (In l (places db (fst l))).

Lemma M_addr : forall l, V l -> 2 ^ 32 <= lay_addr L l /\ forall o, V o -> u32 (lay_addr L l) <> known_as db o.
Proof.
  intros l Hl. destruct (Hclash l (F_all db l Hl)) as (H1 & H2 & H3). split; [exact H1|]. intros o Ho E. unfold u32 in E.
  destruct (kind_eqb_spec (fst o) KField) as [Ek|Ek]; [apply (H3 o); [rewrite Ek in Ho; exact Ho|exact E]|].
  apply H2. assert (Ek2 : known_as db o = hash_at db o) by (unfold known_as; destruct (fst o); congruence || reflexivity).
  assert (E2 : lay_addr L l mod 2 ^ 32 = hash_at db o) by (rewrite <- Ek2; exact E). rewrite E2. apply hash_in_names; assumption.
Qed.
Lemma verify_ptr : forall l, V l -> VerifyPtr L nm (Ptr l) = Ptr l.
Proof.
  intros l Hl. unfold VerifyPtr, to_hash, as_int. destruct (Hclash l (F_all db l Hl)) as (_ & H2 & _).
  replace (m_find (u32 (lay_addr L l)) nm) with (@None (option Z)); [reflexivity|]. symmetry. apply m_find_none. rewrite name_array_keys. exact H2.
Qed.
Lemma verify_int : forall h, 0 <= h < 2 ^ 32 -> (h <> 0 -> In h (keys (m_names db))) -> VerifyPtr L nm (Int h) = Int 0.
Proof.
  intros h Hr Hn. unfold VerifyPtr, to_hash, as_int, u32. rewrite Z.mod_small by exact Hr. destruct (m_find h nm) eqn:E; [reflexivity|].
  destruct (Z.eq_dec h 0) as [->|H0]; [reflexivity|]. apply m_find_none in E. rewrite name_array_keys in E. exfalso. apply E. apply Hn. exact H0.
Qed.
Lemma verify_or : forall o n, (forall l, o = Some l -> V l) -> interned db n -> VerifyPtr L nm (or_hash o (n_hash n)) = or_null o.
Proof.
  intros [l|] n Hl Hn; cbn [or_hash or_null]; [apply verify_ptr; apply Hl; reflexivity|]. apply verify_int; [apply (interned_range db Hwf); exact Hn|apply interned_name; exact Hn].
Qed.
Lemma interned_parts : forall l i, at_ db l = Some i -> interned db (it_name i) /\ interned db (it_parent i) /\ interned db (it_type i) /\ interned db (it_ref i) /\ Forall (interned db) (it_args i).
Proof. intros l i H. unfold at_ in H. apply nth_error_In in H. destruct Hint as [Hi _]. apply (Hi _ _ H). Qed.

(* references of primitive attributes *)
Lemma find_rev_types : forall h, find (fun e => fst e =? h) (rev (lay_sort L (map (entry_of db) (type_places db)))) = option_map (entry_of db) (type_named db h).
Proof.
  intros h. destruct (types_sorted L db Hsort) as [_ P]. pose proof (Permutation_trans (Permutation_sym (Permutation_rev _)) P) as P2. revert P2.
  generalize (rev (lay_sort L (map (entry_of db) (type_places db)))) as ts. intros ts P2.
  destruct (find (fun e => fst e =? h) ts) as [e|] eqn:E.
  - apply find_some in E. destruct E as [E1 E2]. apply Z.eqb_eq in E2. apply (Permutation_in e P2) in E1. apply in_map_iff in E1. destruct E1 as [l [<- Hl]]. cbn [entry_of fst] in E2.
    destruct (type_named db h) as [l'|] eqn:Et.
    + destruct (type_valid db h l' Et) as (_ & E3 & E4). cbn [option_map]. do 2 f_equal.
      apply (NoDup_map_eq (hash_at db) (type_places db)); [exact Huniq|exact Hl|exact E4|congruence].
    + exfalso. apply (type_none db h Et l Hl). exact E2.
  - destruct (type_named db h) as [l|] eqn:Et; [|reflexivity]. exfalso. destruct (type_valid db h l Et) as (_ & E3 & E4).
    eapply find_none in E; [|apply (Permutation_in _ (Permutation_sym P2)); apply in_map; exact E4]. cbn in E. apply Z.eqb_neq in E. congruence.
Qed.
Lemma attr_ref_find : forall h, m_find h (attr_ref_map (lay_sort L (map (entry_of db) (type_places db)) ++ map (entry_of db) (places db KFunction))) = option_map Ptr (ref_named db h).
Proof.
  intros h. unfold attr_ref_map. destruct (m_set_fold _ _ (fun e : Z * ref => fst e) (fun e => snd e) h (lay_sort L (map (entry_of db) (type_places db)) ++ map (entry_of db) (places db KFunction)) [] I) as [_ ->].
  rewrite rev_app_distr. unfold ref_named.
  assert (Hfa : forall A (f : A -> bool) l1 l2, find f (l1 ++ l2) = match find f l1 with Some x => Some x | None => find f l2 end).
  { clear. induction l1 as [|x l1 IH]; intros; cbn [app find]; [reflexivity|]. destruct (f x); auto. }
  rewrite Hfa, <- map_rev, find_map. cbn [entry_of fst]. destruct (find (fun x => hash_at db x =? h) (rev (places db KFunction))) as [f|]; cbn [option_map]; [reflexivity|].
  rewrite find_rev_types. destruct (type_named db h); reflexivity.
Qed.
Lemma ref_valid : forall h l, ref_named db h = Some l -> V l.
Proof.
  intros h l H. unfold ref_named in H. destruct (find (fun f => hash_at db f =? h) (rev (places db KFunction))) as [f|] eqn:E.
  - injection H as <-. apply find_some in E. destruct E as [E _]. apply in_rev in E. apply (F_valid db KFunction). exact E.
  - apply type_valid in H. tauto.
Qed.

Lemma owner_zero : forall l k, In l (places db k) -> (k = KNamespace \/ k = KType \/ k = KEnum \/ k = KClass \/ k = KFunction \/ k = KTemplate) ->
  is_null (match owner db l with Some o => Ptr o | None => Int (parent_at db l) end) = (parent_at db l =? 0).
Proof.
  intros l k Hl Hk. destruct (owner db l) as [o|] eqn:E; cbn [is_null]; [|reflexivity]. symmetry. apply Z.eqb_neq. intros H0.
  apply places_In in Hl. destruct Hl as [Hl _]. unfold owner in E. revert E. rewrite Hl.
  assert (G : forall ks, (forall x, In x ks -> x <> KField) -> first_owner db (known_as db) ks l = Some o -> False).
  { induction ks as [|x ks IH]; intros Hx Hf; cbn [first_owner] in Hf; [discriminate|]. destruct (owner_in db (known_as db) x l) as [y|] eqn:Ey.
    - unfold owner_in in Ey. apply find_some in Ey. destruct Ey as [Ey1 Ey2]. apply andb_true_iff in Ey2. destruct Ey2 as [Ey2 _]. apply Z.eqb_eq in Ey2. rewrite H0 in Ey2.
      pose proof (F_valid db _ _ Ey1) as Hv. apply places_In in Ey1. destruct Ey1 as [Ey1 _]. assert (Hne : fst y <> KField) by (rewrite Ey1; apply Hx; left; reflexivity).
      assert (Ek2 : known_as db y = hash_at db y) by (unfold known_as; destruct (fst y); congruence || reflexivity).
      destruct (hash_in_names db Hwf Hint y Hv) as [_ Hz]. congruence.
    - apply IH; [intros z Hz; apply Hx; right; exact Hz|exact Hf]. }
  apply G. intros x Hx. destruct Hk as [->|[->|[->|[->|[->| ->]]]]]; cbn in Hx; intuition congruence.
Qed.

Lemma sort_in_all : forall arr, (forall k o a, In k sorted_kinds -> In o (places db k) -> In a (sorted_arrays k) -> in_order db (arr (a, o))) ->
  (forall c, fst c <> ABases -> Permutation (arr c) (map Ptr (unfiltered db c))) -> forall a o, a <> ABases -> in_order db (arr (a, o)).
Proof.
  intros arr H1 H2 a o Ha. pose proof (H2 (a, o) Ha) as P. destruct (unfiltered db (a, o)) as [|c cs] eqn:Eu.
  - apply Permutation_sym, Permutation_nil in P. rewrite P. constructor.
  - assert (Hc : In c (unfiltered db (a, o))) by (rewrite Eu; left; reflexivity). apply unfiltered_valid in Hc. cbn [fst snd] in Hc. destruct Hc as (_ & Hl & Ho).
    unfold owner in Ho. apply first_owner_valid in Ho. destruct Ho as [_ Ho]. apply (H1 (fst o) o a); [|exact Ho|].
    + unfold lists in Hl. destruct (fst o), (fst c); cbn in Hl; try discriminate; cbn; tauto.
    + unfold lists in Hl. destruct (fst o), (fst c); cbn in Hl; try discriminate; destruct a; cbn in Hl; try discriminate; cbn; tauto.
Qed.

Lemma build_rest :
  exists e, (do texts <- AssignAttributeText L (map (fun e => ta_value (snd e)) (m_text_attrs db));
  let tps := GatherTypePrimitives T in
  let par := fun l => Int (r_parent (row_or T l)) in
  do s <- ParentAll L T [] passes (par, fun _ => []);
  do fm <- FieldParentMap names T (fst s);
  do s <- ParentAll L T fm attr_passes s;
  let (par, arr) := s in
  do tes <- entries T (map Ptr tps);
  let cm := child_map tes in
  let typ := fun l => link1 L cm (Int (r_type (row_or T l))) in
  let args := fun l => map (fun h => link1 L cm (Int h)) (r_args (row_or T l)) in
  do rh <- c_hash "return";
  do s <- each (assign_return T rh) (locs T KFunction) (arr, fun _ => Int 0);
  let (arr, ret) := s in
  let glob := fun a => match a with
                       | ANamespaces => GatherGlobalPrimitives T par KNamespace
                       | ATypes => GatherGlobalPrimitives T par KType
                       | AEnums => GatherGlobalPrimitives T par KEnum
                       | AClasses => GatherGlobalPrimitives T par KClass
                       | AFunctions => GatherGlobalPrimitives T par KFunction
                       | ATemplates => GatherGlobalPrimitives T par KTemplate
                       | _ => []
                       end in
  do arr <- SortPrimitives L T arr;
  let types := lay_sort L tes in
  do s <- each (link_info T nm types fm arr) (combine (seq 0 (length (map (info_of nm) (m_containers db)))) (map (info_of nm) (m_containers db))) ([], fun _ => None);
  let (iters, ci) := s in
  do acc <- each (collect_base types) (m_inherits db) (fun _ => []);
  let arr := set_bases acc arr in
  do s <- each (find_constructors names T arr) (locs T KClass) (fun _ => Int 0, fun _ => Int 0);
  do s <- each (template_constructors names T) (locs T KTemplateType) (fst s, snd s, par);
  let '(ctor, dtor, par) := s in
  do flags <- AddFlagAttributeBits names T arr (locs T KEnum ++ locs T KField ++ locs T KFunction ++ locs T KClass) (fun _ => 0);
  do flags <- InheritFlagAttributes fuel T arr flags;
  do fes <- entries T (map Ptr (locs T KFunction));
  let am := attr_ref_map (types ++ fes) in
  let prm := fun l => link1 L am (Int (r_ref (row_or T l))) in
  let par := verify_parents L nm par in
  let typ := fun l => VerifyPtr L nm (typ l) in
  let args := fun l => map (VerifyPtr L nm) (args l) in
  let prm := fun l => VerifyPtr L nm (prm l) in
  let arr := verify_bases L nm arr in
  do arr <- IsolateInvalidPrimitives T typ ret arr;
  Ok (mk_export names nm (fst texts) (snd texts) T (map (info_of nm) (m_containers db)) iters types par typ args arr ret ctor dtor flags prm ci glob)) = Ok e /\ facts L db e.
Proof.
  destruct Hsmall as (S1 & S2 & S3).
  rewrite AssignAttributeText_ok. cbn [obind fst snd].
  (* parents *)
  destruct (parenting L db T) with (names := names) (par0 := fun l => Int (r_parent (row_or T l))) as (s1 & fm & par & arr & P1 & P2 & P3 & P4 & P5 & P6).
  - exact (F_len db T HT).
  - exact (F_hash db T HT).
  - intros l Hl. rewrite (HT_row db T HT). apply T_parent. exact Hl.
  - intros l Hl. rewrite (HT_row db T HT). apply T_uid. exact Hl.
  - intros l. apply (parent_range db Hwf Hint).
  - exact S1.
  - exact M_addr.
  - exact (F_text db T HT Hwf Hint).
  - intros l Hl. destruct (text_fine db Hwf Hint S2 l Hl) as (A & B & _). auto.
  - exact Howned.
  - intros l Hl. rewrite (HT_row db T HT), T_parent by exact Hl. reflexivity.
  - rewrite P1. cbn [obind]. rewrite P2. cbn [obind]. rewrite P3. cbn [obind].
    rewrite (GatherType_eq db T HT), (entries_ok db T HT) by (apply type_places_valid). cbn [obind].
    rewrite (literal_ok "return") by (vm_compute; reflexivity). cbn [obind].
    change (hash32 (str "return") 0) with rh.
    destruct (assign_returns db T HT arr P6) as (arr1 & ret & R1 & R2 & R3 & R4 & R5). rewrite R1. cbn [obind].
    (* sorting *)
    assert (Hun : forall c, Permutation (arr1 c) (map Ptr (unfiltered db c))).
    { intros [a o]. unfold unfiltered. cbn [fst snd]. destruct (ak_eqb_spec a AParameters) as [->|Ha].
      - destruct (in_dec (fun x y => reflect_dec _ _ (loc_eqb_spec x y)) o (places db KFunction)) as [Hi|Hi]; [apply R3; exact Hi|].
        rewrite (proj2 (R5 o Hi)). replace (children db AParameters o) with (@nil loc); [reflexivity|]. symmetry.
        destruct (children db AParameters o) as [|c cs] eqn:Ec; [reflexivity|]. exfalso. apply Hi.
        assert (Hc : In c (children db AParameters o)) by (rewrite Ec; left; reflexivity). apply child_valid in Hc. destruct Hc as (_ & Ho & Hl).
        unfold owner in Ho. apply first_owner_valid in Ho. destruct Ho as [_ Ho]. unfold lists in Hl. destruct (fst o), (fst c); cbn in Hl; try discriminate; exact Ho.
      - rewrite R2 by (right; exact Ha). destruct a; try reflexivity. congruence. }
    destruct (sort_all L db T HT Hsort arr1 (unfiltered db) Hun) as (arr2 & Q1 & Q2 & Q3 & Q4).
    { intros c l Hl. apply unfiltered_valid in Hl. tauto. }
    rewrite Q1. cbn [obind].
    assert (Hord : forall a o, a <> ABases -> in_order db (arr2 (a, o))) by (apply (sort_in_all arr2 Q3); intros c _; apply Q2).
    assert (Hplain : forall a o, a <> AParameters -> Permutation (arr2 (a, o)) (map Ptr (children db a o))).
    { intros a o Ha. pose proof (Q2 (a, o)) as Hq. unfold unfiltered in Hq. cbn [fst snd] in Hq. destruct a; try exact Hq. congruence. }
    (* containers *)
    destruct (containers_ok L db T HT Hwf Hint Hsmall Hsort Huniq fm arr2 P4) as (ci & C1 & C2); [intros t _; apply Hplain; discriminate|].
    rewrite C1. cbn [obind].
    destruct (collect_bases L db Hsmall Hsort Huniq) as (acc & B1 & B2). rewrite B1. cbn [obind].
    set (arr3 := set_bases acc arr2).
    assert (Harr3 : forall a o, a <> ABases -> arr3 (a, o) = arr2 (a, o)) by (intros a o Ha; unfold arr3, set_bases; cbn [fst snd]; destruct a; congruence || reflexivity).
    assert (Hb3 : forall l, arr3 (ABases, l) = map Ptr (bases_of db l)).
    { intros l. unfold arr3, set_bases. cbn [fst snd]. rewrite B2. destruct (bases_of db l) as [|b bs]; cbn [map]; [|reflexivity].
      apply Q4. pose proof (R2 ABases l ltac:(right; discriminate)) as E. rewrite E. replace (children db ABases l) with (@nil loc); [reflexivity|].
      symmetry. destruct (children db ABases l) as [|c cs] eqn:Ec; [reflexivity|]. exfalso. assert (Hc : In c (children db ABases l)) by (rewrite Ec; left; reflexivity).
      apply child_valid in Hc. destruct Hc as (_ & _ & Hl). unfold lists in Hl. destruct (fst l), (fst c); cbn in Hl; discriminate. }
    (* constructors *)
    destruct (class_ctors db T HT Hwf Hint Hsmall arr3) as (ctor & dtor & K1 & K2 & K3).
    { intros l _. rewrite Harr3 by discriminate. split; [apply Hplain; discriminate|apply Hord; discriminate]. }
    rewrite K1. cbn [obind fst snd].
    destruct (template_ctors db T HT Hwf Hint Hsmall ctor dtor par) as (ctor' & dtor' & par' & T1 & T2 & T3 & T4).
    { intros l Hl. apply K3. intros Hc. apply places_In in Hl. apply places_In in Hc. destruct Hl as [Hl _], Hc as [Hc _]. congruence. }
    rewrite T1. cbn [obind].
    (* flags *)
    destruct (add_flags db T HT Hwf Hint arr3) as (flags & A1 & A2); [intros l; rewrite Harr3 by discriminate; apply Hplain; discriminate|].
    rewrite A1. cbn [obind]. destruct Hshallow as [rank [Hr1 Hr2]].
    destruct (inherit_all db T HT arr3) with (fuel := fuel) (rank := rank) (flags := flags) as (flags' & A3 & A4); [intros l; rewrite Harr3 by discriminate; apply Hplain; discriminate|exact Hb3|exact Hr1|exact Hr2|exact A2|].
    rewrite A3. cbn [obind].
    rewrite (F_locs db T HT KFunction), (entries_ok db T HT) by (intros l Hl; apply (F_valid db KFunction); exact Hl). cbn [obind].
    (* verification and isolation *)
    assert (Htyp : forall l, V l -> VerifyPtr L nm (link1 L (child_map (map (entry_of db) (type_places db))) (Int (r_type (row_or T l)))) = or_null (type_named db (type_at db l))).
    { intros l Hl. rewrite (HT_row db T HT), T_type by exact Hl. rewrite (link_type L db) by (apply (type_range db Hwf Hint)).
      destruct (T_row db l Hl) as [i (Hi & _ & _)]. unfold type_at. rewrite Hi. apply verify_or; [|apply (interned_parts l i Hi)].
      intros x Hx. apply type_valid in Hx. tauto. }
    set (arr4 := verify_bases L nm arr3).
    assert (Harr4 : forall a o, a <> ABases -> arr4 (a, o) = arr2 (a, o)).
    { intros a o Ha. rewrite <- Harr3 by exact Ha. unfold arr4, verify_bases. cbn [fst]. destruct a; congruence || reflexivity. }
    destruct (isolate_ok db T HT (fun l => VerifyPtr L nm (link1 L (child_map (map (entry_of db) (type_places db))) (Int (r_type (row_or T l))))) ret arr4 Htyp R4) as (arr5 & I1 & I2 & I3).
    { intros [a o] Ha. rewrite Harr4 by exact Ha. apply Q2. }
    assert (Hb5 : forall l, arr5 (ABases, l) = map Ptr (bases_of db l)).
    { intros l. rewrite I3. unfold arr4, verify_bases. cbn [fst]. rewrite Hb3, map_map. apply map_ext_in. intros b Hb. apply verify_ptr.
      unfold bases_of in Hb. apply in_flat_map in Hb. destruct Hb as [e [_ Hb]]. destruct (type_named db (n_hash (ti_base (snd e)))) as [x|] eqn:Ex; [|contradiction].
      destruct (type_named db (n_hash (ti_derived (snd e)))) as [y|]; [|contradiction]. destruct (loc_eqb y l); [|contradiction]. destruct Hb as [<-|[]]. apply type_valid in Ex. tauto. }
    rewrite I1. cbn [obind]. eexists. split; [reflexivity|].
    constructor; cbn [x_name_text x_names x_attr_text x_attr_vals x_rows x_infos x_iters x_types x_parent x_type x_args x_arr x_ret x_ctor x_dtor x_flags x_prim x_ci x_global].
    + auto.
    + auto.
    + exact HT.
    + auto.
    + reflexivity.
    + (* parents *)
      intros c Hc. unfold verify_parents. destruct (T4 c) as [[E1 E2]|[l (E1 & E2 & E3)]].
      * left. split; [|exact E2]. rewrite E1, (P5 c Hc). unfold plain_parent. destruct (T_row db c Hc) as [i (Hi & _ & _)].
        destruct (owner db c) as [o|] eqn:Eo.
        -- assert (Ho : V o) by (unfold owner in Eo; apply first_owner_valid in Eo; tauto). rewrite verify_ptr by exact Ho. destruct (fst c); reflexivity.
        -- assert (Hvi : VerifyPtr L nm (Int (parent_at db c)) = Int 0).
           { apply verify_int; [apply (parent_range db Hwf Hint)|]. unfold parent_at. rewrite Hi. apply interned_name. apply (interned_parts c i Hi). }
           rewrite Hvi. destruct (fst c); reflexivity.
      * right. exists l. split; [exact E1|]. split; [|exact E3]. rewrite E2, verify_ptr by (apply (F_valid db KTemplateType); exact E1). destruct (fst c); reflexivity.
    + exact Htyp.
    + intros l Hl. rewrite (HT_row db T HT). destruct (T_row db l Hl) as [i (Hi & _ & ->)]. unfold args_at. rewrite Hi. cbn [row_of r_args]. rewrite !map_map.
      apply map_ext_in. intros n Hn. destruct (interned_parts l i Hi) as (_ & _ & _ & _ & Ha). rewrite Forall_forall in Ha. specialize (Ha n Hn).
      rewrite (link_type L db) by (apply (interned_range db Hwf); exact Ha). apply verify_or; [|exact Ha]. intros x Hx. apply type_valid in Hx. tauto.
    + intros a o Ha. rewrite (I2 (a, o) Ha), Harr4 by exact Ha. cbn [fst]. split.
      * rewrite (Permutation_filter _ (keeps db a) _ _ (Q2 (a, o))). rewrite filter_map_comm. apply Permutation_map. unfold unfiltered. cbn [fst snd].
        assert (Ek : forall c, keeps db a (Ptr c) = match a with AFields => has_type db c | AMethods | AFunctions => typed_function db c | _ => true end) by (intros c; destruct a; reflexivity).
        destruct a; try (erewrite filter_ext_in2; [reflexivity|intros c _; apply Ek]).
        rewrite filter_filter. erewrite filter_ext_in2; [reflexivity|]. intros c _. rewrite Ek, andb_true_r. reflexivity.
      * apply sorted_filter. apply Hord. exact Ha.
    + exact Hb5.
    + exact R4.
    + intros l Hl. assert (Hn : ~ In l (places db KTemplateType)) by (intros Hc; apply places_In in Hl; apply places_In in Hc; destruct Hl as [Hl _], Hc as [Hc _]; congruence).
      destruct (T3 l Hn) as [-> ->]. apply K2. exact Hl.
    + exact T2.
    + exact A4.
    + intros l Hl. rewrite (HT_row db T HT). destruct (T_row db l Hl) as [i (Hi & _ & ->)]. cbn [row_of r_ref]. unfold ref_at. rewrite Hi.
      destruct (interned_parts l i Hi) as (_ & _ & _ & Hr & _). pose proof (interned_range db Hwf _ Hr) as Hrange.
      assert (El : link1 L (attr_ref_map (lay_sort L (map (entry_of db) (type_places db)) ++ map (entry_of db) (places db KFunction))) (Int (n_hash (it_ref i))) = or_hash (ref_named db (n_hash (it_ref i))) (n_hash (it_ref i))).
      { unfold link1, to_hash, as_int, u32. rewrite Z.mod_small by exact Hrange. rewrite attr_ref_find. destruct (ref_named db (n_hash (it_ref i))); reflexivity. }
      rewrite El. apply verify_or; [|exact Hr]. intros x Hx. apply ref_valid in Hx. exact Hx.
    + exact C2.
    + intros a. assert (G : forall k, (k = KNamespace \/ k = KType \/ k = KEnum \/ k = KClass \/ k = KFunction \/ k = KTemplate) -> GatherGlobalPrimitives T par k = filter (fun l => parent_at db l =? 0) (places db k)).
      { intros k Hk. unfold GatherGlobalPrimitives. rewrite (F_locs db T HT). apply filter_ext_in2. intros l Hl. rewrite (P5 l) by (apply (F_valid db k); exact Hl). apply (owner_zero l k); assumption. }
      destruct a; cbn [global_kind]; try reflexivity; apply G; tauto.
Qed.
End Main.

Lemma export_ok : forall L fuel db, exportable L fuel db -> exports L fuel db (facts L db).
Proof.
  intros L fuel db (Hwf & Hint & Howned & Hsmall & Hclash & Hsort & Huniq & Hsh). destruct (tables_built db Hwf Hint) as [T [ET HT]].
  destruct (build_rest L db T fuel HT Hwf Hint Howned Hsmall Hclash Hsort Huniq Hsh) as [e [He Hf]]. exists e. split; [|exact Hf].
  unfold BuildCppExport. rewrite BuildNames_ok by (apply names_sorted; exact Hwf). cbn [obind]. cbv beta iota zeta. rewrite ET. exact He.
Qed.

(* ---- reading the facts ---- *)
Lemma exports_mono : forall L fuel db (P Q : export -> Prop), (forall e, P e -> Q e) -> exports L fuel db P -> exports L fuel db Q.
Proof. intros L fuel db P Q H [e [H1 H2]]. exists e. auto. Qed.
Section Read.
Variables (L : layout) (fuel : nat) (db : database).
Hypothesis Hx : exportable L fuel db.
Notation V l := (In l (places db (fst l))).
Lemma read : forall P : export -> Prop, (forall e, facts L db e -> P e) -> exports L fuel db P.
Proof. intros P H. eapply exports_mono; [exact H|]. apply export_ok. exact Hx. Qed.
Lemma ptrs_perm : forall a ls, Permutation a (map Ptr ls) -> in_order db a -> exists ls', a = map Ptr ls' /\ Permutation ls' ls /\ by_hash db ls'.
Proof.
  intros a ls P S. destruct (Permutation_map_inv _ _ P) as [ls' [-> P2]]. exists ls'. split; [reflexivity|]. split; [apply Permutation_sym; exact P2|].
  unfold in_order in S. unfold by_hash. clear -S. induction ls' as [|x ls' IH]; [constructor|]. cbn [map] in S. inversion S; subst. constructor; [apply IH; assumption|].
  rewrite Forall_map in H2. exact H2.
Qed.
Lemma child_iff : forall a o c, In c (filter (kept db a o) (children db a o)) <-> V c /\ owner db c = Some o /\ array_for (fst o) (fst c) = Some a /\ kept db a o c = true.
Proof.
  intros a o c. rewrite filter_In. unfold children. rewrite filter_In, andb_true_iff. unfold owned_by, lists. split.
  - intros [[H1 [H2 H3]] H4]. split; [|split; [|split; [|exact H4]]].
    + apply in_flat_map in H1. destruct H1 as [k [_ H1]]. apply (F_valid db k). exact H1.
    + destruct (owner db c) as [x|]; [|discriminate]. destruct (loc_eqb_spec x o); congruence.
    + destruct (array_for (fst o) (fst c)) as [b|]; [|discriminate]. destruct (ak_eqb_spec a b); congruence.
  - intros (H1 & H2 & H3 & H4). split; [|exact H4]. split; [apply F_all; exact H1|]. rewrite H2, H3. split; [destruct (loc_eqb_spec o o); congruence|destruct (ak_eqb_spec a a); congruence].
Qed.
Lemma arrays_exact : exports L fuel db (fun e => forall a o, a <> ABases -> exists ls, x_arr e (a, o) = map Ptr ls /\ NoDup ls /\ by_hash db ls /\
  forall c, In c ls <-> V c /\ owner db c = Some o /\ array_for (fst o) (fst c) = Some a /\ kept db a o c = true).
Proof.
  apply read. intros e F a o Ha. destruct (fx_arr _ _ _ F a o Ha) as [P S]. destruct (ptrs_perm _ _ P S) as [ls (E & P2 & S2)]. exists ls. split; [exact E|]. split; [|split; [exact S2|]].
  - eapply Permutation_NoDup; [apply Permutation_sym; exact P2|]. apply NoDup_filter. apply children_NoDup.
  - intros c. rewrite <- child_iff. split; intros H; [apply (Permutation_in c P2); exact H|apply (Permutation_in c (Permutation_sym P2)); exact H].
Qed.
End Read.
