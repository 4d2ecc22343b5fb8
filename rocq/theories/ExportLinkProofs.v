(* References between primitives: types, return values, the global namespace, sorting, bases, containers, constructors. *)
From Verif Require Import Base BaseProofs Text HashModel HashSpec HashProofs SearchModel SearchProofs Maps DatabaseModel NamesProofs MergeSpec ExportModel ExportSpec ExportProofs ExportParentProofs ExportTablesProofs.
From Coq Require Import Sorted Permutation.

Definition or_hash (o : option loc) (h : Z) : ref := match o with Some l => Ptr l | None => Int h end.

Lemma wr_at : forall A (l1 l2 : list A) x v, wr (l1 ++ x :: l2) (zlen l1) v = Ok (l1 ++ v :: l2).
Proof.
  intros. unfold wr, zlen. rewrite app_length. cbn [length]. replace ((0 <=? Z.of_nat (length l1)) && (Z.of_nat (length l1) <? Z.of_nat (length l1 + S (length l2)))) with true by lia.
  rewrite Nat2Z.id. f_equal. rewrite firstn_app, Nat.sub_diag, firstn_all. cbn [firstn]. rewrite app_nil_r. f_equal. f_equal.
  replace (S (length l1)) with (length l1 + 1)%nat by lia. rewrite skipn_app. replace (length l1 + 1 - length l1)%nat with 1%nat by lia.
  rewrite skipn_all2 by lia. reflexivity.
Qed.
Lemma unstable_remove_ok : forall A (l1 l2 : list A) x, exists l, unstable_remove (l1 ++ x :: l2) (zlen l1) = Ok l /\ Permutation l (l1 ++ l2).
Proof.
  intros A l1 l2 x. unfold unstable_remove.
  assert (Hz : zlen (l1 ++ x :: l2) = zlen l1 + 1 + zlen l2) by (unfold zlen; rewrite app_length; cbn [length]; lia).
  pose proof (zlen_nonneg _ l1). pose proof (zlen_nonneg _ l2). unfold assert. replace (zlen l1 <? zlen (l1 ++ x :: l2)) with true by lia. cbn [obind].
  destruct (List.exists_last (l := l1 ++ x :: l2)) as [m [y E]]; [destruct l1; discriminate|].
  assert (Hr : rd (l1 ++ x :: l2) (zlen (l1 ++ x :: l2) - 1) = Ok y).
  { unfold rd, znth. rewrite E. unfold zlen. rewrite app_length. cbn [length]. replace (Z.of_nat (length m + 1) - 1 <? 0) with false by lia.
    replace (Z.to_nat (Z.of_nat (length m + 1) - 1)) with (length m) by lia. rewrite nth_error_app2 by lia. rewrite Nat.sub_diag. reflexivity. }
  rewrite Hr. cbn [obind]. rewrite wr_at. cbn [obind]. eexists. split; [reflexivity|].
  unfold slice. cbn [skipn Z.to_nat]. rewrite Hz.
  replace (Z.to_nat (zlen l1 + 1 + zlen l2 - 1)) with (length l1 + length l2)%nat by (unfold zlen; lia).
  destruct l2 as [|z l2] using rev_ind.
  - cbn [length]. rewrite Nat.add_0_r, firstn_app, firstn_all, Nat.sub_diag. cbn [firstn]. reflexivity.
  - clear IHl2. assert (y = z /\ m = l1 ++ x :: l2) as [-> ->].
    { change (l1 ++ x :: l2 ++ [z]) with (l1 ++ ((x :: l2) ++ [z])) in E. rewrite app_assoc in E. apply app_inj_tail in E. destruct E; auto. }
    rewrite app_length. cbn [length]. replace (length l1 + (length l2 + 1))%nat with (length (l1 ++ z :: l2)) by (rewrite app_length; cbn [length]; lia).
    change (l1 ++ z :: l2 ++ [z]) with (l1 ++ ((z :: l2) ++ [z])). rewrite app_assoc, firstn_app, firstn_all, Nat.sub_diag. cbn [firstn]. rewrite app_nil_r.
    apply Permutation_app_head. rewrite Permutation_app_comm. reflexivity.
Qed.
Lemma filter_without : forall (l1 l2 : list loc) r, NoDup (l1 ++ r :: l2) -> filter (fun p => negb (loc_eqb r p)) (l1 ++ r :: l2) = l1 ++ l2.
Proof.
  intros l1 l2 r H. apply NoDup_remove in H. destruct H as [H1 H2]. rewrite filter_app. cbn [filter]. rewrite loc_eqb_refl. cbn [negb].
  f_equal; apply filter_true; intros x Hx; destruct (loc_eqb_spec r x); [subst; exfalso; apply H2; apply in_or_app; tauto|reflexivity|subst; exfalso; apply H2; apply in_or_app; tauto|reflexivity].
Qed.
Lemma sorted_snd : forall (es : list (Z * ref)) (h : ref -> Z), (forall e, In e es -> h (snd e) = fst e) ->
  StronglySorted (fun a b => fst a <= fst b) es -> StronglySorted (fun a b => h a <= h b) (map snd es).
Proof.
  induction es as [|e es IH]; intros h H Hs; cbn [map]; [constructor|]. inversion Hs; subst. constructor.
  - apply IH; [intros; apply H; right; assumption|assumption].
  - rewrite Forall_forall in *. intros r Hr. apply in_map_iff in Hr. destruct Hr as [x [<- Hx]]. rewrite (H e), (H x); [apply H3; exact Hx|right; exact Hx|left; reflexivity].
Qed.

Section Rest.
Variables (L : layout) (db : database) (T : table).
Notation nm := (name_array (m_names db)).
Notation names := (packed (name_texts (m_names db))).
Hypothesis HT : forall k, T k = T_of db nm k.
Hypothesis Hwf : wf_tables db.
Hypothesis Hint : all_interned db.
Hypothesis Howned : fields_owned db.
Hypothesis Hsmall : small_db db.
Hypothesis Hclash : no_clash L db.
Hypothesis Hsort : sorts L.
Hypothesis Huniq : unique_types db.
Notation V l := (In l (places db (fst l))).

Lemma HT_row : forall l, row_or T l = row_or (T_of db nm) l.
Proof. intros. unfold row_or. rewrite HT. reflexivity. Qed.
Lemma F_len : forall k, length (T k) = length (items db k).
Proof. intros. rewrite HT. apply T_len. Qed.
Lemma F_hash : forall l, V l -> r_hash (row_or T l) = hash_at db l.
Proof. intros. rewrite HT_row. apply T_hash; assumption. Qed.
Lemma F_text : forall l, V l -> text_of names (row_or T l) = Ok (text_at db l).
Proof. intros. rewrite HT_row. apply T_text; assumption. Qed.
Lemma F_locs : forall k, locs T k = places db k.
Proof. intros. apply locs_places. exact F_len. Qed.
Lemma F_get : forall l, V l -> get_row T l = Ok (row_or T l).
Proof. intros l H. apply (get_row_locs T (fst l)). rewrite F_locs. exact H. Qed.
Lemma F_deref : forall l, V l -> deref T (Ptr l) = Ok (row_or T l).
Proof. intros l H. unfold deref. cbn [loc_of obind]. apply F_get. exact H. Qed.
Lemma F_valid : forall k l, In l (places db k) -> V l.
Proof. intros k l H. pose proof H as H2. apply places_In in H2. destruct H2 as [-> _]. exact H. Qed.
Lemma F_all : forall l, V l -> In l (flat_map (places db) all_kinds).
Proof. intros l H. apply in_flat_map. exists (fst l). split; [|exact H]. destruct (fst l); cbn; tauto. Qed.
Lemma F_texts : forall l, V l -> c_string (text_at db l) /\ zlen (text_at db l) < 2 ^ 28.
Proof. intros l H. destruct Hsmall as (_ & S2 & _). destruct (text_fine db Hwf Hint S2 l H) as (H1 & H2 & _). auto. Qed.
Lemma F_nm0 : m_find 0 nm = None.
Proof.
  apply m_find_none. rewrite name_array_keys. intros H. apply m_find_some_iff in H. destruct H as [n H].
  destruct Hwf as ([_ W] & _). apply W in H. tauto.
Qed.
Lemma type_valid : forall h l, type_named db h = Some l -> V l /\ hash_at db l = h /\ In l (type_places db).
Proof.
  intros h l H. apply find_some in H. destruct H as [H1 H2]. apply Z.eqb_eq in H2. split; [|auto]. unfold type_places in H1. rewrite !in_app_iff in H1.
  destruct H1 as [H1|[H1|[H1|H1]]]; apply F_valid in H1; exact H1.
Qed.
Lemma type_none : forall h, type_named db h = None -> forall l, In l (type_places db) -> hash_at db l <> h.
Proof. intros h H l Hl E. eapply find_none in H; [|exact Hl]. cbn in H. apply Z.eqb_neq in H. congruence. Qed.
Lemma type_places_valid : forall l, In l (type_places db) -> V l.
Proof. intros l H. unfold type_places in H. rewrite !in_app_iff in H. destruct H as [H|[H|[H|H]]]; apply F_valid in H; exact H. Qed.
Lemma child_valid : forall a o c, In c (children db a o) -> V c /\ owner db c = Some o /\ lists a o c = true.
Proof.
  intros a o c H. unfold children in H. apply filter_In in H. destruct H as [H1 H2]. apply andb_true_iff in H2. destruct H2 as [H2 H3].
  apply in_flat_map in H1. destruct H1 as [k [_ H1]]. split; [apply (F_valid k); exact H1|]. split; [|exact H3].
  unfold owned_by in H2. destruct (owner db c) as [x|]; [|discriminate]. destruct (loc_eqb_spec x o); [congruence|discriminate].
Qed.
Lemma all_NoDup : NoDup (flat_map (places db) all_kinds).
Proof.
  apply NoDup_flat_places; [intros k l H; apply places_In in H; tauto|apply places_NoDup|]. unfold all_kinds.
  repeat (constructor; [cbn; intuition discriminate|]). constructor.
Qed.
Lemma children_NoDup : forall a o, NoDup (children db a o).
Proof. intros. apply NoDup_filter. exact all_NoDup. Qed.
Lemma children_small : forall a o, zlen (children db a o) <= 2 ^ 30.
Proof.
  intros. destruct Hsmall as (S1 & _). unfold children, zlen in *. set (l := flat_map (places db) all_kinds) in *.
  assert (H : forall f : loc -> bool, (length (filter f l) <= length l)%nat) by (intros f; clear; induction l as [|x l IH]; cbn [filter length]; [lia|]; destruct (f x); cbn [length]; lia).
  specialize (H (fun c => owned_by db o c && lists a o c)). lia.
Qed.

(* ---- entries ---- *)
Definition entry_of (l : loc) : Z * ref := (hash_at db l, Ptr l).
Lemma entries_ok : forall ls, (forall l, In l ls -> V l) -> entries T (map Ptr ls) = Ok (map entry_of ls).
Proof.
  intros ls H. unfold entries. induction ls as [|l ls IH]; cbn [mapM map]; [reflexivity|].
  rewrite F_deref by (apply H; left; reflexivity). cbn [obind]. rewrite F_hash by (apply H; left; reflexivity).
  rewrite IH by (intros; apply H; right; assumption). reflexivity.
Qed.
Lemma child_map_find : forall ls h, m_find h (child_map (map entry_of ls)) = option_map Ptr (find (fun l => hash_at db l =? h) ls).
Proof.
  intros ls h. unfold child_map. rewrite m_find_range. rewrite (fold_mm_range _ _ (fun e : Z * ref => fst e) (fun e => snd e)) by exact I.
  cbn [m_range filter map app]. rewrite filter_map_comm, map_map. cbn [entry_of fst snd].
  rewrite find_hd. destruct (filter _ ls); reflexivity.
Qed.
Lemma GatherType_eq : GatherTypePrimitives T = type_places db.
Proof. unfold GatherTypePrimitives, type_places. rewrite !F_locs. reflexivity. Qed.
Lemma link_type : forall h, 0 <= h < 2 ^ 32 -> link1 L (child_map (map entry_of (type_places db))) (Int h) = or_hash (type_named db h) h.
Proof.
  intros h Hr. unfold link1, to_hash, as_int, u32. rewrite Z.mod_small by exact Hr. rewrite child_map_find. unfold type_named.
  destruct (find _ (type_places db)); reflexivity.
Qed.

(* ---- return values ---- *)
Definition rh : Z := hash32 (str "return") 0.
Lemma c_hash_ok : forall s, text_ok (str s) -> c_hash s = Ok (hash32 (str s) 0).
Proof. intros s H. unfold c_hash. apply text_hash. exact H. Qed.
Lemma return_index : forall ps i, (forall p, In p ps -> V p) ->
  ReturnParameterIndex T rh (map Ptr ps) i =
  Ok (match find (fun p => hash_at db p =? rh) ps with
      | None => -1
      | Some _ => i + zlen (fst (fold_right (fun p s => if hash_at db p =? rh then ([], p :: snd s) else (p :: fst s, snd s)) ([], []) ps))
      end).
Proof.
  induction ps as [|p ps IH]; intros i H; cbn [ReturnParameterIndex map find fold_right]; [reflexivity|].
  rewrite F_deref by (apply H; left; reflexivity). cbn [obind]. rewrite F_hash by (apply H; left; reflexivity).
  destruct (hash_at db p =? rh); cbn [fst]; [f_equal; change (zlen []) with 0; lia|].
  rewrite IH by (intros; apply H; right; assumption). f_equal. destruct (find _ ps); [|reflexivity]. unfold zlen. cbn [length]. lia.
Qed.
Lemma find_split : forall (f : loc -> bool) ps r, find f ps = Some r ->
  exists l1 l2, ps = l1 ++ r :: l2 /\ fst (fold_right (fun p s => if f p then ([], p :: snd s) else (p :: fst s, snd s)) ([], []) ps) = l1 /\ f r = true.
Proof.
  intros f ps. induction ps as [|p ps IH]; intros r H; cbn [find] in H; [discriminate|]. cbn [fold_right]. destruct (f p) eqn:E.
  - injection H as <-. exists [], ps. auto.
  - destruct (IH r H) as (l1 & l2 & E1 & E2 & E3). exists (p :: l1), l2. split; [cbn; f_equal; exact E1|]. split; [cbn [fst]; f_equal; exact E2|exact E3].
Qed.

Lemma assign_returns : forall arr, (forall a o, arr (a, o) = map Ptr (children db a o)) ->
  exists arr' ret, each (assign_return T rh) (locs T KFunction) (arr, fun _ => Int 0) = Ok (arr', ret) /\
    (forall a o, (fst o <> KFunction \/ a <> AParameters) -> arr' (a, o) = map Ptr (children db a o)) /\
    (forall f, In f (places db KFunction) -> Permutation (arr' (AParameters, f)) (map Ptr (filter (fun p => negb (is_return db f p)) (children db AParameters f)))) /\
    (forall f, In f (places db KFunction) -> ret f = or_null (return_of db f)) /\
    (forall o, ~ In o (places db KFunction) -> ret o = Int 0 /\ arr' (AParameters, o) = map Ptr (children db AParameters o)).
Proof.
  intros arr Harr. rewrite F_locs.
  destruct (each_inv _ _ (assign_return T rh) (fun done s =>
      (forall a o, (~ In o done \/ a <> AParameters) -> fst s (a, o) = map Ptr (children db a o)) /\
      (forall f, In f done -> Permutation (fst s (AParameters, f)) (map Ptr (filter (fun p => negb (is_return db f p)) (children db AParameters f))) /\
                              snd s f = or_null (return_of db f)) /\
      (forall o, ~ In o done -> snd s o = Int 0)) (places db KFunction) (arr, fun _ => Int 0)) as [[arr' ret] [H1 (H2 & H3 & H4)]].
  - split; [|split]; cbn [fst snd]; [intros; apply Harr|intros f []|reflexivity].
  - intros done f [arr1 ret1] [rest E] (I1 & I2 & I3). cbn [fst snd] in *.
    assert (Hnd : ~ In f done).
    { pose proof (places_NoDup db KFunction) as Hn. rewrite E in Hn. apply NoDup_remove in Hn. destruct Hn as [_ Hn]. intros Hin. apply Hn. apply in_or_app. tauto. }
    unfold assign_return. rewrite (I1 AParameters f) by (left; exact Hnd).
    rewrite return_index by (intros p Hp; apply child_valid in Hp; tauto). cbn [obind].
    change (find (fun p => hash_at db p =? rh) (children db AParameters f)) with (return_of db f).
    destruct (return_of db f) as [r|] eqn:Er.
    + pose proof Er as Er2. apply find_split in Er2. destruct Er2 as (l1 & l2 & E1 & E2 & E3). fold rh in E2, E3. rewrite E2, Z.add_0_l.
      pose proof (zlen_nonneg _ l1). replace (zlen l1 =? -1) with false by lia. rewrite E1, map_app. cbn [map].
      assert (Hl : zlen l1 = zlen (map Ptr l1)) by (unfold zlen; rewrite map_length; reflexivity). rewrite Hl.
      assert (Hrd : rdA (map Ptr l1 ++ Ptr r :: map Ptr l2) (zlen (map Ptr l1)) = Ok (Ptr r)).
      { unfold rdA, znth. replace (zlen (map Ptr l1) <? 0) with false by lia. unfold zlen. rewrite Nat2Z.id, nth_error_app2 by lia. rewrite Nat.sub_diag. reflexivity. }
      rewrite Hrd. cbn [obind]. destruct (unstable_remove_ok _ (map Ptr l1) (map Ptr l2) (Ptr r)) as [ps [U1 U2]]. rewrite U1. cbn [obind].
      eexists. split; [reflexivity|]. cbn [fst snd]. split; [|split].
      * intros a o Ho. rewrite updc_other; [apply I1|].
        -- destruct Ho as [Ho|Ho]; [left; intros Hin; apply Ho; apply in_or_app; tauto|right; exact Ho].
        -- intros Heq. injection Heq as <- <-. destruct Ho as [Ho|Ho]; [apply Ho; apply in_or_app; right; left; reflexivity|congruence].
      * intros g Hg. apply in_app_or in Hg. destruct (loc_eqb_spec f g) as [<-|Hne].
        -- rewrite updc_same, upd_same, Er. cbn [or_null]. split; [|reflexivity]. rewrite U2.
           replace (filter (fun p => negb (is_return db f p)) (children db AParameters f)) with (l1 ++ l2); [rewrite map_app; reflexivity|].
           rewrite <- (filter_without l1 l2 r) by (rewrite <- E1; apply children_NoDup). rewrite <- E1. apply filter_ext_in2. intros p _. unfold is_return. rewrite Er. reflexivity.
        -- destruct Hg as [Hg|[Hg|[]]]; [|congruence]. rewrite updc_other by congruence. rewrite upd_other by congruence. apply I2. exact Hg.
      * intros o Ho. rewrite upd_other; [apply I3|]; intros Hx; apply Ho; apply in_or_app; [left; exact Hx|right; left; congruence].
    + change (-1 =? -1) with true. cbv iota. eexists. split; [reflexivity|]. cbn [fst snd]. split; [|split].
      * intros a o Ho. apply I1. destruct Ho as [Ho|Ho]; [left; intros Hin; apply Ho; apply in_or_app; tauto|right; exact Ho].
      * intros g Hg. apply in_app_or in Hg. destruct Hg as [Hg|[<-|[]]]; [apply I2; exact Hg|].
        rewrite Er, (I1 AParameters f) by (left; exact Hnd). rewrite (I3 f Hnd). cbn [or_null]. split; [|reflexivity].
        rewrite filter_true; [reflexivity|]. intros p _. unfold is_return. rewrite Er. reflexivity.
      * intros o Ho. apply I3. intros Hx. apply Ho. apply in_or_app. left. exact Hx.
  - cbn [fst snd] in *. exists arr', ret. split; [exact H1|]. split; [|split; [|split]].
    + intros a o [Ho|Ho]; apply H2; [left|right; exact Ho]. intros Hin. apply places_In in Hin. tauto.
    + intros f Hf. apply H3. exact Hf.
    + intros f Hf. apply H3. exact Hf.
    + intros o Ho. split; [apply H4; exact Ho|]. apply H2. left. exact Ho.
Qed.

(* ---- sorting ---- *)
Lemma entries_perm : forall a ls, Permutation a (map Ptr ls) -> (forall l, In l ls -> V l) -> exists ls', a = map Ptr ls' /\ Permutation ls' ls.
Proof.
  intros a ls Hp Hv. apply Permutation_map_inv in Hp. destruct Hp as [ls' [H1 H2]]. exists ls'. split; [exact H1|apply Permutation_sym; exact H2].
Qed.
Definition ref_hash (r : ref) : Z := match r with Ptr l => hash_at db l | Int _ => 0 end.
Definition in_order (a : list ref) : Prop := StronglySorted (fun x y => ref_hash x <= ref_hash y) a.
Lemma sort_array_ok : forall a ls, Permutation a (map Ptr ls) -> (forall l, In l ls -> V l) ->
  exists s, sort_array L T a = Ok s /\ Permutation s (map Ptr ls) /\ in_order s.
Proof.
  intros a ls Hp Hv. destruct (entries_perm a ls Hp Hv) as [ls' [-> Hp']]. unfold sort_array.
  assert (Hv' : forall l, In l ls' -> V l) by (intros l Hl; apply Hv; apply (Permutation_in l Hp'); exact Hl).
  rewrite entries_ok by exact Hv'. cbn [obind]. eexists. split; [reflexivity|]. destruct (Hsort (map entry_of ls')) as [S1 S2]. split.
  - rewrite <- Hp. rewrite S1. rewrite map_map. reflexivity.
  - unfold in_order. apply sorted_snd; [|exact S2]. intros e He. apply (Permutation_in e S1) in He. apply in_map_iff in He. destruct He as [l [<- _]]. reflexivity.
Qed.
Lemma NoDup_flat_map_pair : forall (ks : list kind), NoDup ks ->
  NoDup (flat_map (fun k => flat_map (fun l => map (fun a => (a, l)) (sorted_arrays k)) (places db k)) ks).
Proof.
  assert (Hin : forall c k, In c (flat_map (fun l => map (fun a => (a, l)) (sorted_arrays k)) (places db k)) -> fst (snd c) = k).
  { intros c k H. apply in_flat_map in H. destruct H as [l [H1 H2]]. apply in_map_iff in H2. destruct H2 as [a [<- _]]. apply places_In in H1. tauto. }
  assert (Hap : forall A (l1 l2 : list A), NoDup l1 -> NoDup l2 -> (forall x, In x l1 -> ~ In x l2) -> NoDup (l1 ++ l2)).
  { induction l1 as [|x l1 IH]; intros l2 N1 N2 Hd; cbn [app]; [exact N2|]. inversion N1; subst. constructor.
    - intros H. apply in_app_or in H. destruct H as [H|H]; [contradiction|]. apply (Hd x); [left; reflexivity|exact H].
    - apply IH; [assumption|exact N2|]. intros y Hy. apply Hd. right. exact Hy. }
  intros ks Hnd. induction ks as [|k ks IH]; cbn [flat_map]; [constructor|]. inversion Hnd; subst.
  apply Hap; [|apply IH; assumption|].
  - pose proof (places_NoDup db k) as Hp. revert Hp. generalize (places db k). induction l as [|x l IHl]; intros Hp; cbn [flat_map]; [constructor|]. inversion Hp; subst.
    apply Hap; [|apply IHl; assumption|].
    + assert (Hs : NoDup (sorted_arrays k)) by (destruct k; cbn; repeat (constructor; [cbn; intuition discriminate|]); constructor).
      revert Hs. generalize (sorted_arrays k). clear. induction l as [|a l IH]; intros H; cbn [map]; [constructor|]. inversion H; subst. constructor; [|apply IH; assumption].
      intros Hin. apply in_map_iff in Hin. destruct Hin as [b [E Hb]]. congruence.
    + intros c Hc Hc2. apply in_map_iff in Hc. destruct Hc as [a [<- _]]. apply in_flat_map in Hc2. destruct Hc2 as [y [Hy Hc2]]. apply in_map_iff in Hc2.
      destruct Hc2 as [b [E _]]. injection E as _ E. subst. contradiction.
  - intros c Hc Hc2. apply Hin in Hc. apply in_flat_map in Hc2. destruct Hc2 as [k2 [Hk2 Hc2]]. apply Hin in Hc2. congruence.
Qed.
Lemma sort_all : forall arr (own : cell -> list loc), (forall c, Permutation (arr c) (map Ptr (own c))) -> (forall c l, In l (own c) -> V l) ->
  exists arr', SortPrimitives L T arr = Ok arr' /\ (forall c, Permutation (arr' c) (map Ptr (own c))) /\
    (forall k o a, In k sorted_kinds -> In o (places db k) -> In a (sorted_arrays k) -> in_order (arr' (a, o))) /\
    (forall c, arr c = [] -> arr' c = []).
Proof.
  intros arr own Hp Hv. unfold SortPrimitives. set (cells := sort_cells T).
  assert (Hnd : NoDup cells).
  { unfold cells, sort_cells. replace (flat_map (fun k => flat_map (fun l => map (fun a => (a, l)) (sorted_arrays k)) (locs T k)) sorted_kinds)
      with (flat_map (fun k => flat_map (fun l => map (fun a => (a, l)) (sorted_arrays k)) (places db k)) sorted_kinds).
    - apply NoDup_flat_map_pair. unfold sorted_kinds. repeat (constructor; [cbn; intuition discriminate|]). constructor.
    - generalize sorted_kinds. induction l as [|k l IH]; cbn [flat_map]; [reflexivity|]. rewrite IH, F_locs. reflexivity. }
  destruct (each_inv _ _ (fun c arr => do s <- sort_array L T (arr c); Ok (updc arr c s)) (fun done arr' =>
     (forall c, Permutation (arr' c) (map Ptr (own c))) /\ (forall c, In c done -> in_order (arr' c)) /\ (forall c, arr c = [] -> arr' c = [])) cells arr) as [arr' [H1 (H2 & H3 & H4)]].
  - split; [exact Hp|]. split; [intros c []|auto].
  - intros done c arr1 [rest E] (I1 & I2 & I3). destruct (sort_array_ok (arr1 c) (own c) (I1 c) (Hv c)) as (s & S1 & S2 & S3).
    rewrite S1. cbn [obind]. eexists. split; [reflexivity|]. split; [|split].
    + intros c'. destruct (cell_eqb_spec c c') as [<-|Hne]; [rewrite updc_same; exact S2|rewrite updc_other by exact Hne; apply I1].
    + intros c' Hc. destruct (cell_eqb_spec c c') as [<-|Hne]; [rewrite updc_same; exact S3|]. rewrite updc_other by exact Hne. apply I2.
      apply in_app_or in Hc. destruct Hc as [Hc|[Hc|[]]]; [exact Hc|congruence].
    + intros c' Hc. destruct (cell_eqb_spec c c') as [<-|Hne]; [|rewrite updc_other by exact Hne; apply I3; exact Hc]. rewrite updc_same.
      pose proof (I1 c) as Hq. rewrite (I3 c Hc) in Hq. apply Permutation_nil in Hq. rewrite Hq in S2. apply Permutation_sym, Permutation_nil in S2. exact S2.
  - exists arr'. split; [exact H1|]. split; [exact H2|]. split; [|exact H4]. intros k o a Hk Ho Ha. apply H3. unfold cells, sort_cells. apply in_flat_map.
    exists k. split; [exact Hk|]. apply in_flat_map. exists o. split; [rewrite F_locs; exact Ho|]. apply in_map_iff. eauto.
Qed.

(* ---- lookups among the types ---- *)
Notation types := (lay_sort L (map entry_of (type_places db))).
Lemma types_sorted : sorted_by_hash types /\ Permutation types (map entry_of (type_places db)).
Proof. destruct (Hsort (map entry_of (type_places db))) as [S1 S2]. split; [exact S2|exact S1]. Qed.
Lemma types_small : zlen types <= 2 ^ 30.
Proof.
  destruct Hsmall as (S1 & _). destruct types_sorted as [_ P]. unfold zlen in *. rewrite (Permutation_length P), map_length.
  assert (H : (length (type_places db) <= length (flat_map (places db) all_kinds))%nat); [|lia].
  unfold type_places, all_kinds. cbn [flat_map]. rewrite !app_length. cbn [length]. lia.
Qed.
Lemma find_type_ok : forall h, find_type types h = Ok (or_null (type_named db h)).
Proof.
  intros h. unfold find_type. destruct types_sorted as [S P]. destruct (find_primitive_ok _ types h S types_small) as [r [Hr Hc]]. rewrite Hr. cbn [obind]. f_equal.
  destruct r as [e|].
  - destruct Hc as [Hin Hh]. apply (Permutation_in e P) in Hin. apply in_map_iff in Hin. destruct Hin as [l [<- Hl]]. cbn [entry_of fst snd] in *.
    destruct (type_named db h) as [l'|] eqn:E.
    + destruct (type_valid h l' E) as (_ & E2 & E3). cbn [or_null]. f_equal.
      assert (HN : forall (l1 : list loc) x y, NoDup (map (hash_at db) l1) -> In x l1 -> In y l1 -> hash_at db x = hash_at db y -> x = y).
      { clear. induction l1 as [|z l1 IH]; intros x y Hn Hx Hy Hxy; [contradiction|]. cbn [map] in Hn. inversion Hn; subst.
        destruct Hx as [<-|Hx], Hy as [<-|Hy]; [reflexivity| | |apply IH; assumption]; exfalso; apply H1.
        - rewrite Hxy. apply in_map. exact Hy.
        - rewrite <- Hxy. apply in_map. exact Hx. }
      apply (HN (type_places db)); [exact Huniq|exact Hl|exact E3|congruence].
    + exfalso. apply (type_none h E l Hl). exact Hh.
  - destruct (type_named db h) as [l'|] eqn:E; [|reflexivity]. exfalso. destruct (type_valid h l' E) as (_ & E2 & E3).
    apply (Hc (entry_of l')); [|exact E2]. apply Permutation_sym in P. apply (Permutation_in _ P). apply in_map. exact E3.
Qed.

(* ---- base classes ---- *)
Lemma collect_bases : exists acc, each (collect_base types) (m_inherits db) (fun _ => []) = Ok acc /\ forall l, acc l = map Ptr (bases_of db l).
Proof.
  unfold bases_of. set (g := fun (l : loc) (e : Z * type_inheritance) => match type_named db (n_hash (ti_base (snd e))), type_named db (n_hash (ti_derived (snd e))) with
                     | Some b, Some d => if loc_eqb d l then [b] else []
                     | _, _ => []
                     end).
  destruct (each_inv _ _ (collect_base types) (fun done acc => forall l, acc l = map Ptr (flat_map (g l) done)) (m_inherits db) (fun _ => [])) as [acc [H1 H2]].
  - reflexivity.
  - intros done e acc _ I. unfold collect_base. rewrite !find_type_ok. cbn [obind].
    assert (Hsnoc : forall l, map Ptr (flat_map (g l) (done ++ [e])) = acc l ++ map Ptr (g l e)).
    { intros l. rewrite flat_map_app, map_app, I. cbn [flat_map]. rewrite app_nil_r. reflexivity. }
    destruct (type_named db (n_hash (ti_base (snd e)))) as [b|] eqn:Eb; cbn [or_null].
    + destruct (type_named db (n_hash (ti_derived (snd e)))) as [d|] eqn:Ed; cbn [or_null].
      * eexists. split; [reflexivity|]. intros l. rewrite Hsnoc. unfold g. rewrite Eb, Ed. destruct (loc_eqb_spec d l) as [<-|Hne].
        -- rewrite upd_same. reflexivity.
        -- rewrite upd_other by exact Hne. rewrite app_nil_r. reflexivity.
      * eexists. split; [reflexivity|]. intros l. rewrite Hsnoc. unfold g. rewrite Eb, Ed, app_nil_r. reflexivity.
    + eexists. split; [reflexivity|]. intros l. rewrite Hsnoc. unfold g. rewrite Eb, app_nil_r. reflexivity.
  - exists acc. auto.
Qed.

(* ---- container descriptions ---- *)
Lemma m_set_fold : forall A W (key : A -> Z) (val : A -> W) h l m, ssorted (keys m) ->
  ssorted (keys (fold_left (fun m e => m_set (key e) (val e) m) l m)) /\
  m_find h (fold_left (fun m e => m_set (key e) (val e) m) l m) = match find (fun e => key e =? h) (rev l) with Some e => Some (val e) | None => m_find h m end.
Proof.
  intros A W key val h l. induction l as [|e l IH] using rev_ind; intros m Hs; [auto|]. rewrite fold_left_app. cbn [fold_left].
  destruct (IH m Hs) as [I1 I2]. split; [apply m_set_ssorted; exact I1|]. rewrite m_find_set by exact I1. rewrite rev_app_distr. cbn [rev app find].
  destruct (key e =? h); [reflexivity|exact I2].
Qed.
Lemma seq_rows : forall k (f : nat -> row -> bool), (forall x y, f x y = f x y) ->
  find (fun p => f (fst p) (snd p)) (rev (combine (seq 0 (length (T k))) (T k))) = option_map (fun j => (j, nth j (T k) norow)) (find (fun j => f j (nth j (T k) norow)) (rev (seq 0 (length (T k))))).
Proof.
  intros k f _. assert (E : combine (seq 0 (length (T k))) (T k) = map (fun j => (j, nth j (T k) norow)) (seq 0 (length (T k)))).
  { generalize (T k). clear. intros l. assert (G : forall s, combine (seq s (length l)) l = map (fun j => (j, nth (j - s) l norow)) (seq s (length l))).
    - induction l as [|x l IH]; intros s; cbn [length seq combine map]; [reflexivity|]. rewrite Nat.sub_diag. cbn [nth]. f_equal. rewrite IH.
      apply map_ext_in. intros j Hj. apply in_seq in Hj. destruct (j - s)%nat eqn:E; [lia|]. replace (j - S s)%nat with n by lia. reflexivity.
    - rewrite G. apply map_ext. intros j. rewrite Nat.sub_0_r. reflexivity. }
  rewrite E, <- map_rev, find_map. cbn [fst snd]. reflexivity.
Qed.
Lemma find_rev_places : forall k h, find (fun j => r_hash (nth j (T k) norow) =? h) (rev (seq 0 (length (T k)))) = option_map snd (find (fun l => hash_at db l =? h) (rev (places db k))).
Proof.
  intros k h. unfold places. rewrite <- map_rev, find_map, F_len.
  rewrite (find_ext _ _ (fun j => hash_at db (k, j) =? h)); [destruct (find _ _); reflexivity|].
  intros j Hj. apply in_rev in Hj. apply in_seq in Hj. rewrite <- row_or_nth, F_hash; [reflexivity|]. cbn [fst]. apply places_In. cbn [fst snd]. split; [reflexivity|lia].
Qed.
Lemma template_map_find : forall h, m_find h (template_map (T KTemplate)) = option_map snd (find (fun t => hash_at db t =? h) (rev (places db KTemplate))).
Proof.
  intros h. unfold template_map. destruct (m_set_fold _ _ (fun p : nat * row => r_hash (snd p)) (fun p => fst p) h (combine (seq 0 (length (T KTemplate))) (T KTemplate)) [] I) as [_ ->].
  rewrite (seq_rows KTemplate (fun _ r => r_hash r =? h)) by reflexivity. rewrite <- find_rev_places. destruct (find _ _); reflexivity.
Qed.

Lemma upd_all : forall (i : nat) ls ci, exists ci', each (fun r ci => do l <- loc_of r; Ok (upd ci l (Some i))) (map Ptr ls) ci = Ok ci' /\
  forall l, ci' l = if existsb (loc_eqb l) ls then Some i else ci l.
Proof.
  intros i ls. induction ls as [|x ls IH]; intros ci; cbn [map each loc_of obind existsb]; [eauto|].
  destruct (IH (upd ci x (Some i))) as [ci' [H1 H2]]. exists ci'. split; [exact H1|]. intros l. rewrite H2. destruct (existsb (loc_eqb l) ls); [rewrite orb_true_r; reflexivity|].
  rewrite orb_false_r. unfold upd. replace (loc_eqb x l) with (loc_eqb l x); [reflexivity|]. destruct (loc_eqb_spec l x), (loc_eqb_spec x l); congruence.
Qed.
Lemma existsb_perm : forall (l : loc) a b, Permutation a b -> existsb (loc_eqb l) a = existsb (loc_eqb l) b.
Proof.
  intros l a b P. destruct (existsb (loc_eqb l) a) eqn:Ea, (existsb (loc_eqb l) b) eqn:Eb; try reflexivity; exfalso.
  - apply existsb_exists in Ea. destruct Ea as [x [Hx E]]. apply (Permutation_in x P) in Hx. assert (existsb (loc_eqb l) b = true) by (apply existsb_exists; eauto). congruence.
  - apply existsb_exists in Eb. destruct Eb as [x [Hx E]]. apply (Permutation_in x (Permutation_sym P)) in Hx. assert (existsb (loc_eqb l) a = true) by (apply existsb_exists; eauto). congruence.
Qed.
Lemma parent_info_ok : forall fm arr h i ci, (forall h, m_range h fm = filter (fun j => known_as db (KField, j) =? h) (seq 0 (length (T KField)))) ->
  (forall t, In t (places db KTemplate) -> Permutation (arr (AInstances, t)) (map Ptr (children db AInstances t))) ->
  exists ci', parent_info T types fm arr h i ci = Ok ci' /\ forall l, ci' l = if existsb (loc_eqb l) (info_owners db h) then Some i else ci l.
Proof.
  intros fm arr h i ci Hfm Harr. unfold parent_info, info_owners. rewrite find_type_ok. cbn [obind]. destruct (type_named db h) as [t|]; cbn [or_null].
  - destruct (upd_all i [t] ci) as [ci' [H1 H2]]. cbn [map each loc_of obind] in H1. injection H1 as <-. eexists. split; [reflexivity|exact H2].
  - rewrite template_map_find. destruct (find (fun t => hash_at db t =? h) (rev (places db KTemplate))) as [t|] eqn:Et; cbn [option_map].
    + apply find_some in Et. destruct Et as [Et _]. apply in_rev in Et. pose proof Et as Et2. apply places_In in Et2. destruct Et2 as [Ek _].
      assert (Etl : (KTemplate, snd t) = t) by (destruct t; cbn in *; congruence). rewrite Etl.
      destruct (entries_perm _ _ (Harr t Et)) as [ls' [E1 E2]]; [intros l Hl; apply child_valid in Hl; tauto|]. rewrite E1.
      destruct (upd_all i ls' ci) as [ci' [H1 H2]]. exists ci'. split; [exact H1|]. intros l. rewrite H2, (existsb_perm l ls' _ E2). reflexivity.
    + rewrite m_find_range, Hfm, <- find_hd. unfold places. rewrite find_map, F_len.
      destruct (find (fun j => known_as db (KField, j) =? h) (seq 0 (length (items db KField)))) as [f|]; cbn [option_map].
      * destruct (upd_all i [(KField, f)] ci) as [ci' [H1 H2]]. cbn [map each loc_of obind] in H1. injection H1 as <-. eexists. split; [reflexivity|exact H2].
      * exists ci. split; reflexivity.
Qed.
Lemma iterator_ok : forall h, LinkContainerIterator nm types h = Ok (or_null (type_named db h)).
Proof.
  intros h. unfold LinkContainerIterator. assert (Hn : type_named db h = None -> Ok (Int 0) = Ok (or_null (type_named db h))) by (intros ->; reflexivity).
  destruct (Z.eqb_spec h 0) as [->|H0].
  - apply Hn. destruct (type_named db 0) as [l|] eqn:E; [|reflexivity]. destruct (type_valid _ _ E) as (H1 & H2 & _). destruct (hash_in_names db Hwf Hint l H1). congruence.
  - destruct (m_find h nm) eqn:E; [apply find_type_ok|]. apply Hn. destruct (type_named db h) as [l|] eqn:E2; [|reflexivity]. destruct (type_valid _ _ E2) as (H1 & H2 & _).
    destruct (hash_in_names db Hwf Hint l H1) as [H3 _]. rewrite H2 in H3. apply m_find_none in E. rewrite name_array_keys in E. contradiction.
Qed.
Notation infos := (map (info_of nm) (m_containers db)).
Definition iters_of (e : Z * container_info) : ref * ref := (or_null (type_named db (n_hash (ci_read (snd e)))), or_null (type_named db (n_hash (ci_write (snd e))))).
Lemma firstn_S : forall A (l : list A) n x, nth_error l n = Some x -> firstn (S n) l = firstn n l ++ [x].
Proof. induction l as [|a l IH]; intros [|n] x H; try discriminate; cbn in *; [congruence|]. f_equal. apply IH. exact H. Qed.
Lemma containers_ok : forall fm arr, (forall h, m_range h fm = filter (fun j => known_as db (KField, j) =? h) (seq 0 (length (T KField)))) ->
  (forall t, In t (places db KTemplate) -> Permutation (arr (AInstances, t)) (map Ptr (children db AInstances t))) ->
  exists ci, each (link_info T nm types fm arr) (combine (seq 0 (length infos)) infos) ([], fun _ => None) = Ok (map iters_of (m_containers db), ci) /\
    forall l, ci l = info_at db l.
Proof.
  intros fm arr Hfm Harr.
  destruct (each_inv _ _ (link_info T nm types fm arr) (fun done s => done = firstn (length done) (combine (seq 0 (length infos)) infos) /\
     fst s = firstn (length done) (map iters_of (m_containers db)) /\
     forall l, snd s l = find (names_owner db l) (rev (seq 0 (length done)))) (combine (seq 0 (length infos)) infos) ([], fun _ => None)) as [[its ci] [H1 (H2 & H3 & H4)]].
  - split; [reflexivity|]. split; reflexivity.
  - intros done [i info] [its ci] [rest E] (I0 & I1 & I2). cbn [fst snd] in *.
    assert (Hn : nth_error (combine (seq 0 (length infos)) infos) (length done) = Some (i, info)) by (rewrite E, nth_error_app2 by lia; rewrite Nat.sub_diag; reflexivity).
    assert (Hin : In (i, info) (combine (seq 0 (length infos)) infos)) by (apply nth_error_In in Hn; exact Hn).
    assert (Hi : i = length done).
    { assert (Hm : nth_error (map fst (combine (seq 0 (length infos)) infos)) (length done) = Some i) by (rewrite nth_error_map, Hn; reflexivity).
      assert (Hf : map fst (combine (seq 0 (length infos)) infos) = seq 0 (length infos)).
      { generalize infos. clear. intros l. generalize 0%nat. induction l as [|x l IH]; intros s; cbn; [reflexivity|]. f_equal. apply IH. }
      rewrite Hf in Hm. pose proof (nth_error_nth _ _ 0%nat Hm) as Hd. assert (Hlt : (length done < length infos)%nat) by (rewrite <- (seq_length (length infos) 0); apply nth_error_Some; congruence).
      rewrite seq_nth in Hd by exact Hlt. cbn in Hd. congruence. }
    apply combine_seq_nth in Hin. destruct Hin as [_ Hin]. rewrite Nat.sub_0_r, Hi in Hin. rewrite nth_error_map in Hin.
    destruct (nth_error (m_containers db) (length done)) as [e|] eqn:Ee; [|discriminate]. cbn in Hin. injection Hin as <-.
    unfold link_info. cbn [fst snd info_of i_read i_write i_hash]. rewrite !iterator_ok. cbn [obind].
    destruct (parent_info_ok fm arr (n_hash (ci_name (snd e))) i ci Hfm Harr) as [ci' [P1 P2]]. rewrite P1. cbn [obind].
    eexists. split; [reflexivity|]. cbn [fst snd]. rewrite app_length. cbn [length]. replace (length done + 1)%nat with (S (length done)) by lia. split; [|split].
    + rewrite (firstn_S _ _ _ _ Hn), <- I0. reflexivity.
    + rewrite (firstn_S _ _ _ (iters_of e)) by (rewrite nth_error_map, Ee; reflexivity). rewrite I1. reflexivity.
    + intros l. rewrite P2, I2, seq_S, rev_app_distr. cbn [rev app find]. unfold names_owner at 2. cbn [Nat.add]. rewrite Ee, Hi. reflexivity.
  - cbn [fst snd] in *. exists ci. rewrite H1. rewrite combine_length, seq_length, Nat.min_id, map_length in H3, H4. split.
    + rewrite H3, firstn_all2; [reflexivity|]. rewrite map_length. lia.
    + intros l. rewrite H4. reflexivity.
Qed.

(* ---- constructors and destructors ---- *)
Lemma method_hash_ok : forall l s, V l -> c_string (str s) -> zlen (str s) < 2 ^ 20 ->
  method_hash names (row_or T l) s = Ok (hash32 (text_at db l ++ str s) 0).
Proof.
  intros l s Hl Hs Hz. unfold method_hash. rewrite F_text by exact Hl. cbn [obind]. destruct (F_texts l Hl) as [C1 C2].
  assert (Et : text_ok (text_at db l ++ str s)).
  { split; [unfold c_string in *; rewrite Forall_app; auto|]. rewrite zlen_app. lia. }
  destruct (text_hash _ Et) as [E _]. rewrite <- app_assoc in E. exact E.
Qed.
Notation method_called := (ExportSpec.method_called db).
Lemma find_method : forall a ls h, a = map Ptr ls -> (forall l, In l ls -> V l) -> in_order a -> zlen ls <= 2 ^ 30 ->
  entries T a = Ok (map entry_of ls) /\ exists r, find_type (map entry_of ls) h = Ok r /\
    match r with
    | Ptr f => In f ls /\ hash_at db f = h
    | Int z => z = 0 /\ forall f, In f ls -> hash_at db f <> h
    end.
Proof.
  intros a ls h -> Hv Ho Hz. split; [apply entries_ok; exact Hv|]. unfold find_type.
  assert (Hs : sorted_by_hash (map entry_of ls)).
  { unfold sorted_by_hash, in_order in *. revert Ho. clear. induction ls as [|l ls IH]; intros H; cbn [map] in *; [constructor|]. inversion H; subst. constructor; [apply IH; assumption|].
    rewrite Forall_forall in *. intros e He. apply in_map_iff in He. destruct He as [x [<- Hx]]. apply (H3 (Ptr x)). apply in_map. exact Hx. }
  destruct (find_primitive_ok _ (map entry_of ls) h Hs) as [r [H1 H2]]; [unfold zlen in *; rewrite map_length; exact Hz|]. rewrite H1. cbn [obind].
  eexists. split; [reflexivity|]. destruct r as [e|].
  - destruct H2 as [H2 H3]. apply in_map_iff in H2. destruct H2 as [f [<- Hf]]. cbn [entry_of snd]. split; [exact Hf|exact H3].
  - split; [reflexivity|]. intros f Hf. apply (H2 (entry_of f)). apply in_map. exact Hf.
Qed.
Lemma str_ok : forall s, forallb (fun c => (0 <? c) && (c <? 256)) (str s) = true -> c_string (str s).
Proof. intros s H. unfold c_string. rewrite Forall_forall. intros x Hx. rewrite forallb_forall in H. apply H in Hx. lia. Qed.
Lemma ctor_str : c_string (str ctor_name) /\ zlen (str ctor_name) < 2 ^ 20.
Proof. split; [apply str_ok; vm_compute; reflexivity|vm_compute; reflexivity]. Qed.
Lemma dtor_str : c_string (str dtor_name) /\ zlen (str dtor_name) < 2 ^ 20.
Proof. split; [apply str_ok; vm_compute; reflexivity|vm_compute; reflexivity]. Qed.
Lemma class_ctors : forall arr, (forall l, In l (places db KClass) -> Permutation (arr (AMethods, l)) (map Ptr (children db AMethods l)) /\ in_order (arr (AMethods, l))) ->
  exists ctor dtor, each (find_constructors names T arr) (locs T KClass) (fun _ => Int 0, fun _ => Int 0) = Ok (ctor, dtor) /\
    (forall l, In l (places db KClass) -> method_called l ctor_name (ctor l) /\ method_called l dtor_name (dtor l)) /\
    (forall l, ~ In l (places db KClass) -> ctor l = Int 0 /\ dtor l = Int 0).
Proof.
  intros arr Harr. rewrite F_locs.
  destruct (each_inv _ _ (find_constructors names T arr) (fun done s =>
     (forall l, In l done -> method_called l ctor_name (fst s l) /\ method_called l dtor_name (snd s l)) /\
     (forall l, ~ In l done -> fst s l = Int 0 /\ snd s l = Int 0)) (places db KClass) (fun _ => Int 0, fun _ => Int 0)) as [[ctor dtor] [H1 [H2 H3]]].
  - split; [intros l []|auto].
  - intros done l [ctor dtor] [rest E] [I1 I2]. assert (Hl : In l (places db KClass)) by (rewrite E; apply in_or_app; right; left; reflexivity).
    pose proof (F_valid _ _ Hl) as Hv. unfold find_constructors. rewrite F_get by exact Hv. cbn [obind].
    destruct ctor_str as [C1 C2]. destruct dtor_str as [D1 D2].
    rewrite !method_hash_ok by assumption. cbn [obind]. destruct (Harr l Hl) as [P O].
    destruct (entries_perm _ _ P) as [ls [E1 E2]]; [intros c Hc; apply child_valid in Hc; tauto|].
    assert (Hvl : forall c, In c ls -> V c) by (intros c Hc; apply (Permutation_in c E2) in Hc; apply child_valid in Hc; tauto).
    assert (Hz : zlen ls <= 2 ^ 30) by (pose proof (children_small AMethods l); unfold zlen in *; rewrite (Permutation_length E2); assumption).
    destruct (find_method _ ls (hash32 (text_at db l ++ str ctor_name) 0) E1 Hvl O Hz) as [F0 [rc [F1 F2]]].
    destruct (find_method _ ls (hash32 (text_at db l ++ str dtor_name) 0) E1 Hvl O Hz) as [_ [rd [G1 G2]]].
    rewrite F0. cbn [obind]. rewrite F1. cbn [obind]. rewrite G1. cbn [obind].
    eexists. split; [reflexivity|]. cbn [fst snd].
    assert (Hm : forall s r, match r with Ptr f => In f ls /\ hash_at db f = hash32 (text_at db l ++ str s) 0 | Int z => z = 0 /\ forall f, In f ls -> hash_at db f <> hash32 (text_at db l ++ str s) 0 end -> method_called l s r).
    { intros s r Hr. destruct r as [z|f]; cbn [method_called].
      - destruct Hr as [-> Hr]. split; [reflexivity|]. intros f Hf. unfold called. apply Z.eqb_neq. apply Hr. apply (Permutation_in f (Permutation_sym E2)). exact Hf.
      - destruct Hr as [Hf He]. split; [apply (Permutation_in f E2); exact Hf|]. unfold called. apply Z.eqb_eq. exact He. }
    split.
    + intros x Hx. destruct (loc_eqb_spec l x) as [<-|Hne].
      * rewrite !upd_same. split; apply Hm; assumption.
      * rewrite !upd_other by exact Hne. apply I1. apply in_app_or in Hx. destruct Hx as [Hx|[Hx|[]]]; [exact Hx|congruence].
    + intros x Hx. assert (Hne : l <> x) by (intros ->; apply Hx; apply in_or_app; right; left; reflexivity).
      rewrite !upd_other by exact Hne. apply I2. intros Hin. apply Hx. apply in_or_app. left. exact Hin.
  - exists ctor, dtor. auto.
Qed.

Lemma m_insert_fold : forall A W (key : A -> Z) (val : A -> W) h l m, ssorted (keys m) ->
  ssorted (keys (fold_left (fun m e => m_insert (key e) (val e) m) l m)) /\
  m_find h (fold_left (fun m e => m_insert (key e) (val e) m) l m) = match m_find h m with Some w => Some w | None => option_map val (find (fun e => key e =? h) l) end.
Proof.
  intros A W key val h l. induction l as [|e l IH]; intros m Hs; cbn [fold_left find]; [split; [exact Hs|destruct (m_find h m); reflexivity]|].
  assert (Hs2 : ssorted (keys (m_insert (key e) (val e) m))) by (unfold m_insert; destruct (m_find (key e) m); [exact Hs|apply m_set_ssorted; exact Hs]).
  destruct (IH _ Hs2) as [I1 I2]. split; [exact I1|]. rewrite I2. unfold m_insert. destruct (m_find (key e) m) as [w|] eqn:E.
  - destruct (Z.eqb_spec (key e) h) as [<-|Hne]; [rewrite E; reflexivity|reflexivity].
  - rewrite m_find_set by exact Hs. destruct (Z.eqb_spec (key e) h) as [<-|Hne]; [rewrite E; reflexivity|reflexivity].
Qed.
Lemma function_map_find : forall h, m_find h (function_map (T KFunction)) = option_map snd (find (fun f => hash_at db f =? h) (places db KFunction)).
Proof.
  intros h. unfold function_map. destruct (m_insert_fold _ _ (fun p : nat * row => r_hash (snd p)) (fun p => fst p) h (combine (seq 0 (length (T KFunction))) (T KFunction)) [] I) as [_ ->].
  cbn [m_find]. assert (E : forall (l : list row) s, combine (seq s (length l)) l = map (fun j => (j, nth (j - s) l norow)) (seq s (length l))).
  { induction l as [|x l IH]; intros s; cbn [length seq combine map]; [reflexivity|]. rewrite Nat.sub_diag. cbn [nth]. f_equal. rewrite IH.
    apply map_ext_in. intros j Hj. apply in_seq in Hj. destruct (j - s)%nat eqn:E; [lia|]. replace (j - S s)%nat with n by lia. reflexivity. }
  rewrite E, find_map. unfold places. rewrite find_map, F_len. cbn [fst snd].
  rewrite (find_ext _ _ (fun j => hash_at db (KFunction, j) =? h)); [destruct (find _ _); reflexivity|].
  intros j Hj. apply in_seq in Hj. rewrite Nat.sub_0_r, <- row_or_nth, F_hash; [reflexivity|]. cbn [fst]. apply places_In. cbn [fst snd]. split; [reflexivity|lia].
Qed.
Notation tmethod := (ExportSpec.tmethod db).
Lemma template_ctors : forall ctor0 dtor0 par, (forall l, In l (places db KTemplateType) -> ctor0 l = Int 0 /\ dtor0 l = Int 0) ->
  exists ctor dtor par', each (template_constructors names T) (locs T KTemplateType) (ctor0, dtor0, par) = Ok (ctor, dtor, par') /\
    (forall l, In l (places db KTemplateType) -> ctor l = or_null (tmethod l ctor_name) /\ dtor l = or_null (tmethod l dtor_name)) /\
    (forall l, ~ In l (places db KTemplateType) -> ctor l = ctor0 l /\ dtor l = dtor0 l) /\
    (forall c, (par' c = par c /\ forall l, In l (places db KTemplateType) -> tmethod l ctor_name <> Some c /\ tmethod l dtor_name <> Some c) \/
               exists l, In l (places db KTemplateType) /\ par' c = Ptr l /\ (tmethod l ctor_name = Some c \/ tmethod l dtor_name = Some c)).
Proof.
  intros ctor0 dtor0 par H0. rewrite F_locs.
  destruct (each_inv _ _ (template_constructors names T) (fun done s =>
     (forall l, In l done -> fst (fst s) l = or_null (tmethod l ctor_name) /\ snd (fst s) l = or_null (tmethod l dtor_name)) /\
     (forall l, ~ In l done -> fst (fst s) l = ctor0 l /\ snd (fst s) l = dtor0 l) /\
     (forall c, (snd s c = par c /\ forall l, In l done -> tmethod l ctor_name <> Some c /\ tmethod l dtor_name <> Some c) \/
               exists l, In l done /\ snd s c = Ptr l /\ (tmethod l ctor_name = Some c \/ tmethod l dtor_name = Some c)))
     (places db KTemplateType) (ctor0, dtor0, par)) as [[[ctor dtor] par'] [H1 (H2 & H3 & H4)]].
  - split; [intros l []|]. split; [auto|]. intros c. left. split; [reflexivity|intros l []].
  - intros done l [[ctor dtor] par1] [rest E] (I1 & I2 & I3). cbn [fst snd] in *.
    assert (Hl : In l (places db KTemplateType)) by (rewrite E; apply in_or_app; right; left; reflexivity).
    assert (Hnd : ~ In l done).
    { pose proof (places_NoDup db KTemplateType) as Hn. rewrite E in Hn. apply NoDup_remove in Hn. destruct Hn as [_ Hn]. intros Hin. apply Hn. apply in_or_app. tauto. }
    pose proof (F_valid _ _ Hl) as Hv. unfold template_constructors. rewrite F_get by exact Hv. cbn [obind].
    destruct ctor_str as [C1 C2]. destruct dtor_str as [D1 D2].
    rewrite !method_hash_ok by assumption. cbn [obind]. rewrite !function_map_find.
    change (find (fun f => hash_at db f =? hash32 (text_at db l ++ str ctor_name) 0) (places db KFunction)) with (tmethod l ctor_name).
    change (find (fun f => hash_at db f =? hash32 (text_at db l ++ str dtor_name) 0) (places db KFunction)) with (tmethod l dtor_name).
    destruct (H0 l Hl) as [Z1 Z2]. destruct (I2 l Hnd) as [Y1 Y2].
    assert (Hfn : forall s f, tmethod l s = Some f -> (KFunction, snd f) = f).
    { intros s f Hf. apply find_some in Hf. destruct Hf as [Hf _]. apply places_In in Hf. destruct f as [k j]. cbn in *. destruct Hf as [<- _]. reflexivity. }
    assert (Hin : forall x, In x (done ++ [l]) -> In x done \/ x = l) by (intros x Hx; apply in_app_or in Hx; destruct Hx as [Hx|[Hx|[]]]; auto).
    assert (Hfin : forall (ctor1 dtor1 : loc -> ref) (par2 : loc -> ref),
       ctor1 l = or_null (tmethod l ctor_name) -> dtor1 l = or_null (tmethod l dtor_name) ->
       (forall x, x <> l -> ctor1 x = ctor x /\ dtor1 x = dtor x) ->
       (forall c, (par2 c = par1 c /\ tmethod l ctor_name <> Some c /\ tmethod l dtor_name <> Some c) \/ (par2 c = Ptr l /\ (tmethod l ctor_name = Some c \/ tmethod l dtor_name = Some c))) ->
       (forall x, In x (done ++ [l]) -> ctor1 x = or_null (tmethod x ctor_name) /\ dtor1 x = or_null (tmethod x dtor_name)) /\
       (forall x, ~ In x (done ++ [l]) -> ctor1 x = ctor0 x /\ dtor1 x = dtor0 x) /\
       (forall c, (par2 c = par c /\ forall x, In x (done ++ [l]) -> tmethod x ctor_name <> Some c /\ tmethod x dtor_name <> Some c) \/
               exists x, In x (done ++ [l]) /\ par2 c = Ptr x /\ (tmethod x ctor_name = Some c \/ tmethod x dtor_name = Some c))).
    { intros ctor1 dtor1 par2 A1 A2 A3 A4. split; [|split].
      - intros x Hx. destruct (loc_eqb_spec x l) as [->|Hne]; [auto|]. destruct (A3 x Hne) as [-> ->]. apply I1. destruct (Hin x Hx); [assumption|congruence].
      - intros x Hx. assert (x <> l) by (intros ->; apply Hx; apply in_or_app; right; left; reflexivity). destruct (A3 x H) as [-> ->]. apply I2. intros Hd. apply Hx. apply in_or_app. left. exact Hd.
      - intros c. destruct (A4 c) as [(B1 & B2 & B3)|[B1 B2]].
        + destruct (I3 c) as [[J1 J2]|[x (J1 & J2 & J3)]].
          * left. split; [congruence|]. intros x Hx. destruct (Hin x Hx) as [Hd| -> ]; [apply J2; exact Hd|auto].
          * right. exists x. split; [apply in_or_app; left; exact J1|]. split; [congruence|exact J3].
        + right. exists l. split; [apply in_or_app; right; left; reflexivity|]. auto. }
    destruct (tmethod l ctor_name) as [f|] eqn:Ef; destruct (tmethod l dtor_name) as [g|] eqn:Eg; cbn [option_map];
      try (rewrite (Hfn _ _ Ef)); try (rewrite (Hfn _ _ Eg)); (eexists; split; [reflexivity|]; cbn [fst snd]; apply Hfin); cbn [or_null];
      try (rewrite upd_same; reflexivity); try congruence;
      try (intros x Hx; rewrite ?upd_other by congruence; split; reflexivity).
    + intros c. destruct (loc_eqb_spec g c) as [<-|Hg]; [rewrite upd_same; right; auto|]. rewrite (upd_other _ _ g) by exact Hg.
      destruct (loc_eqb_spec f c) as [<-|Hf]; [rewrite upd_same; right; auto|]. rewrite upd_other by exact Hf. left. split; [reflexivity|split; congruence].
    + intros c. destruct (loc_eqb_spec f c) as [<-|Hf]; [rewrite upd_same; right; auto|]. rewrite upd_other by exact Hf. left. split; [reflexivity|split; congruence].
    + intros c. destruct (loc_eqb_spec g c) as [<-|Hg]; [rewrite upd_same; right; auto|]. rewrite (upd_other _ _ g) by exact Hg. left. split; [reflexivity|split; congruence].
    + intros c. left. split; [reflexivity|split; congruence].
  - exists ctor, dtor, par'. auto.
Qed.
End Rest.
