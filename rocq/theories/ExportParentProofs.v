(* All the parenting passes. *)
From Verif Require Import Base BaseProofs Text HashModel HashSpec HashProofs SearchModel Maps DatabaseModel NamesProofs MergeSpec ExportModel ExportSpec ExportProofs.
From Coq Require Import Sorted Permutation.

(* the candidate owners the passes try, in order, and the children a cell collects *)
Definition kinds_for (ps : list pass) (k : kind) : list kind :=
  map ps_parent (filter (fun p => existsb (kind_eqb k) (ps_children p)) ps).
Definition kids (ps : list pass) (a : ak) (pk : kind) : list kind :=
  flat_map ps_children (filter (fun p => kind_eqb (ps_parent p) pk && ak_eqb (ps_array p) a) ps).
Lemma kinds_for_app : forall ps ps' k, kinds_for (ps ++ ps') k = kinds_for ps k ++ kinds_for ps' k.
Proof. intros. unfold kinds_for. rewrite filter_app, map_app. reflexivity. Qed.
Lemma kids_app : forall ps ps' a k, kids (ps ++ ps') a k = kids ps a k ++ kids ps' a k.
Proof. intros. unfold kids. rewrite filter_app, flat_map_app. reflexivity. Qed.
(* a pass may follow others: no child kind has met this parent kind, the array is new *)
Fixpoint nodup_kinds (ks : list kind) : bool :=
  match ks with [] => true | k :: r => negb (existsb (kind_eqb k) r) && nodup_kinds r end.
Definition fits (pre : list pass) (p : pass) : bool :=
  forallb (fun k => negb (existsb (kind_eqb (ps_parent p)) (kinds_for pre k))) (ps_children p) &&
  (length (kids pre (ps_array p) (ps_parent p)) =? 0)%nat && nodup_kinds (ps_children p).
Fixpoint all_fit (pre ps : list pass) : bool :=
  match ps with [] => true | p :: r => fits pre p && all_fit (pre ++ [p]) r end.

Lemma existsb_kind : forall k ks, existsb (kind_eqb k) ks = true <-> In k ks.
Proof.
  intros k ks. rewrite existsb_exists. split.
  - intros [x [H E]]. destruct (kind_eqb_spec k x); [subst; exact H|discriminate].
  - intros H. exists k. split; [exact H|apply kind_eqb_refl].
Qed.
Lemma nodup_kinds_ok : forall ks, nodup_kinds ks = true -> NoDup ks.
Proof.
  induction ks as [|k ks IH]; intros H; [constructor|]. cbn [nodup_kinds] in H. apply andb_true_iff in H. destruct H as [H1 H2].
  constructor; [|apply IH; exact H2]. intros Hin. apply existsb_kind in Hin. rewrite Hin in H1. discriminate.
Qed.
Lemma kinds_for_in : forall ps k pk, In pk (kinds_for ps k) <-> exists p, In p ps /\ ps_parent p = pk /\ In k (ps_children p).
Proof.
  intros. unfold kinds_for. rewrite in_map_iff. split.
  - intros [p [E H]]. apply filter_In in H. destruct H as [H1 H2]. apply existsb_kind in H2. eauto.
  - intros [p (H1 & H2 & H3)]. exists p. split; [exact H2|]. apply filter_In. split; [exact H1|]. apply existsb_kind. exact H3.
Qed.
Lemma kids_in : forall ps a pk k, In k (kids ps a pk) -> In pk (kinds_for ps k).
Proof.
  intros ps a pk k H. unfold kids in H. apply in_flat_map in H. destruct H as [p [H1 H2]]. apply filter_In in H1. destruct H1 as [H1 H3].
  apply andb_true_iff in H3. destruct H3 as [H3 _]. destruct (kind_eqb_spec (ps_parent p) pk); [|discriminate]. apply kinds_for_in. eauto.
Qed.
Lemma filter_true : forall A (f : A -> bool) l, (forall x, In x l -> f x = true) -> filter f l = l.
Proof.
  induction l as [|a l IH]; intros H; cbn [filter]; [reflexivity|]. rewrite (H a) by (left; reflexivity). f_equal. apply IH. intros; apply H; right; assumption.
Qed.

(* ---- facts about owners ---- *)
Lemma owner_in_valid : forall db key k c o, owner_in db key k c = Some o -> In o (places db k).
Proof. intros db key k c o H. apply find_some in H. tauto. Qed.
Lemma first_owner_valid : forall db key ks c o, first_owner db key ks c = Some o -> In (fst o) ks /\ In o (places db (fst o)).
Proof.
  intros db key ks c o. induction ks as [|k ks IH]; intros H; cbn [first_owner] in H; [discriminate|].
  destruct (owner_in db key k c) as [x|] eqn:E.
  - injection H as <-. apply owner_in_valid in E. pose proof E as E2. apply places_In in E2. destruct E2 as [E2 _]. rewrite E2. split; [left; reflexivity|exact E].
  - destruct (IH H) as [H1 H2]. split; [right; exact H1|exact H2].
Qed.
Lemma first_owner_app : forall db key ks ks' c, first_owner db key (ks ++ ks') c =
  match first_owner db key ks c with Some o => Some o | None => first_owner db key ks' c end.
Proof. induction ks as [|k ks IH]; intros; cbn [first_owner app]; [reflexivity|]. destruct (owner_in db key k c); auto. Qed.
Lemma first_owner_ext : forall db key key' ks c, (forall o, In (fst o) ks -> key o = key' o) ->
  first_owner db key ks c = first_owner db key' ks c.
Proof.
  intros db key key' ks c. induction ks as [|k ks IH]; intros H; cbn [first_owner]; [reflexivity|].
  assert (E : owner_in db key k c = owner_in db key' k c).
  { unfold owner_in. apply find_ext. intros o Ho. apply places_In in Ho. destruct Ho as [Ho _]. rewrite (H o) by (left; congruence). reflexivity. }
  rewrite E. destruct (owner_in db key' k c); [reflexivity|]. apply IH. intros o Ho. apply H. right. exact Ho.
Qed.

Section All.
Variables (L : layout) (db : database) (T : table).
Notation key := (known_as db).
Hypothesis Hlen : forall k, length (T k) = length (items db k).
Hypothesis Hhash : forall l, In l (places db (fst l)) -> r_hash (row_or T l) = hash_at db l.
Hypothesis Hparent : forall l, In l (places db (fst l)) -> r_parent (row_or T l) = parent_at db l.
Hypothesis Huid : forall l, In l (places db (fst l)) -> r_uid (row_or T l) = uid_at db l.
Hypothesis Hpr : forall l, 0 <= parent_at db l < 2 ^ 32.
Hypothesis Hsmall : zlen (flat_map (places db) all_kinds) <= 2 ^ 30.
Hypothesis Haddr : forall l, In l (places db (fst l)) -> 2 ^ 32 <= lay_addr L l /\ forall o, In o (places db (fst o)) -> u32 (lay_addr L l) <> key o.

Lemma locs_places : forall k, locs T k = places db k.
Proof. intros k. unfold locs, places. rewrite Hlen. reflexivity. Qed.
Lemma flat_places : forall ks, flat_map (locs T) ks = flat_map (places db) ks.
Proof. induction ks as [|k ks IH]; cbn [flat_map]; [reflexivity|]. rewrite locs_places, IH. reflexivity. Qed.
Lemma valid_kind : forall k l, In l (places db k) -> In l (places db (fst l)).
Proof. intros k l H. pose proof H as H2. apply places_In in H2. destruct H2 as [-> _]. exact H. Qed.
Lemma valid_flat : forall ks l, In l (flat_map (places db) ks) -> In l (places db (fst l)) /\ In (fst l) ks.
Proof. intros ks l H. apply in_flat_map in H. destruct H as [k [H1 H2]]. pose proof H2 as H3. apply places_In in H3. destruct H3 as [-> _]. auto. Qed.

Lemma nodup_incl_len : forall (ks : list kind), NoDup ks -> zlen (flat_map (places db) ks) <= 2 ^ 30.
Proof.
  intros ks Hk. assert (H : (length (flat_map (places db) ks) <= length (flat_map (places db) all_kinds))%nat).
  { apply NoDup_incl_length.
    - apply NoDup_flat_places; [intros k l H; apply places_In in H; tauto|apply places_NoDup|exact Hk].
    - intros l H. apply in_flat_map in H. destruct H as [k [H1 H2]]. apply in_flat_map. exists k. split; [|exact H2].
      destruct k; cbn; tauto. }
  unfold zlen in *. lia.
Qed.

(* a plain parent hash leads to the owner the specification gives *)
Lemma target_int : forall pk c (par : loc -> ref), In c (places db (fst c)) -> par c = Int (parent_at db c) ->
  target L T pk (fun j => key (pk, j)) par c = option_map snd (owner_in db key pk c).
Proof.
  intros pk c par Hc Hp. unfold target, owner_in, places. rewrite find_map. rewrite Hlen.
  assert (E : forall j, In j (seq 0 (length (items db pk))) ->
     (key (pk, j) =? to_hash L (par c)) && matches T pk j c = (key (pk, j) =? parent_at db c) && right_overload db (pk, j) c).
  { intros j Hj. apply in_seq in Hj. rewrite Hp. unfold to_hash, as_int, u32. rewrite Z.mod_small by apply Hpr.
    f_equal. unfold matches, right_overload. cbn [fst].
    assert (Hv : In (pk, j) (places db pk)) by (apply places_In; cbn [fst snd]; split; [reflexivity|lia]).
    destruct pk; try reflexivity. destruct (fst c) eqn:Ek; try reflexivity.
    pose proof (Huid (KFunction, j) Hv) as U1. pose proof (Huid c ltac:(rewrite Ek; exact Hc)) as U2.
    unfold row_or in U1, U2. cbn [fst snd] in U1. rewrite Ek in U2.
    destruct (nth_error (T KFunction) j) eqn:N1; [|apply nth_error_None in N1; rewrite Hlen in N1; lia].
    destruct (nth_error (T KField) (snd c)) eqn:N2; [|apply nth_error_None in N2; rewrite Hlen in N2; apply places_In in Hc; lia].
    rewrite U1, U2. reflexivity. }
  rewrite (find_ext _ _ _ _ E). destruct (find _ (seq 0 _)); reflexivity.
Qed.
(* an address leads nowhere *)
Lemma target_ptr : forall pk c (par : loc -> ref) l, In l (places db (fst l)) -> par c = Ptr l -> target L T pk (fun j => key (pk, j)) par c = None.
Proof.
  intros pk c par l Hl Hp. unfold target. destruct (find _ _) as [j|] eqn:E; [|reflexivity]. exfalso.
  apply find_some in E. destruct E as [E1 E2]. apply in_seq in E1. apply andb_true_iff in E2. destruct E2 as [E2 _]. rewrite Hp in E2.
  unfold to_hash, as_int in E2. apply Z.eqb_eq in E2. destruct (Haddr l Hl) as [_ H]. apply (H (pk, j)); [|symmetry; exact E2].
  cbn [fst]. apply places_In. cbn [fst snd]. rewrite <- Hlen. split; [reflexivity|lia].
Qed.

Definition holds (r : ref) (l : loc) : bool := match r with Ptr x => loc_eqb x l | Int _ => false end.
Lemma holds_spec : forall r l, holds r l = true <-> r = Ptr l.
Proof. intros r l. destruct r as [z|x]; cbn [holds]; [split; discriminate|]. destruct (loc_eqb_spec x l); split; congruence. Qed.
Definition par_of (ps : list pass) (c : loc) : ref :=
  match first_owner db key (kinds_for ps (fst c)) c with Some o => Ptr o | None => Int (parent_at db c) end.
Definition state_ok (ps : list pass) (s : (loc -> ref) * (cell -> list ref)) : Prop :=
  (forall c, In c (places db (fst c)) -> fst s c = par_of ps c) /\
  (forall a o, snd s (a, o) = map Ptr (filter (fun c => holds (par_of ps c) o) (flat_map (places db) (kids ps a (fst o))))).

Lemma par_of_snoc : forall ps p c,
  par_of (ps ++ [p]) c = match par_of ps c with
                         | Ptr o => Ptr o
                         | Int _ => if existsb (kind_eqb (fst c)) (ps_children p)
                                    then match owner_in db key (ps_parent p) c with Some o => Ptr o | None => Int (parent_at db c) end
                                    else Int (parent_at db c)
                         end.
Proof.
  intros ps p c. unfold par_of. rewrite kinds_for_app, first_owner_app. destruct (first_owner db key (kinds_for ps (fst c)) c); [reflexivity|].
  unfold kinds_for. cbn [filter]. destruct (existsb (kind_eqb (fst c)) (ps_children p)); cbn [map first_owner]; [|reflexivity].
  destruct (owner_in db key (ps_parent p) c); reflexivity.
Qed.

Lemma pass_step : forall ps p pm s, fits ps p = true -> state_ok ps s ->
  (forall h, m_range h pm = filter (fun j => key (ps_parent p, j) =? h) (seq 0 (length (T (ps_parent p))))) ->
  exists s', Parent L T pm p s = Ok s' /\ state_ok (ps ++ [p]) s'.
Proof.
  intros ps [pk a cks] pm [par arr] Hf [S1 S2] Hpm. unfold fits in Hf. cbn [ps_parent ps_array ps_children fst snd] in *.
  apply andb_true_iff in Hf. destruct Hf as [Hf Hnd]. apply andb_true_iff in Hf. destruct Hf as [Hf1 Hf2].
  rewrite forallb_forall in Hf1. apply Nat.eqb_eq in Hf2. apply length_zero_iff_nil in Hf2. apply nodup_kinds_ok in Hnd.
  assert (Hfresh : forall k, In k cks -> ~ In pk (kinds_for ps k)).
  { intros k Hk Hin. specialize (Hf1 k Hk). apply existsb_kind in Hin. rewrite Hin in Hf1. discriminate. }
  unfold Parent. cbn [ps_children ps_parent ps_array]. rewrite flat_places. set (cs := flat_map (places db) cks).
  assert (Hcs : NoDup cs) by (apply NoDup_flat_places; [intros k l H; apply places_In in H; tauto|apply places_NoDup|exact Hnd]).
  assert (Hcl : zlen cs <= 2 ^ 30) by (apply nodup_incl_len; exact Hnd).
  assert (Hv : forall c, In c cs -> In c (places db (fst c)) /\ In (fst c) cks) by (intros c; apply valid_flat).
  set (kf := fun j => key (pk, j)).
  destruct (assign_all L T pk pm kf Hpm cs par Hcs) as (par' & cnt & A1 & A2 & A3 & A4).
  rewrite A1. cbn [obind fst snd].
  assert (Hpo : forall c, In c cs -> par c = par_of ps c) by (intros c Hc; apply S1; apply Hv; exact Hc).
  assert (Htg : forall c, In c cs -> target L T pk kf par c = match par_of ps c with Ptr _ => None | Int _ => option_map snd (owner_in db key pk c) end).
  { intros c Hc. pose proof (Hpo c Hc) as E. destruct (Hv c Hc) as [Hvc _]. unfold par_of in *. destruct (first_owner db key (kinds_for ps (fst c)) c) as [o|] eqn:Eo.
    - apply (target_ptr pk c par o); [|exact E]. apply first_owner_valid in Eo. tauto.
    - apply target_int; [exact Hvc|exact E]. }
  assert (Hnew : forall c, In c cs -> par' c = par_of (ps ++ [mk_pass pk a cks]) c).
  { intros c Hc. rewrite A2 by exact Hc. unfold new_parent. rewrite (Htg c Hc), par_of_snoc, (Hpo c Hc). cbn [ps_children ps_parent].
    destruct (Hv c Hc) as [_ Hk]. apply existsb_kind in Hk. rewrite Hk. unfold par_of. destruct (first_owner db key (kinds_for ps (fst c)) c) as [o|] eqn:Eo; [reflexivity|].
    destruct (owner_in db key pk c) as [[k j]|] eqn:E2; cbn [option_map snd]; [|reflexivity].
    apply owner_in_valid in E2. apply places_In in E2. cbn in E2. destruct E2 as [-> _]. reflexivity. }
  destruct (fill_all L T pk pm kf Hpm) with (a := a) (cs := cs) (par := par) (par' := par') (arr0 := arr) (cnt := cnt) as (arr' & F1 & F2 & F3).
  - intros i Hi. apply (Haddr (pk, i)). cbn [fst]. apply places_In. cbn [fst snd]. rewrite <- Hlen. auto.
  - exact Hcs.
  - lia.
  - exact A4.
  - exact A2.
  - intros c Hc Ht. rewrite (Hpo c Hc). unfold par_of. destruct (first_owner db key (kinds_for ps (fst c)) c) as [[k j]|] eqn:Eo.
    + intros ->. apply first_owner_valid in Eo. cbn [fst] in Eo. apply (Hfresh (fst c)); [apply Hv; exact Hc|tauto].
    + apply Hpr.
  - rewrite F1. cbn [obind fst snd]. eexists. split; [reflexivity|]. split; cbn [fst snd].
    + intros c Hc. destruct (existsb (kind_eqb (fst c)) cks) eqn:Ek.
      * apply Hnew. apply existsb_kind in Ek. apply in_flat_map. exists (fst c). auto.
      * rewrite A3.
        -- rewrite (S1 c Hc), par_of_snoc. cbn [ps_children]. rewrite Ek. unfold par_of. destruct (first_owner _ _ _ _); reflexivity.
        -- intros H. apply Hv in H. destruct H as [_ H]. apply existsb_kind in H. congruence.
    + intros a' [k' j']. rewrite kids_app. unfold kids at 2. cbn [filter ps_parent ps_array fst].
      destruct (kind_eqb_spec pk k') as [<-|Hk]; [destruct (ak_eqb_spec a a') as [<-|Ha]|]; cbn [andb flat_map ps_children].
      * (* the cells of this pass *)
        rewrite app_nil_r, Hf2. cbn [app]. fold cs. rewrite F3.
        assert (Hold : arr (a, (pk, j')) = []) by (rewrite S2; cbn [fst]; rewrite Hf2; reflexivity).
        assert (Hflt : filter (is_target L T pk kf par j') cs = filter (fun c => holds (par_of (ps ++ [mk_pass pk a cks]) c) (pk, j')) cs).
        { apply filter_ext_in2. intros c Hc. rewrite <- (Hnew c Hc). rewrite A2 by exact Hc. unfold is_target, new_parent.
          destruct (target L T pk kf par c) as [j|] eqn:Et.
          - cbn [holds]. unfold loc_eqb. cbn [fst snd]. rewrite kind_eqb_refl. reflexivity.
          - rewrite (Hpo c Hc). unfold par_of. destruct (first_owner db key (kinds_for ps (fst c)) c) as [[k j]|] eqn:Eo; [|reflexivity].
            cbn [holds]. unfold loc_eqb. cbn [fst snd]. destruct (kind_eqb_spec k pk) as [->|]; [|reflexivity].
            exfalso. apply first_owner_valid in Eo. cbn [fst] in Eo. apply (Hfresh (fst c)); [apply Hv; exact Hc|tauto]. }
        rewrite Hflt, Hold. clear. match goal with |- match ?x with [] => _ | _ => _ end = _ => destruct x end; reflexivity.
      * rewrite app_nil_r. rewrite F2 by (left; cbn; congruence). rewrite S2. cbn [fst]. f_equal. apply filter_ext_in2. intros c Hc.
        apply valid_flat in Hc. destruct Hc as [Hc Hck]. rewrite par_of_snoc. destruct (par_of ps c) as [z|o] eqn:Ep; [|reflexivity]. cbn [holds ps_children ps_parent].
        destruct (existsb (kind_eqb (fst c)) cks) eqn:Ek; [|reflexivity]. exfalso. apply existsb_kind in Ek. apply kids_in in Hck. apply (Hfresh (fst c)); assumption.
      * rewrite app_nil_r. rewrite F2 by (right; cbn; congruence). rewrite S2. cbn [fst]. f_equal. apply filter_ext_in2. intros c Hc.
        rewrite par_of_snoc. destruct (par_of ps c) as [z|o] eqn:Ep; [|reflexivity]. cbn [holds ps_children ps_parent].
        destruct (existsb (kind_eqb (fst c)) cks) eqn:Ek; [|reflexivity]. destruct (owner_in db key pk c) as [o|] eqn:Eo; [|reflexivity].
        apply owner_in_valid in Eo. apply places_In in Eo. destruct Eo as [Eo _]. cbn [holds]. destruct (loc_eqb_spec o (k', j')) as [->|]; [|reflexivity].
        cbn in Eo. congruence.
Qed.

Lemma passes_ok : forall fm ps pre s, all_fit pre ps = true -> state_ok pre s ->
  (forall p h, In p ps -> m_range h (map_for T fm p) = filter (fun j => key (ps_parent p, j) =? h) (seq 0 (length (T (ps_parent p))))) ->
  exists s', ParentAll L T fm ps s = Ok s' /\ state_ok (pre ++ ps) s'.
Proof.
  induction ps as [|p ps IH]; intros pre s Hf Hs Hm; unfold ParentAll; cbn [each].
  - exists s. rewrite app_nil_r. auto.
  - cbn [all_fit] in Hf. apply andb_true_iff in Hf. destruct Hf as [Hf1 Hf2].
    destruct (pass_step pre p (map_for T fm p) s Hf1 Hs) as [s1 [H1 H2]]; [intros h; apply Hm; left; reflexivity|].
    rewrite H1. cbn [obind]. destruct (IH (pre ++ [p]) s1 Hf2 H2) as [s2 [H3 H4]]; [intros; apply Hm; right; assumption|].
    exists s2. split; [exact H3|]. rewrite <- app_assoc in H4. exact H4.
Qed.

Lemma map_for_plain : forall fm p h, ps_parent p <> KField ->
  m_range h (map_for T fm p) = filter (fun j => key (ps_parent p, j) =? h) (seq 0 (length (T (ps_parent p)))).
Proof.
  intros fm [pk a cks] h Hne. unfold map_for. cbn [ps_parent] in *.
  assert (E : m_range h (ParentMap (T pk)) = filter (fun j => key (pk, j) =? h) (seq 0 (length (T pk)))).
  { rewrite ParentMap_range. apply filter_ext_in2. intros j Hj. apply in_seq in Hj. rewrite (Hhash (pk, j)).
    - unfold known_as. cbn [fst]. destruct pk; try reflexivity. congruence.
    - cbn [fst]. apply places_In. cbn [fst snd]. rewrite <- Hlen. split; [reflexivity|lia]. }
  destruct pk; try exact E. congruence.
Qed.

(* the field map *)
Variable names : list Z.
Hypothesis Htext : forall l, In l (places db (fst l)) -> text_of names (row_or T l) = Ok (text_at db l).
Hypothesis Htok : forall l, In l (places db (fst l)) -> c_string (text_at db l) /\ zlen (text_at db l) < 2 ^ 28.
Hypothesis Howned : fields_owned db.

Lemma field_owner_eq : forall l, fst l = KField -> owner db l = first_owner db (hash_at db) [KFunction; KClass] l.
Proof.
  intros l Hl. unfold owner. rewrite Hl. cbn [owner_kinds]. apply first_owner_ext. intros [k j] Ho. cbn [fst] in Ho.
  unfold known_as. cbn [fst]. destruct Ho as [<-|[<-|[]]]; reflexivity.
Qed.
Lemma field_key_ok : forall par i, In (KField, i) (places db KField) -> par (KField, i) = par_of passes (KField, i) ->
  field_key names T par i = Ok (key (KField, i)).
Proof.
  intros par i Hi Hp. unfold field_key. rewrite Hp. unfold par_of. change (kinds_for passes (fst (KField, i))) with (owner_kinds KField).
  change (first_owner db key (owner_kinds KField) (KField, i)) with (owner db (KField, i)).
  pose proof (Howned _ Hi) as Ho. pose proof (field_owner_eq (KField, i) eq_refl) as Hfo.
  change (known_as db (KField, i)) with (match first_owner db (hash_at db) [KFunction; KClass] (KField, i) with
     Some o => hash32 (text_at db o ++ str "::" ++ text_at db (KField, i)) 0 | None => 0 end). rewrite <- Hfo.
  destruct (owner db (KField, i)) as [o|] eqn:Eo; [|congruence].
  unfold owner in Eo. apply first_owner_valid in Eo. destruct Eo as [_ Hvo].
  unfold deref. cbn [loc_of obind]. rewrite (get_row_locs T (fst o)) by (rewrite locs_places; exact Hvo). cbn [obind].
  rewrite (Htext o Hvo). cbn [obind]. rewrite (get_row_locs T KField) by (rewrite locs_places; exact Hi). cbn [obind].
  rewrite (Htext (KField, i) Hi). cbn [obind].
  destruct (Htok o Hvo) as [C1 C2]. destruct (Htok (KField, i) Hi) as [C3 C4].
  assert (Et : text_ok (text_at db o ++ str "::" ++ text_at db (KField, i))).
  { split.
    - unfold c_string in *. rewrite !Forall_app. split; [exact C1|]. split; [|exact C3]. repeat constructor; lia.
    - rewrite !zlen_app. change (zlen (str "::")) with 2. lia. }
  destruct (text_hash _ Et) as [E _]. rewrite <- E. f_equal. rewrite <- !app_assoc. reflexivity.
Qed.
Lemma field_map_ok : forall par, (forall l, In l (places db (fst l)) -> par l = par_of passes l) ->
  exists fm, FieldParentMap names T par = Ok fm /\
    forall h, m_range h fm = filter (fun j => key (KField, j) =? h) (seq 0 (length (T KField))).
Proof.
  intros par Hp. unfold FieldParentMap.
  destruct (each_inv _ _ (fun i m => do h <- field_key names T par i; Ok (mm_insert h i m))
    (fun done m => sorted (keys m) /\ forall h, m_range h m = filter (fun j => key (KField, j) =? h) done) (seq 0 (length (T KField))) []) as [fm [H1 [H2 H3]]].
  - split; [exact I|]. reflexivity.
  - intros done i m [rest E] [I1 I2]. assert (Hi : In i (seq 0 (length (T KField)))) by (rewrite E; apply in_or_app; right; left; reflexivity).
    apply in_seq in Hi. assert (Hv : In (KField, i) (places db KField)) by (apply places_In; cbn [fst snd]; rewrite <- Hlen; split; [reflexivity|lia]).
    rewrite (field_key_ok par i Hv (Hp (KField, i) Hv)). cbn [obind]. eexists. split; [reflexivity|]. split; [apply mm_insert_sorted; exact I1|].
    intros h. rewrite m_range_insert by exact I1. rewrite I2, filter_app. cbn [filter]. destruct (key (KField, i) =? h); [reflexivity|rewrite app_nil_r; reflexivity].
  - exists fm. auto.
Qed.

(* the cells as the specification describes them *)
Lemma kids_all : forall a k, kids (passes ++ attr_passes) a k = filter (fun c => match array_for k c with Some b => ak_eqb a b | None => false end) all_kinds.
Proof. intros a k. destruct a, k; reflexivity. Qed.
Lemma kinds_all : forall k, kinds_for (passes ++ attr_passes) k = owner_kinds k.
Proof. intros k. destruct k; reflexivity. Qed.
Lemma cells_children : forall a o,
  filter (fun c => holds (par_of (passes ++ attr_passes) c) o) (flat_map (places db) (kids (passes ++ attr_passes) a (fst o))) = children db a o.
Proof.
  intros a o. rewrite kids_all. unfold children.
  generalize all_kinds as ks. induction ks as [|k ks IH]; cbn [filter flat_map]; [reflexivity|]. rewrite filter_app, <- IH.
  assert (E : forall c, In c (places db k) -> holds (par_of (passes ++ attr_passes) c) o = owned_by db o c /\
     lists a o c = match array_for (fst o) k with Some b => ak_eqb a b | None => false end).
  { intros c Hc. apply places_In in Hc. destruct Hc as [Hc _]. unfold lists. rewrite Hc. split; [|reflexivity].
    unfold par_of, owned_by, owner. rewrite kinds_all. destruct (first_owner _ _ _ _); reflexivity. }
  destruct (match array_for (fst o) k with Some b => ak_eqb a b | None => false end).
  - cbn [flat_map]. rewrite filter_app. f_equal. apply filter_ext_in2. intros c Hc. destruct (E c Hc) as [E1 E2]. rewrite E1, E2, andb_true_r. reflexivity.
  - replace (filter (fun c => owned_by db o c && lists a o c) (places db k)) with (@nil loc); [reflexivity|].
    symmetry. apply filter_none. intros c Hc. destruct (E c Hc) as [_ E2]. rewrite E2, andb_false_r. reflexivity.
Qed.

Lemma parenting : forall par0, (forall l, In l (places db (fst l)) -> par0 l = Int (parent_at db l)) ->
  exists s1 fm par arr, ParentAll L T [] passes (par0, fun _ => []) = Ok s1 /\
    FieldParentMap names T (fst s1) = Ok fm /\ ParentAll L T fm attr_passes s1 = Ok (par, arr) /\
    (forall h, m_range h fm = filter (fun j => key (KField, j) =? h) (seq 0 (length (T KField)))) /\
    (forall c, In c (places db (fst c)) -> par c = match owner db c with Some o => Ptr o | None => Int (parent_at db c) end) /\
    (forall a o, arr (a, o) = map Ptr (children db a o)).
Proof.
  intros par0 H0. destruct (passes_ok [] passes [] (par0, fun _ => [])) as [s1 [P1 P2]].
  - reflexivity.
  - split; cbn [fst snd]; [exact H0|]. reflexivity.
  - intros p h Hp. apply map_for_plain. repeat (destruct Hp as [<-|Hp]; [cbn; discriminate|]). contradiction.
  - cbn [app] in P2. destruct (field_map_ok (fst s1) (proj1 P2)) as [fm [F1 F2]].
    destruct (passes_ok fm attr_passes passes s1) as [[par arr] [P3 [P4 P5]]].
    + reflexivity.
    + exact P2.
    + intros p h Hp. destruct (kind_eqb_spec (ps_parent p) KField) as [E|E]; [|apply map_for_plain; exact E].
      unfold map_for. rewrite E. apply F2.
    + exists s1, fm, par, arr. split; [exact P1|]. split; [exact F1|]. split; [exact P3|]. split; [exact F2|]. cbn [fst snd] in *. split.
      * intros c Hc. rewrite (P4 c Hc). unfold par_of, owner. rewrite kinds_all. reflexivity.
      * intros a o. rewrite P5. rewrite cells_children. reflexivity.
Qed.
End All.
