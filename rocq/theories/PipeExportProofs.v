(* Merged scans meet what the export asks for. *)
From Verif Require Import Base BaseProofs Text HashModel HashSpec Maps DatabaseModel AttrModel NamesProofs MergeModel MergeSpec MergeProofs BinarySpec ScanModel
  PipeInvProofs PipeSpec PipeFileProofs PipeMergeProofs PipeScanProofs ExportModel ExportSpec ExportProofs ExportParentProofs.
From Verif Require ScanSpec ScanProps ScanGroupProofs.
From Coq Require Import Sorted Permutation.
Import ListNotations.
Local Open Scope list_scope.
Local Open Scope Z_scope.

(* ---- members of classes have a class ---- *)
Lemma walked_in : forall sf E asked tu al p ly d, (forall x, In x tu -> unions_in_classes false x = true) ->
  ScanSpec.reached sf E asked tu al p ly d -> unions_in_classes ly d = true.
Proof.
  intros sf E asked tu al p ly d Htu H.
  induction H as [d Hd Hl|al p ly h l al' c Hr IH Ht Hc|al p ly h r l al' bs c Hr IH Ht Hd Hv Hb Hc|al p ly h r l al' c Hr IH Ht Hd Hf Ha Hc]; [exact (Htu d Hd)| | | ].
  - cbn [unions_in_classes] in IH. rewrite forallb_forall in IH. exact (IH c Hc).
  - cbn [unions_in_classes] in IH. apply andb_true_iff in IH. destruct IH as [_ IH]. rewrite forallb_forall in IH. exact (IH c Hc).
  - cbn [unions_in_classes] in IH. apply andb_true_iff in IH. destruct IH as [_ IH]. rewrite forallb_forall in IH. exact (IH c Hc).
Qed.
Lemma reached_class : forall sf E asked tu al p ly d, (forall x, In x tu -> unions_in_classes false x = true) ->
  ScanSpec.reached sf E asked tu al p ly d -> ly = true ->
  exists al0 p0 ly0 d0 pp c s, ScanSpec.reached sf E asked tu al0 p0 ly0 d0 /\ ScanSpec.gives sf E asked al0 p0 ly0 d0 (ScanSpec.Class_ pp c s) /\ p_name pp = ScanSpec.name_of p.
Proof.
  intros sf E asked tu al p ly d Htu H.
  induction H as [d Hd Hl|al p ly h l al' c Hr IH Ht Hc|al p ly h r l al' bs c Hr IH Ht Hd Hv Hb Hc|al p ly h r l al' c Hr IH Ht Hd Hf Ha Hc]; intros El; try discriminate El.
  - destruct (r_anon r) eqn:Ea.
    + apply IH. pose proof (walked_in _ _ _ _ _ _ _ _ Htu Hr) as W. cbn [unions_in_classes] in W. rewrite Ea in W. cbn in W. apply andb_true_iff in W. apply W.
    + exists al, p, ly, (D_record h r l). do 3 eexists. split; [exact Hr|]. split; [eapply ScanSpec.gv_class; eassumption|]. reflexivity.
  - apply IH. pose proof (walked_in _ _ _ _ _ _ _ _ Htu Hr) as W. cbn [unions_in_classes] in W. rewrite Ha in W. cbn in W. apply andb_true_iff in W. apply W.
Qed.
Lemma field_owner : forall sf tus f, no_loose_unions tus -> ScanSpec.given sf tus (ScanSpec.Field_ f) ->
  (exists fn, ScanSpec.given sf tus (ScanSpec.Function_ fn) /\ p_name (fn_prim fn) = p_parent (f_prim f) /\ fn_uid fn = f_parent_uid f) \/
  (exists p c s, ScanSpec.given sf tus (ScanSpec.Class_ p c s) /\ p_name p = p_parent (f_prim f)).
Proof.
  intros sf tus f Hn G. pose proof G as G0. destruct G as [b [E [tu [a [al [p [ly [d [H1 [H2 H3]]]]]]]]]].
  inversion H3 as [d0 h l x Hh Hi Ha Hx|h l al' Ht|h r l al' all bs ev Ht Hd Hv Hb Hin|h r l al' bs Ht Hd Hv Hb Han|h r l al' Ht Hd Hf Han|h k al' evs ev Ht Hl Hin]; subst.
  - exfalso. apply (ScanGroupProofs.derives_quiet _ _ _ _ _ Hb) in Hin. exact Hin.
  - assert (Hlf : ScanSpec.given sf (b ++ (E, tu) :: a) (ScanSpec.Field_ f) /\ True) by (split; [exact G0|exact I]).
    destruct (ScanGroupProofs.leaf_group _ _ _ _ _ _ Hl) as [Hq|[[q [fn [ps [ret [G1 [G2 G3]]]]]]|[q [f' [G1 [G2 [G3 G4]]]]]]].
    + exfalso. exact (Hq _ Hin).
    + left. exists fn. subst evs.
      assert (Gf : ScanSpec.given sf (b ++ (E, tu) :: a) (ScanSpec.Function_ fn)).
      { exists b, E, tu, a, al, p, ly, (D_leaf h k). split; [reflexivity|]. split; [exact H2|]. eapply ScanSpec.gv_leaf; [exact Ht|exact Hl|]. apply in_or_app. right. left. reflexivity. }
      split; [exact Gf|]. apply in_app_or in Hin. destruct Hin as [Hin|[Hin|Hin]]; [exfalso; exact (G2 _ Hin)|discriminate Hin|].
      apply in_map_iff in Hin. destruct Hin as [x [Ex Hx]]. injection Ex as ->. destruct G3 as [_ [_ [N [U [_ P]]]]].
      assert (Hx' : In f (ret :: ps)).
      { apply in_app_or in Hx. destruct Hx as [Hx|Hx]; [|right; exact Hx]. unfold ScanGroupProofs.returned in Hx. destruct (list_eqb _ _); [destruct Hx|]. destruct Hx as [->|[]]. left. reflexivity. }
      split; [|symmetry; exact (U _ Hx')]. destruct Hx' as [->|Hx']; [symmetry; exact P|]. apply In_nth_error in Hx'. destruct Hx' as [j Hj]. destruct (N j f Hj) as [_ B]. symmetry. exact B.
    + subst evs. apply in_app_or in Hin. destruct Hin as [Hin|[Hin|[]]]; [exfalso; exact (G2 _ Hin)|]. injection Hin as ->.
      (* a member *)
      assert (Ly : ly = true).
      { inversion Hl as [sc cs|f0 e0 X|inst th f0|th f0 e0 X|th f0 X|th f0 t0 e1 e2 X1 X2|n0 bits qq|n0 bits qq X|n0 bits qq f0 e0 X1 X2|n0 fwd X|n0 fwd X| ]; subst.
        - destruct q; [discriminate|]. exfalso. match goal with X : _ = (_ :: q) ++ _ |- _ => cbn [app] in X; injection X as _ X end.
          assert (Y : In (ScanSpec.Field_ f) (map (ScanSpec.constant (h_name h) p) cs)) by (match goal with X : map _ _ = q ++ _ |- _ => rewrite X end; apply in_or_app; right; left; reflexivity). apply in_map_iff in Y. destruct Y as [c0 [Y _]]. discriminate Y.
        - exfalso. destruct (ScanGroupProofs.function_group _ _ _ _ _ _ (or_introl eq_refl) X) as [Hq|[q0 [fn [ps [ret [Y1 [Y2 Y3]]]]]]]; [exact (Hq _ (in_elt _ q []))|].
          assert (Z0 : In (ScanSpec.Function_ fn) (q ++ [ScanSpec.Field_ f])) by (rewrite Y1; apply in_or_app; right; left; reflexivity). apply in_app_or in Z0. destruct Z0 as [Z0|[Z0|[]]]; [exact (G2 _ Z0)|discriminate Z0].
        - destruct q; discriminate.
        - exfalso. destruct (ScanGroupProofs.function_group _ _ _ _ _ _ (or_introl eq_refl) X) as [Hq|[q0 [fn [ps [ret [Y1 [Y2 Y3]]]]]]]; [exact (Hq _ (in_elt _ q []))|].
          assert (Z0 : In (ScanSpec.Function_ fn) (q ++ [ScanSpec.Field_ f])) by (rewrite Y1; apply in_or_app; right; left; reflexivity). apply in_app_or in Z0. destruct Z0 as [Z0|[Z0|[]]]; [exact (G2 _ Z0)|discriminate Z0].
        - destruct q; discriminate.
        - exfalso. destruct (ScanGroupProofs.made_field_is _ _ _ _ _ _ _ X1) as [A [B _]].
          assert (Th : [t0] = [] \/ exists t', [t0] = [t'] /\ f_offset t' = 0 /\ p_parent (f_prim t') = ScanSpec.name_of (h_name h)).
          { right. exists t0. split; [reflexivity|]. split; [exact A|]. rewrite B. reflexivity. }
          assert (Hq1 : ScanGroupProofs.all_quiet e1) by (eapply ScanGroupProofs.made_quiet; exact X1).
          assert (Hin2 : In (ScanSpec.Field_ f) e2).
          { assert (Y : In (ScanSpec.Field_ f) (e1 ++ e2)) by (match goal with X : e1 ++ e2 = _ |- _ => rewrite X end; apply in_or_app; right; left; reflexivity). apply in_app_or in Y. destruct Y as [Y|Y]; [exfalso; exact (Hq1 _ Y)|exact Y]. }
          destruct (ScanGroupProofs.function_group _ _ _ _ _ _ Th X2) as [Hq|[q0 [fn [ps [ret [Y1 [Y2 Y3]]]]]]]; [exact (Hq _ Hin2)|].
          assert (Z0 : In (ScanSpec.Function_ fn) (q ++ [ScanSpec.Field_ f])) by (match goal with X : e1 ++ e2 = _ |- _ => rewrite <- X end; rewrite Y1; apply in_or_app; right; apply in_or_app; right; left; reflexivity).
          apply in_app_or in Z0. destruct Z0 as [Z0|[Z0|[]]]; [exact (G2 _ Z0)|discriminate Z0].
        - destruct q; discriminate.
        - destruct q; discriminate.
        - reflexivity.
        - destruct q as [|? [|? ?]]; discriminate.
        - destruct q; discriminate.
        - destruct q; discriminate. }
      subst ly. right. assert (Htu : forall x, In x tu -> unions_in_classes false x = true).
      { intros x Hx. apply (Hn E tu x); [|exact Hx]. apply in_or_app. right. left. reflexivity. }
      destruct (reached_class _ _ _ _ _ _ _ _ Htu H2 eq_refl) as [al0 [p0 [ly0 [d0 [pp [c [s [R1 [R2 R3]]]]]]]]].
      exists pp, c, s. split; [|rewrite R3, G4; reflexivity]. exists b, E, tu, a, al0, p0, ly0, d0. auto.
Qed.

(* ---- every row of the merged database is one of some run ---- *)
Lemma best_row : forall ds d', (forall k, m_range k (m_classes d') = best_class (flat_map (fun s => m_range k (m_classes s)) ds)) ->
  (forall k v, In (k, v) (m_classes d') -> exists s, In s ds /\ In (k, v) (m_classes s)) /\
  (forall k s, In s ds -> In k (keys (m_classes s)) -> In k (keys (m_classes d'))).
Proof.
  intros ds d' H. split.
  - intros k v Hin. apply m_range_In in Hin. rewrite H in Hin. unfold best_class in Hin.
    assert (X : In v (flat_map (fun s => m_range k (m_classes s)) ds)).
    { destruct (filter _ _ ++ _) as [|x r] eqn:E; [destruct Hin|]. destruct Hin as [->|[]]. assert (Y : In v (v :: r)) by (left; reflexivity). rewrite <- E in Y.
      apply in_app_or in Y. destruct Y as [Y|Y]; [apply filter_In in Y; tauto|exact Y]. }
    apply in_flat_map in X. destruct X as [s [A B]]. exists s. split; [exact A|]. apply m_range_In. exact B.
  - intros k s Hs Hk. apply keys_range. apply keys_range in Hk. rewrite H. unfold best_class.
    set (L := flat_map (fun s => m_range k (m_classes s)) ds).
    assert (X : L <> []).
    { destruct (m_range k (m_classes s)) as [|v r] eqn:E; [congruence|]. intros Y. assert (Z0 : In v L) by (apply in_flat_map; exists s; split; [exact Hs|rewrite E; left; reflexivity]). rewrite Y in Z0. destruct Z0. }
    destruct (filter _ L ++ L) as [|x r] eqn:E; [|discriminate]. apply app_eq_nil in E. tauto.
Qed.
Section Runs.
Variables (ds : list database) (d' : database).
Hypothesis Hinv : Forall inv ds.
Hypothesis Hwf : Forall wf_db ds.
Hypothesis Hm : MergeAll db_empty ds = Ok d'.
Definition of_runs {T} (sel : database -> zmap T) : Prop := forall k v, In (k, v) (sel d') -> exists s, In s ds /\ In (k, v) (sel s).
Lemma rows_of_runs :
  of_runs m_namespaces /\ of_runs m_types /\ of_runs m_templates /\ of_runs m_template_types /\ of_runs m_classes /\ of_runs m_enums /\
  of_runs m_enum_consts /\ of_runs m_functions /\ of_runs m_fields /\ of_runs m_flag_attrs /\ of_runs m_int_attrs /\ of_runs m_float_attrs /\
  of_runs m_prim_attrs /\ of_runs m_text_attrs /\ of_runs m_containers.
Proof.
  destruct (MergeProps.C36_overloads_are_the_union ds d' Hwf Hm) as [_ [_ [_ [U1 [U2 [U3 [U4 U5]]]]]]].
  split; [exact (proj1 (first_row _ m_namespaces ds d' (first_namespaces ds d' Hwf Hm)))|].
  split; [exact (proj1 (first_row _ m_types ds d' (first_types ds d' Hwf Hm)))|].
  split; [exact (proj1 (first_row _ m_templates ds d' (first_templates ds d' Hwf Hm)))|].
  split; [exact (proj1 (first_row _ m_template_types ds d' (first_ttypes ds d' Hwf Hm)))|].
  split; [exact (proj1 (best_row ds d' (best_classes ds d' Hwf Hm)))|].
  split; [exact (proj1 (first_row _ m_enums ds d' (first_enums ds d' Hwf Hm)))|].
  split; [intros k v; apply (merged_consts ds d' Hinv Hwf Hm)|].
  split; [intros k v; apply (merged_functions ds d' Hinv Hwf Hm)|].
  split; [intros k v; apply (merged_fields ds d' Hinv Hwf Hm)|].
  split; [exact (proj1 (merged_attrs _ _ _ _ _ (proj2 (proj2 prim_equiv)) U1))|].
  split; [exact (proj1 (merged_attrs _ _ _ _ _ (proj2 (proj2 int_attr_equiv)) U2))|].
  split; [exact (proj1 (merged_attrs _ _ _ _ _ (proj2 (proj2 float_attr_equiv)) U3))|].
  split; [exact (proj1 (merged_attrs _ _ _ _ _ (proj2 (proj2 prim_attr_equiv)) U4))|].
  split; [exact (proj1 (merged_attrs _ _ _ _ _ (proj2 (proj2 text_attr_equiv)) U5))|].
  exact (proj1 (first_row _ m_containers ds d' (first_containers ds d' Hwf Hm))).
Qed.
Lemma known_interned : forall s n, In s ds -> known (m_names s) n -> interned d' n.
Proof. intros s n Hs H. apply (lift ds d' Hwf Hm s n Hs) in H. destruct H as [->|H]; [left; reflexivity|right; exact H]. Qed.
Lemma merged_interned : all_interned d'.
Proof.
  destruct rows_of_runs as [R1 [R2 [R3 [R4 [R5 [R6 [R7 [R8 [R9 [R10 [R11 [R12 [R13 [R14 R15]]]]]]]]]]]]]].
  pose proof known_interned as K. rewrite Forall_forall in Hinv.
  assert (K2 : forall s p, In s ds -> known_prim (m_names s) p -> interned d' (p_name p) /\ interned d' (p_parent p)) by (intros s p Hs [A B]; split; eapply K; eassumption).
  assert (N0 : interned d' noname) by (left; reflexivity).
  assert (D : forall i p, it_name i = p_name p -> it_parent i = p_parent p -> (exists s, In s ds /\ known_prim (m_names s) p) -> interned d' (it_type i) -> interned d' (it_ref i) -> Forall (interned d') (it_args i) ->
    interned d' (it_name i) /\ interned d' (it_parent i) /\ interned d' (it_type i) /\ interned d' (it_ref i) /\ Forall (interned d') (it_args i)).
  { intros i p E1 E2 [s [Hs Hk]] H1 H2 H3. rewrite E1, E2. destruct (K2 s p Hs Hk). auto. }
  split.
  - intros k i Hi. destruct k; cbn [items] in Hi; apply in_map_iff in Hi; destruct Hi as [[h v] [<- Hin]]; cbn [snd] in *;
    match type of Hin with In _ (?sel d') => match goal with R : of_runs sel |- _ => destruct (R _ _ Hin) as [s [Hs Hr]] end end;
    destruct (Hinv s Hs) as [_ X]; unfold sound in X; destruct X as [X1 [X2 [X3 [X4 [X5 [X6 [X7 [X8 [X9 [X10 [X11 [X12 [X13 [X14 _]]]]]]]]]]]]]];
    match type of Hr with In _ ?t => match goal with X : tab _ _ t |- _ => destruct X as [_ X]; destruct (X _ _ Hr) as [_ [_ G]] end end;
    clear X1 X2 X3 X4 X5 X6 X7 X8 X9 X10 X11 X12 X13 X14;
    unfold g_type, g_ttype, g_class, g_enum, g_const, g_fun, g_field, g_int, g_float, g_prim, g_text in G; unfold plain;
    (eapply D; [reflexivity|reflexivity|exists s; split; [exact Hs|tauto]| | | ]); cbn [it_type it_ref it_args]; try exact N0; try apply Forall_nil.
    all: try (apply (K s); [exact Hs|tauto]).
    destruct G as [_ [_ [G _]]]. rewrite Forall_forall in *. intros x Hx. apply (K s); [exact Hs|apply G; exact Hx].
  - intros h c Hin. destruct (R15 _ _ Hin) as [s [Hs Hr]]. destruct (Hinv s Hs) as [_ X]. unfold sound in X. destruct X as [_ [_ [_ [_ [_ [_ [_ [_ [_ [_ [_ [_ [_ [_ [[_ X] _]]]]]]]]]]]]]]].
    destruct (X _ _ Hr) as [_ [G _]]. apply (K s); [exact Hs|exact G].
Qed.
Lemma merged_tables : wf_tables d'.
Proof. pose proof (merged_wf ds d' Hwf Hm) as H. unfold wf_db in H. unfold wf_tables. tauto. Qed.
End Runs.

(* ---- fields have owners ---- *)
Lemma owner_is : forall db l, fst l = KField -> owner db l = first_owner db (hash_at db) [KFunction; KClass] l.
Proof.
  intros db l Hl. unfold owner. rewrite Hl. cbn [owner_kinds]. apply first_owner_ext. intros [k j] Ho. cbn [fst] in Ho.
  unfold known_as. cbn [fst]. destruct Ho as [<-|[<-|[]]]; reflexivity.
Qed.
Lemma place_of : forall db k i, In i (items db k) -> exists l, In l (places db k) /\ fst l = k /\ at_ db l = Some i.
Proof.
  intros db k i H. apply In_nth_error in H. destruct H as [j Hj]. exists (k, j). split; [|split; [reflexivity|exact Hj]]. apply places_In. split; [reflexivity|]. cbn [snd]. apply nth_error_Some. congruence.
Qed.
Lemma owner_found : forall db key k c o, In o (places db k) -> key o = parent_at db c -> right_overload db o c = true -> owner_in db key k c <> None.
Proof.
  intros db key k c o Ho Ek Er H. unfold owner_in in H. pose proof (find_none _ _ H o Ho) as X. cbv beta in X. rewrite Ek, Z.eqb_refl, Er in X. discriminate X.
Qed.
Lemma merged_fields_owned : forall sf runs ds d', scanned sf runs ds -> Forall mergeable ds -> MergeAll db_empty ds = Ok d' ->
  (forall tus, In tus runs -> no_loose_unions tus) -> fields_owned d'.
Proof.
  intros sf runs ds d' H M Hm Hn l Hl. pose proof (scanned_inv _ _ _ H) as Hi. pose proof (scanned_wf _ _ _ H M) as Hw.
  apply places_In in Hl. destruct l as [k j]. cbn [fst snd] in Hl. destruct Hl as [-> Hj]. rewrite (owner_is d' (KField, j) eq_refl).
  destruct (nth_error (m_fields d') j) as [[h f]|] eqn:En; [|exfalso; apply nth_error_None in En; cbn [items] in Hj; rewrite map_length in Hj; lia].
  assert (Ea : exists dd, at_ d' (KField, j) = Some (mk_item (p_name (f_prim f)) (p_parent (f_prim f)) (f_type f) (f_parent_uid f) [] noname dd)).
  { unfold at_. cbn [fst snd items]. eexists. rewrite (map_nth_error _ _ _ En). reflexivity. }
  destruct Ea as [dd Ea]. assert (Ep : parent_at d' (KField, j) = n_hash (p_parent (f_prim f))) by (unfold parent_at; rewrite Ea; reflexivity).
  assert (Eu : uid_at d' (KField, j) = f_parent_uid f) by (unfold uid_at; rewrite Ea; reflexivity).
  apply nth_error_In in En. apply (merged_fields ds d' Hi Hw Hm) in En. destruct En as [s [Hs Hin]]. destruct (scanned_left _ _ _ _ H Hs) as [tus [Ht [Hc [fuel [w Hsc]]]]].
  apply (ScanProps.C76_recorded_iff_declared _ _ _ _ _ Hc Hsc) in Hin. destruct Hin as [_ G].
  cbn [first_owner]. destruct (field_owner sf tus f (Hn tus Ht) G) as [[fn [Gf [E1 E2]]]|[p [c [sz [Gc E1]]]]].
  - assert (Hf : In (n_hash (p_name (fn_prim fn)), fn) (m_functions d')).
    { apply (merged_functions ds d' Hi Hw Hm). exists s. split; [exact Hs|]. apply (ScanProps.C76_recorded_iff_declared _ _ _ _ _ Hc Hsc). auto. }
    destruct (place_of d' KFunction (mk_item (p_name (fn_prim fn)) (p_parent (fn_prim fn)) noname (fn_uid fn) [] noname [fn_address fn])) as [o [O1 [O2 O3]]].
    { cbn [items]. apply in_map_iff. exists (n_hash (p_name (fn_prim fn)), fn). split; [reflexivity|exact Hf]. }
    destruct (owner_in d' (hash_at d') KFunction (KField, j)) as [x|] eqn:Eo; [discriminate|]. exfalso. revert Eo. apply (owner_found _ _ _ _ o O1).
    + unfold hash_at. rewrite O3, Ep. cbn [it_name]. rewrite E1. reflexivity.
    + unfold right_overload. rewrite O2. cbn [fst]. rewrite Eu. unfold uid_at. rewrite O3. cbn [it_uid]. rewrite E2. apply Z.eqb_refl.
  - destruct (owner_in d' (hash_at d') KFunction (KField, j)) as [x|]; [discriminate|].
    assert (Hk : In (n_hash (p_name p)) (keys (m_classes d'))).
    { apply (proj2 (best_row ds d' (best_classes ds d' Hw Hm)) _ s Hs). apply (ScanProps.C78_recorded_iff_declared _ _ _ _ _ Hc Hsc (n_hash (p_name p))). exists p, c, sz. auto. }
    unfold keys in Hk. apply in_map_iff in Hk. destruct Hk as [[h' cl] [E2 Hcl]]. cbn [fst] in E2. subst h'.
    assert (Ek : n_hash (p_name (c_prim cl)) = n_hash (p_name p)).
    { destruct (rows_of_runs ds d' Hi Hw Hm) as [_ [_ [_ [_ [R5 _]]]]]. destruct (R5 _ _ Hcl) as [s' [Hs' Hr]]. rewrite Forall_forall in Hi. destruct (Hi s' Hs') as [_ X]. unfold sound in X.
      destruct X as [_ [_ [_ [_ [[_ X] _]]]]]. destruct (X _ _ Hr) as [X1 _]. symmetry. exact X1. }
    destruct (place_of d' KClass (plain (c_prim cl) [c_size cl])) as [o [O1 [O2 O3]]].
    { cbn [items]. apply in_map_iff. exists (n_hash (p_name p), cl). split; [reflexivity|exact Hcl]. }
    destruct (owner_in d' (hash_at d') KClass (KField, j)) as [x|] eqn:Eo; [discriminate|]. exfalso. revert Eo. apply (owner_found _ _ _ _ o O1).
    + unfold hash_at. rewrite O3, Ep. cbn [plain it_name]. rewrite Ek, E1. reflexivity.
    + unfold right_overload. rewrite O2. reflexivity.
Qed.
(* ---- types have one name each ---- *)
Lemma hashes_at : forall db k, map (hash_at db) (places db k) = map (fun i => n_hash (it_name i)) (items db k).
Proof.
  intros db k. unfold places. rewrite map_map. unfold hash_at, at_. cbn [fst snd]. generalize (items db k). intros l. induction l as [|i l IH]; [reflexivity|].
  cbn [length seq map nth_error]. f_equal. rewrite <- seq_shift, map_map. exact IH.
Qed.
Lemma row_keys : forall T (nm : T -> name) (m : zmap T), wf_table nm m -> map (fun e => n_hash (nm (snd e))) m = map fst m.
Proof. intros T nm m [_ H]. apply map_ext_in. intros [k v] Hin. symmetry. exact (proj1 (H _ _ Hin)). Qed.
Lemma one_kind_unique : forall d, wf_tables d -> one_kind d -> unique_types d.
Proof.
  intros d W H. unfold unique_types, type_places. rewrite !map_app, !hashes_at. cbn [items]. rewrite !map_map. cbn [plain it_name].
  unfold wf_tables in W. destruct W as [_ [_ [_ [W2 [_ [W4 [W5 [W6 _]]]]]]]].
  rewrite (row_keys _ _ _ W2), (row_keys _ _ _ W5), (row_keys _ _ _ W6), (row_keys _ _ _ W4). exact H.
Qed.

(* ---- parameters and members after the export ---- *)
Lemma in_children : forall db a o c, In c (children db a o) <-> In c (places db (fst c)) /\ owner db c = Some o /\ array_for (fst o) (fst c) = Some a.
Proof.
  intros db a o c. unfold children. rewrite filter_In, andb_true_iff, in_flat_map. unfold owned_by, lists. split.
  - intros [[k [_ Hk]] [H1 H2]]. pose proof Hk as Hk'. apply places_In in Hk'. destruct Hk' as [<- _]. split; [exact Hk|]. split.
    + destruct (owner db c) as [x|]; [|discriminate H1]. destruct (loc_eqb_spec x o) as [Ex|]; [rewrite Ex; reflexivity|discriminate H1].
    + destruct (array_for _ _) as [b|]; [|discriminate H2]. destruct (ak_eqb_spec a b) as [Ex|]; [rewrite Ex; reflexivity|discriminate H2].
  - intros [H1 [H2 H3]]. split; [exists (fst c); split; [destruct (fst c); cbn; tauto|exact H1]|]. rewrite H2, H3. split; [destruct (loc_eqb_spec o o); congruence|destruct (ak_eqb_spec a a); congruence].
Qed.
Definition field_item (f : field) (dd : list Z) : item := mk_item (p_name (f_prim f)) (p_parent (f_prim f)) (f_type f) (f_parent_uid f) [] noname dd.
Lemma at_field : forall d j f, at_row (m_fields d) j f -> parent_at d (KField, j) = n_hash (p_parent (f_prim f)) /\ uid_at d (KField, j) = f_parent_uid f /\ type_at d (KField, j) = n_hash (f_type f) /\ In (KField, j) (places d KField).
Proof.
  intros d j f [h E]. assert (X : exists dd, at_ d (KField, j) = Some (field_item f dd)).
  { unfold at_. cbn [fst snd items]. eexists. rewrite (map_nth_error _ _ _ E). reflexivity. }
  destruct X as [dd X]. unfold parent_at, uid_at, type_at. rewrite X. split; [reflexivity|]. split; [reflexivity|]. split; [reflexivity|]. apply places_In. split; [reflexivity|]. cbn [snd]. unfold at_ in X. cbn [fst snd] in X. apply nth_error_Some. congruence.
Qed.
Lemma at_function : forall d j f, at_row (m_functions d) j f -> hash_at d (KFunction, j) = n_hash (p_name (fn_prim f)) /\ uid_at d (KFunction, j) = fn_uid f /\ In (KFunction, j) (places d KFunction).
Proof.
  intros d j f [h E]. assert (X : exists dd, at_ d (KFunction, j) = Some (mk_item (p_name (fn_prim f)) (p_parent (fn_prim f)) noname (fn_uid f) [] noname dd)).
  { unfold at_. cbn [fst snd items]. eexists. rewrite (map_nth_error _ _ _ E). reflexivity. }
  destruct X as [dd X]. unfold hash_at, uid_at. rewrite X. split; [reflexivity|]. split; [reflexivity|]. apply places_In. split; [reflexivity|]. cbn [snd]. unfold at_ in X. cbn [fst snd] in X. apply nth_error_Some. congruence.
Qed.
Lemma at_class : forall d j c, at_row (m_classes d) j c -> hash_at d (KClass, j) = n_hash (p_name (c_prim c)) /\ In (KClass, j) (places d KClass).
Proof.
  intros d j f [h E]. assert (X : exists dd, at_ d (KClass, j) = Some (plain (c_prim f) dd)).
  { unfold at_. cbn [fst snd items]. eexists. rewrite (map_nth_error _ _ _ E). reflexivity. }
  destruct X as [dd X]. unfold hash_at. rewrite X. split; [reflexivity|]. apply places_In. split; [reflexivity|]. cbn [snd]. unfold at_ in X. cbn [fst snd] in X. apply nth_error_Some. congruence.
Qed.
Lemma row_at : forall T (m : zmap T) j, (j < length m)%nat -> exists v, at_row m j v.
Proof. intros T m j H. destruct (nth_error m j) as [[h v]|] eqn:E; [exists v, h; exact E|]. apply nth_error_None in E. lia. Qed.
Lemma place_row : forall d k (j : nat), In (k, j) (places d k) -> (j < length (items d k))%nat.
Proof. intros d k j H. apply places_In in H. tauto. Qed.
(* the first with a property, if all with it are at one place *)
Lemma find_only : forall (T : Type) (p : T -> bool) l x, In x l -> p x = true -> (forall y, In y l -> p y = true -> y = x) -> find p l = Some x.
Proof.
  intros T p l x Hx Hp Hu. destruct (find p l) as [y|] eqn:E; [apply find_some in E; destruct E as [A B]; rewrite (Hu y A B); reflexivity|]. pose proof (find_none _ _ E x Hx) as X. congruence.
Qed.
(* no two functions of one name and id, no two classes of one name *)
Lemma function_owns : forall d, (forall i j f g, at_row (m_functions d) i f -> at_row (m_functions d) j g -> n_hash (p_name (fn_prim f)) = n_hash (p_name (fn_prim g)) -> fn_uid f = fn_uid g -> i = j) ->
  forall i j fn f, at_row (m_functions d) i fn -> at_row (m_fields d) j f -> (owner d (KField, j) = Some (KFunction, i) <-> of_function fn f).
Proof.
  intros d Hf i j fn f Hi Hj. destruct (at_field d j f Hj) as [P1 [P2 [_ _]]]. destruct (at_function d i fn Hi) as [Q1 [Q2 Q3]]. rewrite (owner_is d (KField, j) eq_refl). cbn [first_owner]. unfold owner_in at 1. split.
  - destruct (find _ (places d KFunction)) as [x|] eqn:E.
    + intros Ex. injection Ex as ->. apply find_some in E. destruct E as [_ E]. unfold right_overload in E. cbn [fst] in E. rewrite P1, P2, Q1, Q2 in E. split; lia.
    + destruct (owner_in d (hash_at d) KClass (KField, j)) as [o|] eqn:Eo; [|discriminate]. intros X. injection X as ->. apply owner_in_valid in Eo. apply places_In in Eo. destruct Eo as [Eo _]. discriminate Eo.
  - intros [E1 E2]. rewrite (find_only _ _ _ (KFunction, i)); [reflexivity|exact Q3| | ].
    + unfold right_overload. cbn [fst]. rewrite P1, P2, Q1, Q2, E1, E2, !Z.eqb_refl. reflexivity.
    + intros [k y] Hy Hp. pose proof Hy as Hy'. apply places_In in Hy'. cbn [fst snd] in Hy'. destruct Hy' as [-> Hl]. cbn [items] in Hl. rewrite map_length in Hl. destruct (row_at _ _ _ Hl) as [g Hg].
      destruct (at_function d y g Hg) as [G1 [G2 _]]. unfold right_overload in Hp. cbn [fst] in Hp. rewrite P1, P2, G1, G2 in Hp. f_equal. apply (Hf y i g fn Hg Hi); lia.
Qed.
Lemma class_owns : forall d, (forall i j f g, at_row (m_classes d) i f -> at_row (m_classes d) j g -> n_hash (p_name (c_prim f)) = n_hash (p_name (c_prim g)) -> i = j) ->
  forall i j c f, at_row (m_classes d) i c -> at_row (m_fields d) j f ->
  (owner d (KField, j) = Some (KClass, i) <-> of_class (n_hash (p_name (c_prim c))) f /\ forall k fn, at_row (m_functions d) k fn -> ~ of_function fn f).
Proof.
  intros d Hc i j c f Hi Hj. destruct (at_field d j f Hj) as [P1 [P2 [_ _]]]. destruct (at_class d i c Hi) as [Q1 Q3]. rewrite (owner_is d (KField, j) eq_refl). cbn [first_owner].
  destruct (owner_in d (hash_at d) KFunction (KField, j)) as [o|] eqn:Eo.
  - split.
    + intros X. injection X as ->. apply owner_in_valid in Eo. apply places_In in Eo. destruct Eo as [Eo _]. discriminate Eo.
    + intros [_ X]. exfalso. pose proof Eo as Ev. apply owner_in_valid in Ev. destruct o as [ko jo]. pose proof (places_In d KFunction (ko, jo)) as PI. apply PI in Ev. cbn [fst snd] in Ev. destruct Ev as [-> Hl]. cbn [items] in Hl. rewrite map_length in Hl.
      destruct (row_at _ _ _ Hl) as [g Hg]. destruct (at_function d jo g Hg) as [G1 [G2 _]]. unfold owner_in in Eo. apply find_some in Eo. destruct Eo as [_ Eo]. unfold right_overload in Eo. cbn [fst] in Eo. rewrite P1, P2, G1, G2 in Eo.
      apply (X jo g Hg). split; lia.
  - assert (N : forall k fn, at_row (m_functions d) k fn -> ~ of_function fn f).
    { intros k fn Hk [E1 E2]. destruct (at_function d k fn Hk) as [G1 [G2 G3]]. unfold owner_in in Eo. pose proof (find_none _ _ Eo _ G3) as X. cbv beta in X. unfold right_overload in X. cbn [fst] in X. rewrite P1, P2, G1, G2, E1, E2, !Z.eqb_refl in X. discriminate X. }
    unfold owner_in. split.
    + destruct (find _ (places d KClass)) as [x|] eqn:E; [|discriminate]. intros Ex. injection Ex as ->. apply find_some in E. destruct E as [_ E]. rewrite P1, Q1 in E. split; [unfold of_class; lia|exact N].
    + intros [E1 _]. unfold of_class in E1. rewrite (find_only _ _ _ (KClass, i)); [reflexivity|exact Q3| | ].
      * unfold right_overload. cbn [fst]. rewrite P1, Q1, E1, !Z.eqb_refl. reflexivity.
      * intros [k y] Hy Hp. pose proof Hy as Hy'. apply places_In in Hy'. cbn [fst snd] in Hy'. destruct Hy' as [-> Hl]. cbn [items] in Hl. rewrite map_length in Hl. destruct (row_at _ _ _ Hl) as [g Hg].
        destruct (at_class d y g Hg) as [G1 _]. unfold right_overload in Hp. cbn [fst] in Hp. rewrite P1, G1 in Hp. f_equal. apply (Hc y i g c Hg Hi). lia.
Qed.
(* ---- one row each ---- *)
Lemma rows_nodup : forall T (m : zmap T), (forall k, NoDup (m_range k m)) -> NoDup m.
Proof.
  induction m as [|[k v] m IH]; intros H; [constructor|]. constructor.
  - intros Hin. specialize (H k). rewrite m_range_cons in H. rewrite Z.eqb_refl in H. inversion H as [|x l Hx _]; subst. apply Hx. apply m_range_In. exact Hin.
  - apply IH. intros k0. specialize (H k0). rewrite m_range_cons in H. destruct (k =? k0); [inversion H; assumption|exact H].
Qed.
Lemma keys_nodup : forall T (m : zmap T), (forall k, (length (m_range k m) <= 1)%nat) -> NoDup (map fst m).
Proof.
  induction m as [|[k v] m IH]; intros H; cbn [map fst]; [constructor|]. constructor.
  - intros Hin. apply in_map_iff in Hin. destruct Hin as [[k' v'] [E Hin]]. cbn [fst] in E. subst k'. specialize (H k). rewrite m_range_cons, Z.eqb_refl in H. apply m_range_In in Hin.
    destruct (m_range k m); [destruct Hin|cbn [length] in H; lia].
  - apply IH. intros k0. specialize (H k0). rewrite m_range_cons in H. destruct (k =? k0); [cbn [length] in H; lia|exact H].
Qed.
Lemma same_row : forall T (nm : T -> name) (m : zmap T) i j v, wf_table nm m -> NoDup m -> at_row m i v -> at_row m j v -> i = j.
Proof.
  intros T nm m i j v [_ W] N [h1 E1] [h2 E2]. assert (h1 = h2) as -> by (rewrite (proj1 (W _ _ (nth_error_In _ _ E1))), (proj1 (W _ _ (nth_error_In _ _ E2))); reflexivity).
  rewrite NoDup_nth_error in N. apply N; [apply nth_error_Some; congruence|congruence].
Qed.
Lemma same_key : forall T (nm : T -> name) (m : zmap T) i j v w, wf_table nm m -> NoDup (map fst m) -> at_row m i v -> at_row m j w -> n_hash (nm v) = n_hash (nm w) -> i = j.
Proof.
  intros T nm m i j v w [_ W] N [h1 E1] [h2 E2] E. assert (h1 = h2) as -> by (rewrite (proj1 (W _ _ (nth_error_In _ _ E1))), (proj1 (W _ _ (nth_error_In _ _ E2))); exact E).
  rewrite NoDup_nth_error in N. apply N; [apply nth_error_Some; rewrite (map_nth_error fst _ _ E1); discriminate|]. rewrite (map_nth_error fst _ _ E1), (map_nth_error fst _ _ E2). reflexivity.
Qed.
Lemma merged_classes_once : forall ds d', Forall wf_db ds -> MergeAll db_empty ds = Ok d' -> NoDup (map fst (m_classes d')).
Proof. intros ds d' Hw Hm. apply keys_nodup. intros k. rewrite (best_classes ds d' Hw Hm k). apply best_length. Qed.
