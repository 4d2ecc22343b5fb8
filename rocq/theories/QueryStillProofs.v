(* What Database::Load leaves as it was: the members of the objects, the names and the texts. *)
From Coq Require Import String Permutation Sorted.
From Verif Require Import Base BaseProofs Text Maps HashModel HashSpec HashProofs SearchModel RuntimeModel DatabaseModel NamesProofs MergeSpec MergeProofs ExportModel ExportSpec ExportProofs ExportTablesProofs ExportParentProofs ExportLinkProofs ExportMainProofs ExportWitness ExportProps.
From Verif Require Import ImageLayout ImageModel ImageSpec LaidModel LaidSpec LaidProofs LaidImageProofs LaidLinkProofs LaidReadProofs LaidMemProofs QueryModel QueryViewProofs QueryLoadProofs QuerySearchProofs.
#[local] Open Scope string_scope.
#[local] Open Scope Z_scope.
#[local] Open Scope list_scope.
Local Opaque sample.

From Verif Require Import MmapModel MmapSpec QueryProofs QuerySpec.
Section Any.
Variables (L : layout) (fuel : nat) (db : database).
Hypothesis X : exportable L fuel db.
Notation V l := (In l (places db (fst l))).
Section Mem.
Variables (e : export) (heap : list (tag * list Z)) (pad fb base : Z).
Hypothesis BE : BuildCppExport L fuel db = Ok e.
Hypothesis F : facts L db e.
Hypothesis LK : linked e.
Hypothesis HO : heap_ok e heap.
Hypothesis S0 : 0 < base.
Hypothesis S1 : base + image_size e heap < 2 ^ 64.
Variables (this to options : Z) (mem : list Z).
Hypothesis VW : view e heap pad fb base (finished e heap fb base this to options) mem.
Notation fin := (finished e heap fb base this to options).
Notation cel := (at_cell e heap fb base).
Notation plc := (LaidModel.place e heap base).
Notation img := (image e heap pad fb base).

Lemma get_same : forall t j p pos w z s a lo, cel t j p pos w z -> fin t j p = None -> In (p, lo, w) (leaves (Struct s)) -> a + lo = base + pos -> get base mem a s p = get base img a s p.
Proof.
  intros t j p pos w z s a lo C N I A. rewrite (get_view e heap pad fb base LK HO this to options mem VW t j p pos w z s a lo C I A). unfold now. rewrite N.
  destruct (walk_leaf s p lo w I) as (u & W & SZ). unfold get. rewrite W, SZ, A. symmetry. apply load_number. exact (view_load e heap pad fb base LK HO _ img _ _ _ _ _ _ (view_start e heap pad fb base LK HO) C).
Qed.
Lemma object_same : forall l, object base mem l = object base img l.
Proof. intros l. rewrite (object_view e heap pad fb base LK HO S0 S1 this to options mem VW). symmetry. apply (object_place e heap pad fb base LK HO S0 S1). Qed.
Lemma null_same : forall o, object_or_null base mem o = object_or_null base img o.
Proof. intros [l|]; [apply object_same|reflexivity]. Qed.
Lemma objects_same : forall ls, map (object base mem) ls = map (object base img) ls.
Proof. intros ls. apply map_ext. exact object_same. Qed.
Lemma db_same : forall p o w, leaf_at (Struct DatabaseMem) p = Some (o, w) -> get base mem base DatabaseMem p = get base img base DatabaseMem p.
Proof. intros p o w LF. apply leaf_in in LF. exact (db_view e heap pad fb base LK HO this to options mem VW p o w LF). Qed.
Lemma info_same : forall n, info_object base mem n = info_object base img n.
Proof. intros n. unfold info_object. f_equal. eapply db_same. vm_compute. reflexivity. Qed.
Lemma name_same : forall n, name_object base mem n = name_object base img n.
Proof. intros n. unfold name_object. f_equal. eapply db_same. vm_compute. reflexivity. Qed.
Lemma kept_address : forall k j, k <> KFunction -> fin (STable k) j ["address"] = None.
Proof. intros k j K. unfold finished, done. destruct (list_eq_dec string_dec ["address"] ["database"]); [discriminate|]. destruct (list_eq_dec string_dec ["address"] ["address"]); [|congruence]. destruct (kind_eqb_spec k KFunction); [contradiction|reflexivity]. Qed.
Lemma row_same : forall k j p, V (k, j) -> (exists o w, leaf_at (Struct (struct_of k)) p = Some (o, w)) -> p <> ["database"] -> (p = ["address"] -> k <> KFunction) ->
  of_object base mem (k, j) p = of_object base img (k, j) p.
Proof.
  intros k j p H (o & w & LF) N1 N2. apply leaf_in in LF. destruct (hash_at_row L fuel db X e BE _ H) as (r & E & _). cbn [fst snd] in E. destruct (row_cell e heap fb base LK HO k j r p o w E LF) as (pos & C & P).
  unfold of_object. rewrite object_same. cbn [fst]. change (record_of k) with (struct_of k). apply (get_same (STable k) j p pos w _ _ _ o C); [|exact LF|rewrite (object_place e heap pad fb base LK HO S0 S1); lia].
  destruct (list_eq_dec string_dec p ["address"]) as [->|N3]; [apply kept_address; auto|]. apply fin_none; assumption.
Qed.
Lemma holds_same : forall k j p z, V (k, j) -> (exists o w, leaf_at (Struct (struct_of k)) p = Some (o, w)) -> p <> ["database"] -> (p = ["address"] -> k <> KFunction) ->
  object_holds base img (k, j) p z -> object_holds base mem (k, j) p z.
Proof.
  intros k j p z H LF N1 N2 (o & t & W & G). exists o, t. split; [exact W|]. rewrite <- G. exact (row_same k j p H LF N1 N2).
Qed.
(* ---- members ---- *)
Ltac lf := do 2 eexists; vm_compute; reflexivity.
Ltac same := rewrite row_same; [|assumption|lf|discriminate|discriminate].
Ltac hold := apply holds_same; [assumption|lf|discriminate|discriminate|].
Ltac desc := same; match goal with D : of_object _ _ _ ["ci"] = _ |- _ => rewrite D end; match goal with |- context [info_at ?d ?l] => destruct (info_at d l); [symmetry; apply info_same|reflexivity] end.
Lemma own_after : forall l i, at_ db l = Some i -> own_members_after db base mem l i.
Proof.
  intros [k j] i H. pose proof (at_valid db _ _ H) as HV. pose proof (own_read L fuel db X e heap pad fb base BE F LK HO S0 S1 _ _ H) as R. unfold own_members_after, own_members in *. destruct k; cbn [fst snd] in *.
  - destruct R as [R1 R2]. split; [hold; exact R1|desc].
  - hold. exact R.
  - destruct R as [R1 R2]. split; [hold; exact R1|desc].
  - destruct R as (R1 & R2 & R3 & R4 & R5 & R6). split; [same; rewrite null_same; exact R1|]. split; [hold; exact R2|]. split; [hold; exact R3|]. split; [hold; exact R4|]. split; [hold; exact R5|desc].
  - destruct R as (R1 & R2 & R3). split; [hold; exact R2|same; rewrite null_same; exact R3].
  - destruct R as [R1 R2]. split; [hold; exact R1|desc].
  - exact I.
  - destruct R as ((R1 & R2) & R3). split; [split; [hold; exact R1|desc]|]. intros n N. destruct (R3 n N) as [A B].
    assert (G : forall m, m = "parameter_types" \/ m = "parameter_ptrs" -> exists o w, leaf_at (Struct (struct_of KTemplateType)) [m; digit n] = Some (o, w)) by (intros m [-> | ->]; destruct n as [|[|[|[|n]]]]; [lf|lf|lf|lf|lia|lf|lf|lf|lf|lia]).
    split; [rewrite row_same; [|exact HV|apply G; auto|discriminate|discriminate]|apply holds_same; [exact HV|apply G; auto|discriminate|discriminate|exact B]].
    rewrite A. destruct (nth_error (it_args i) n); [symmetry; apply null_same|reflexivity].
  - exact I.
  - exact I.
  - hold. exact R.
  - hold. exact R.
  - same. rewrite null_same. exact R.
  - intros h a A B. same. destruct (exports_of _ _ _ e _ (C66_attributes L fuel db X) BE) as (_ & Q & _). destruct (Q j h a A) as (off & O & T). destruct (the_row L fuel db X e BE _ _ H) as (r & off' & E & _). cbn [fst snd] in E.
    assert (P : of_object base img (KTextAttr, j) ["value"] = address e heap base SAttrText + off).
    { destruct (leaf_at (Struct (struct_of KTextAttr)) ["value"]) as [[o w]|] eqn:LF; [|vm_compute in LF; discriminate LF]. assert (w = 8) by (vm_compute in LF; congruence). subst w.
      refine (row_adr e heap pad fb base LK HO S0 S1 KTextAttr j r _ SAttrText off o E _ (or_intror (or_introl eq_refl)) _ LF).
      - rewrite <- O. own.
      - exact (lk_vals e LK off (nth_error_In _ _ O)). }
    rewrite P. apply (text_view e heap pad fb base LK HO this to options mem VW SAttrText (x_attr_text e)); [right; left; reflexivity|reflexivity|exact T|exact B].
Qed.
(* ---- names ---- *)
Lemma object_name_after : forall l i, at_ db l = Some i -> of_object base mem l ["name"; "hash"] = n_hash (it_name i) /\ text_here base mem (of_object base mem l ["name"; "text"]) (n_text (it_name i)).
Proof.
  intros [k j] i H. pose proof (at_valid db _ _ H) as HV. destruct (names_read L fuel db X e heap pad fb base BE LK HO S0 S1 _ _ H) as [R _]. destruct (the_row L fuel db X e BE _ _ H) as (r & off & E & H1 & _ & _ & H2 & H3). cbn [fst snd] in E.
  rewrite !row_same; try assumption; try discriminate; try (destruct k; lf). split; [exact R|].
  assert (Q : of_object base img (k, j) ["name"; "text"] = address e heap base SNameText + off).
  { destruct (leaf_at (Struct (struct_of k)) ["name"; "text"]) as [[o w]|] eqn:LF; [|destruct k; vm_compute in LF; discriminate LF]. assert (w = 8) by (destruct k; vm_compute in LF; congruence). subst w.
    refine (row_adr e heap pad fb base LK HO S0 S1 k j r _ SNameText off o E _ (or_introl eq_refl) _ LF); [right; right; left; rewrite H2; reflexivity|].
    pose proof (lk_text e LK k r (nth_error_In _ _ E)) as Q. rewrite H2 in Q. exact Q. }
  rewrite Q. apply (text_view e heap pad fb base LK HO this to options mem VW SNameText (x_name_text e)); [left; reflexivity|reflexivity|exact H3|].
  destruct X as (W & N & _). apply (name_bytes L fuel db X (n_hash (it_name i)) (it_name i)). apply (item_known db W N k). unfold at_ in H. exact (nth_error_In _ _ H).
Qed.
Lemma name_after : forall i h n, nth_error (m_names db) i = Some (h, n) -> get base mem (name_object base mem i) Name ["hash"] = h /\ text_here base mem (get base mem (name_object base mem i) Name ["text"]) (n_text n).
Proof.
  intros i h n H. destruct (name_view L fuel db X e heap pad fb base F LK HO S0 S1 this to options mem VW i h n H) as (text & Q1 & Q2 & Q3). cbv zeta in Q1, Q2.
  assert (A : name_object base mem i = address e heap base SNames + Z.of_nat i * size_of (Struct Name)).
  { rewrite name_same. unfold name_object. f_equal. assert (D : In (["names"], SNames) db_arrays) by (cbn; tauto). exact (proj2 (db_array_read e heap pad fb base LK HO S0 S1 _ _ D)). }
  rewrite A. destruct name_leaves as [I1 I2]. destruct (walk_leaf _ _ _ _ I1) as (u1 & W1 & Z1). destruct (walk_leaf _ _ _ _ I2) as (u2 & W2 & Z2). unfold get. rewrite W1, W2, Z1, Z2, (load_number _ _ _ _ _ Q1), (load_number _ _ _ _ _ Q2). auto.
Qed.
Lemma container_after : forall i h c, nth_error (m_containers db) i = Some (h, c) -> let a := info_object base mem i in
  get base mem a ContainerInfo ["name"; "hash"] = n_hash (ci_name c) /\ text_here base mem (get base mem a ContainerInfo ["name"; "text"]) (n_text (ci_name c)) /\
  get base mem a ContainerInfo ["read_iterator_type"] = object_or_null base mem (type_named db (n_hash (ci_read c))) /\
  get base mem a ContainerInfo ["write_iterator_type"] = object_or_null base mem (type_named db (n_hash (ci_write c))) /\
  holds base mem a ContainerInfo ["flags"] (ci_flags c) /\ holds base mem a ContainerInfo ["count"] (ci_count c).
Proof.
  intros i h c H. destruct (container_read L fuel db X e heap pad fb base BE F LK HO S0 S1 i h c H) as (R1 & _ & R3 & R4 & R5 & R6).
  destruct (exports_of _ _ _ e _ (C64_containers L fuel db X) BE) as (_ & Q & _). destruct (Q i h c H) as ((inf & off & I1 & I2 & I3 & I4 & I5 & I6) & IT). clear Q.
  assert (FX : In SInfos fixed_tags) by (cbn; tauto). destruct (fixed_has e heap fb LK HO _ FX) as [o O].
  assert (A : info_object base img i = base + o + Z.of_nat i * size_of (Struct ContainerInfo)) by (rewrite (info_read e heap pad fb base LK HO S0 S1); cbn [info_addr]; rewrite (adr_has e heap base _ _ O); reflexivity).
  set (v := (inf, (or_null (type_named db (n_hash (ci_read c))), or_null (type_named db (n_hash (ci_write c)))))).
  assert (EL : nth_error (elems e heap fb base SInfos) i = Some (lookup (info_values e heap base v))).
  { cbn [elems]. apply (map_nth_error (fun x => lookup (info_values e heap base x))). clear -I1 IT. revert I1 IT. generalize (x_infos e) (x_iters e). induction i as [|i IH]; intros [|x l] [|y m] A B; try discriminate; cbn [nth_error combine] in *; [unfold v; congruence|apply IH; assumption]. }
  assert (G : forall p, (exists lo w, leaf_at (Struct ContainerInfo) p = Some (lo, w)) -> get base mem (info_object base img i) ContainerInfo p = get base img (info_object base img i) ContainerInfo p).
  { intros p (lo & w & LF). apply leaf_in in LF. apply (get_same SInfos i p (o + Z.of_nat i * size_of (Struct ContainerInfo) + lo) w (lookup (info_values e heap base v) p) _ _ lo); [|reflexivity|exact LF|rewrite A; lia].
    exists o, lo, (lookup (info_values e heap base v)). repeat split; assumption. }
  assert (GH : forall p z, (exists lo w, leaf_at (Struct ContainerInfo) p = Some (lo, w)) -> holds base img (info_object base img i) ContainerInfo p z -> holds base mem (info_object base img i) ContainerInfo p z).
  { intros p z LF (x & t & W & E). exists x, t. split; [exact W|]. rewrite <- E. exact (G p LF). }
  cbv zeta. rewrite info_same, !null_same. rewrite !G by lf. split; [exact R1|]. split; [|split; [exact R3|split; [exact R4|split; (apply GH; [lf|assumption])]]].
  assert (T : get base img (info_object base img i) ContainerInfo ["name"; "text"] = address e heap base SNameText + off).
  { destruct (leaf_at (Struct ContainerInfo) ["name"; "text"]) as [[lo w]|] eqn:LF; [|vm_compute in LF; discriminate LF]. assert (w = 8) by (vm_compute in LF; congruence). subst w. apply leaf_in in LF.
    pose proof (read_leaf e heap pad fb base LK HO SInfos ContainerInfo o i _ _ lo 8 eq_refl O EL LF) as Q. rewrite <- A in Q. rewrite Q. rewrite (lookup_nodup _ _ (text_addr e heap base SNameText (i_text inf)) (info_keys e heap base _)); [|right; left; reflexivity].
    rewrite I5. apply (text_addr_mod e heap pad fb base LK HO S0 S1). pose proof (lk_infos e LK inf (nth_error_In _ _ I1)) as Q'. rewrite I5 in Q'. exact Q'. }
  rewrite T. apply (text_view e heap pad fb base LK HO this to options mem VW SNameText (x_name_text e)); [left; reflexivity|reflexivity|exact I6|].
  destruct X as (W & N & _). pose proof (proj2 N h c (nth_error_In _ _ H)) as M. destruct M as [M|M]; [|exact (name_bytes L fuel db X _ _ M)]. exfalso.
  destruct W as (_ & _ & _ & _ & _ & _ & _ & _ & _ & _ & _ & _ & _ & _ & _ & _ & W & _). destruct W as [_ [_ W]]. destruct (W h c (nth_error_In _ _ H)) as [W1 W2]. congruence.
Qed.
(* ---- the arrays of base types ---- *)
Lemma bases_after : forall o, V o -> has_array (fst o) ABases -> array_here base mem (object base mem o) (record_of (fst o)) [array_name ABases] = map (object base mem) (bases_of db o).
Proof.
  intros [k j] H (lo & u & W). cbn [fst] in *. assert (E : x_arr e (ABases, (k, j)) = map ExportModel.Ptr (bases_of db (k, j))) by apply (fx_bases _ _ _ F).
  assert (VA : forall l, In l (bases_of db (k, j)) -> V l).
  { intros l I. pose proof (lk_arr e LK (ABases, (k, j))) as Q. rewrite E in Q. rewrite Forall_map, Forall_forall in Q. specialize (Q l I). cbn [ref_ok] in Q. apply (valid_iff L db e F). exact Q. }
  exact (proj2 (proj2 (cell_points L fuel db X e heap pad fb base BE F LK HO S0 S1 this to options mem VW k j ABases lo u (bases_of db (k, j)) H W E VA))).
Qed.
End Mem.
End Any.
(* ---- from what holds of the memory before the last steps of Load to what holds after ---- *)
Lemma reaches_and : forall L fuel db P Q, reaches_memory L fuel db P -> reaches_memory L fuel db Q -> reaches_memory L fuel db (fun fb base mem => P fb base mem /\ Q fb base mem).
Proof.
  intros L fuel db P Q (e & BE & H1) (e' & BE' & H2). assert (e' = e) by congruence. subst e'. exists e. split; [exact BE|]. intros heap pad fb start relpad HO S0 S1 RP.
  destruct (H1 heap pad fb start relpad HO S0 S1 RP) as (file & E & G1). destruct (H2 heap pad fb start relpad HO S0 S1 RP) as (file' & E' & G2). assert (file' = file) by congruence. subst file'. exists file. split; [exact E|].
  intros addr rest next live A0 A1 LV. destruct (G1 addr rest next live A0 A1 LV) as (mem & M1 & M2). destruct (G2 addr rest next live A0 A1 LV) as (mem' & M1' & M2'). assert (mem' = mem) by congruence. subst mem'. exists mem. auto.
Qed.
Lemma reaches_imp : forall L fuel db (P Q : Z -> Z -> list Z -> Prop), (forall fb base mem, P fb base mem -> Q fb base mem) -> reaches_memory L fuel db P -> reaches_memory L fuel db Q.
Proof.
  intros L fuel db P Q I (e & BE & H). exists e. split; [exact BE|]. intros heap pad fb start relpad HO S0 S1 RP. destruct (H heap pad fb start relpad HO S0 S1 RP) as (file & E & G). exists file. split; [exact E|].
  intros addr rest next live A0 A1 LV. destruct (G addr rest next live A0 A1 LV) as (mem & M1 & M2). exists mem. auto.
Qed.
Lemma still : forall L fuel db (P : Z -> Z -> list Z -> Prop) (Q : Z -> Z -> Z -> Z -> Z -> list Z -> list Z -> Prop), exportable L fuel db -> attributes_owned db -> reaches_memory L fuel db P ->
  (forall e heap pad fb base, BuildCppExport L fuel db = Ok e -> facts L db e -> linked e -> heap_ok e heap -> 0 < base -> base + image_size e heap < 2 ^ 64 ->
     forall this to options mem, view e heap pad fb base (finished e heap fb base this to options) mem -> P fb base (image e heap pad fb base) -> Q fb base this to options (image e heap pad fb base) mem) ->
  reaches_loaded L fuel db Q.
Proof.
  intros L fuel db P Q X OW R H. unfold reaches_loaded.
  refine (reaches_imp L fuel db _ _ _ (reaches_and L fuel db P _ R (to_memory L fuel db (fun fb base mem => P fb base mem -> forall this to options, exists mem', FinishLoad base mem this to options = Ok mem' /\ Q fb base this to options mem mem') X OW _))).
  - intros fb base mem [A B]. exact (B A).
  - intros e heap pad fb base BE F LK HO S0 S1 PM this to options. destruct (finish_view e heap pad fb base LK HO S0 S1 this to options) as (mem' & E & VW). exists mem'. split; [exact E|]. eapply H; eassumption.
Qed.
Lemma still0 : forall L fuel db (Q : Z -> Z -> Z -> Z -> Z -> list Z -> list Z -> Prop), exportable L fuel db -> attributes_owned db ->
  (forall e heap pad fb base, BuildCppExport L fuel db = Ok e -> facts L db e -> linked e -> heap_ok e heap -> 0 < base -> base + image_size e heap < 2 ^ 64 ->
     forall this to options mem, view e heap pad fb base (finished e heap fb base this to options) mem -> Q fb base this to options (image e heap pad fb base) mem) ->
  reaches_loaded L fuel db Q.
Proof.
  intros L fuel db Q X OW H. refine (still L fuel db (fun _ _ _ => True) Q X OW _ _); [|intros; eapply H; eassumption]. apply to_memory; try assumption. auto.
Qed.
