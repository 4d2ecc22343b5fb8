(* What a program sees in the memory of an exported database, in terms of the source database. *)
From Coq Require Import String Permutation Sorted.
From Verif Require Import Base BaseProofs Text Maps DatabaseModel MergeSpec MergeProofs ExportModel ExportSpec ExportProofs ExportTablesProofs ExportParentProofs ExportLinkProofs ExportMainProofs ExportWitness ExportProps.
From Verif Require Import MmapModel MmapSpec ImageLayout ImageModel ImageSpec LaidModel LaidSpec LaidProofs LaidImageProofs LaidLinkProofs LaidReadProofs LaidWitness.
#[local] Open Scope string_scope.
#[local] Open Scope Z_scope.
#[local] Open Scope list_scope.
Local Opaque sample.

Lemma exports_of : forall L fuel db e P, exports L fuel db P -> BuildCppExport L fuel db = Ok e -> P e.
Proof. intros L fuel db e P (e' & E & H) Q. assert (e' = e) by congruence. subst e'. exact H. Qed.
Lemma at_valid : forall db l i, at_ db l = Some i -> In l (places db (fst l)).
Proof. intros db l i H. unfold at_ in H. apply places_In. split; [reflexivity|]. apply nth_error_Some. congruence. Qed.
Lemma valid_at : forall db l, In l (places db (fst l)) -> exists i, at_ db l = Some i.
Proof. intros db l H. apply places_In in H. destruct H as [_ H]. unfold at_. destruct (nth_error (items db (fst l)) (snd l)) eqn:E; [eauto|]. apply nth_error_None in E. lia. Qed.
Ltac own := unfold prim_values; apply in_or_app; right; apply in_or_app; right; cbn [own_values app flat_map seq nth nth_error In]; tauto.

Section Any.
Variables (L : layout) (fuel : nat) (db : database).
Hypothesis X : exportable L fuel db.
Hypothesis OW : attributes_owned db.
Notation V l := (In l (places db (fst l))).
Section Mem.
Variables (e : export) (heap : list (tag * list Z)) (pad fb base : Z).
Hypothesis BE : BuildCppExport L fuel db = Ok e.
Hypothesis F : facts L db e.
Hypothesis LK : linked e.
Hypothesis HO : heap_ok e heap.
Hypothesis S0 : 0 < base.
Hypothesis S1 : base + image_size e heap < 2 ^ 64.
Notation mem := (image e heap pad fb base).
Notation rfa := (ref_addr e heap base).
Lemma the_row : forall l i, at_ db l = Some i -> exists r off, nth_error (x_rows e (fst l)) (snd l) = Some r /\ r_hash r = n_hash (it_name i) /\ r_data r = it_data i /\ r_uid r = it_uid i /\
       r_text r = Some off /\ text_at_offset (x_name_text e) off (n_text (it_name i)).
Proof. intros l i H. exact (proj1 (proj2 (exports_of _ _ _ e _ (C62_payload L fuel db X) BE) l i H)). Qed.
Lemma obj : forall l, object base mem l = LaidModel.place e heap base l.
Proof. intros l. apply object_place; assumption. Qed.
Lemma objs : forall ls, map (LaidModel.place e heap base) ls = map (object base mem) ls.
Proof. intros ls. apply map_ext. intros l. symmetry. apply obj. Qed.
Lemma null_or : forall o, rfa (or_null o) = object_or_null base mem o.
Proof. intros [l|]; cbn [or_null ref_addr object_or_null]; [symmetry; apply obj|reflexivity]. Qed.
Lemma ptrs : forall ls, map rfa (map ExportModel.Ptr ls) = map (object base mem) ls.
Proof. intros ls. rewrite map_map. apply objs. Qed.
Lemma valid_of : forall l, V l -> valid e l.
Proof. intros l H. apply (valid_iff L db e F). exact H. Qed.
Lemma obj_range : forall l, V l -> base < object base mem l /\ object base mem l + size_of (Struct (record_of (fst l))) <= base + image_size e heap.
Proof.
  intros [k j] H. apply valid_of in H. rewrite obj. pose proof (place_good e heap pad fb LK HO base _ H). split; [lia|]. unfold LaidModel.place. cbn [fst snd]. change (record_of k) with (struct_of k).
  unfold valid in H. cbn [fst snd] in H. destruct (fixed_has e heap fb LK HO _ (table_fixed k)) as [o O]. rewrite (adr_has e heap base _ _ O). destruct (ofs_range e heap pad fb LK HO _ _ O) as [_ O2]. cbn [live type_of] in O2. unfold zlen in O2.
  pose proof (size_pos (STable k)) as P. cbn [type_of] in P. nia.
Qed.
Lemma obj_apart : forall l l', V l -> V l' -> l <> l' -> object base mem l + size_of (Struct (record_of (fst l))) <= object base mem l' \/ object base mem l' + size_of (Struct (record_of (fst l'))) <= object base mem l.
Proof.
  intros [k j] [k' j'] H H' N. apply valid_of in H. apply valid_of in H'. rewrite !obj. unfold LaidModel.place. cbn [fst snd]. change (record_of k) with (struct_of k). change (record_of k') with (struct_of k'). unfold valid in H, H'. cbn [fst snd] in H, H'.
  destruct (fixed_has e heap fb LK HO _ (table_fixed k)) as [o O]. destruct (fixed_has e heap fb LK HO _ (table_fixed k')) as [o' O']. rewrite (adr_has e heap base _ _ O), (adr_has e heap base _ _ O').
  pose proof (size_pos (STable k)) as P. pose proof (size_pos (STable k')) as P'. cbn [type_of] in P, P'.
  destruct (kind_eqb_spec k k') as [<-|NK].
  - assert (o' = o) by congruence. subst o'. assert (NJ : j <> j') by congruence. destruct (Nat.lt_total j j') as [J|[J|J]]; [left; nia|contradiction|right; nia].
  - assert (NT : STable k <> STable k') by congruence. destruct (ofs_apart e heap pad fb LK HO _ _ _ _ NT O O') as [Q|Q]; cbn [live type_of] in Q; unfold zlen in Q; [left|right]; nia.
Qed.
Lemma db_num : forall p z o w, In (p, z) (db_values e heap fb base) -> leaf_at (Struct DatabaseMem) p = Some (o, w) -> get base mem base DatabaseMem p = z mod 256 ^ w.
Proof. intros p z o w I LF. apply leaf_in in LF. rewrite (read_db e heap pad fb base LK HO _ _ _ LF). rewrite (lookup_nodup _ _ _ (db_keys e heap fb base) I). reflexivity. Qed.
Lemma sizes : forall k, get base mem base DatabaseMem [table_of k; "size"] = zlen (items db k).
Proof.
  intros k. destruct (db_array_read e heap pad fb base LK HO S0 S1 [table_of k] (STable k) (table_member k)) as [Q _]. change ([table_of k] ++ ["size"]) with [table_of k; "size"] in Q. rewrite Q. cbn [live]. unfold zlen. rewrite (rows_length L db e F). reflexivity.
Qed.
Lemma kinds_read : forall l i, at_ db l = Some i -> nth_error kinds_in_order (Z.to_nat (of_object base mem l ["kind"])) = Some (Some (fst l)).
Proof.
  intros [k j] i H. destruct (the_row _ _ H) as (r & off & E & _). cbn [fst snd] in E. assert (Q : of_object base mem (k, j) ["kind"] = kind_code k mod 256 ^ 4).
  { destruct (leaf_at (Struct (struct_of k)) ["kind"]) as [[o w]|] eqn:LF; [|destruct k; vm_compute in LF; discriminate LF]. assert (w = 4) by (destruct k; vm_compute in LF; congruence). subst w.
    refine (proj1 (row_num e heap pad fb base LK HO S0 S1 k j r _ _ o 4 E _ LF)). left. reflexivity. }
  rewrite Q. destruct k; reflexivity.
Qed.
Lemma hash_small : forall k i, In i (items db k) -> 0 <= n_hash (it_name i) < 2 ^ 32.
Proof. intros k i I. destruct X as (W & N & _). apply (interned_range db W). apply (proj1 N k i I). Qed.
Lemma names_read : forall l i, at_ db l = Some i -> of_object base mem l ["name"; "hash"] = n_hash (it_name i) /\ text_here base mem (of_object base mem l ["name"; "text"]) (n_text (it_name i)).
Proof.
  intros [k j] i H. destruct (the_row _ _ H) as (r & off & E & H1 & _ & _ & H2 & H3). cbn [fst snd] in E. split.
  - assert (Q : of_object base mem (k, j) ["name"; "hash"] = r_hash r mod 256 ^ 4).
    { destruct (leaf_at (Struct (struct_of k)) ["name"; "hash"]) as [[o w]|] eqn:LF; [|destruct k; vm_compute in LF; discriminate LF]. assert (w = 4) by (destruct k; vm_compute in LF; congruence). subst w.
      refine (proj1 (row_num e heap pad fb base LK HO S0 S1 k j r _ _ o 4 E _ LF)). right. left. reflexivity. }
    rewrite Q, H1. apply Z.mod_small. apply (hash_small k). unfold at_ in H. exact (nth_error_In _ _ H).
  - assert (Q : of_object base mem (k, j) ["name"; "text"] = address e heap base SNameText + off).
    { destruct (leaf_at (Struct (struct_of k)) ["name"; "text"]) as [[o w]|] eqn:LF; [|destruct k; vm_compute in LF; discriminate LF]. assert (w = 8) by (destruct k; vm_compute in LF; congruence). subst w.
      refine (row_adr e heap pad fb base LK HO S0 S1 k j r _ SNameText off o E _ (or_introl eq_refl) _ LF); [right; right; left; rewrite H2; reflexivity|].
      pose proof (lk_text e LK k r (nth_error_In _ _ E)) as Q. rewrite H2 in Q. exact Q. }
    rewrite Q. apply (text_read e heap pad fb base LK HO SNameText (x_name_text e)); [left; reflexivity|reflexivity|exact H3|].
    destruct X as (W & N & _). assert (K : m_find (n_hash (it_name i)) (m_names db) = Some (it_name i)). { apply (item_known db W N k). unfold at_ in H. exact (nth_error_In _ _ H). }
    destruct W as (_ & W & _). apply m_find_In in K. apply W in K. destruct K as [K _]. eapply Forall_impl; [|exact K]. unfold is_byte. cbn. lia.
Qed.
Lemma parent_read : forall l, V l -> of_object base mem l ["parent"] = rfa (x_parent e l).
Proof.
  intros [k j] H. destruct (valid_at db _ H) as [i I]. destruct (the_row _ _ I) as (r & off & E & _). cbn [fst snd] in E.
  destruct (leaf_at (Struct (struct_of k)) ["parent"]) as [[o w]|] eqn:LF; [|destruct k; vm_compute in LF; discriminate LF]. assert (w = 8) by (destruct k; vm_compute in LF; congruence). subst w.
  refine (row_ref e heap pad fb base LK HO S0 S1 k j r _ _ o E _ _ LF); [do 3 right; left; reflexivity|]. apply (lk_parent e LK). apply valid_of. exact H.
Qed.
Lemma num : forall k j i p z, at_ db (k, j) = Some i -> (exists o w, leaf_at (Struct (struct_of k)) p = Some (o, w)) -> (forall r, r_data r = it_data i -> r_uid r = it_uid i -> In (p, z) (prim_values e heap base k (j, r))) ->
  object_holds base mem (k, j) p z.
Proof.
  intros k j i p z H (o & w & LF) I. destruct (the_row _ _ H) as (r & off & E & _ & D & U & _). cbn [fst snd] in E. exact (proj2 (row_num e heap pad fb base LK HO S0 S1 k j r p z o w E (I r D U) LF)).
Qed.
Lemma lnk : forall k j p x, V (k, j) -> (exists o, leaf_at (Struct (struct_of k)) p = Some (o, 8)) -> (forall r, In (p, rfa x) (prim_values e heap base k (j, r))) -> ref_ok e x -> of_object base mem (k, j) p = rfa x.
Proof.
  intros k j p x H (o & LF) I R. destruct (valid_at db _ H) as [i A]. destruct (the_row _ _ A) as (r & off & E & _). cbn [fst snd] in E. exact (row_ref e heap pad fb base LK HO S0 S1 k j r p x o E (I r) R LF).
Qed.
Lemma info_read : forall n, info_object base mem n = info_addr e heap base (Some n).
Proof.
  intros n. unfold info_object, info_addr. f_equal. assert (D : In (["container_infos"], SInfos) db_arrays) by (cbn; tauto). exact (proj2 (db_array_read e heap pad fb base LK HO S0 S1 _ _ D)).
Qed.
Lemma info_range : forall n, (n < length (x_infos e))%nat -> 0 <= info_addr e heap base (Some n) < 2 ^ 64.
Proof.
  intros n N. cbn [info_addr]. assert (FX : In SInfos fixed_tags) by (cbn; tauto). destruct (fixed_has e heap fb LK HO _ FX) as [o O]. rewrite (adr_has e heap base _ _ O).
  destruct (ofs_range e heap pad fb LK HO _ _ O) as [O1 O2]. cbn [live type_of] in O2. unfold zlen in O2. assert (0 < size_of (Struct ContainerInfo)) by reflexivity. nia.
Qed.
Lemma described_read : forall k j, V (k, j) -> (exists o, leaf_at (Struct (struct_of k)) ["ci"] = Some (o, 8)) -> (forall r, In (["ci"], info_addr e heap base (x_ci e (k, j))) (prim_values e heap base k (j, r))) ->
  of_object base mem (k, j) ["ci"] = match info_at db (k, j) with Some n => info_object base mem n | None => 0 end.
Proof.
  intros k j H (o & LF) I. destruct (valid_at db _ H) as [i A]. destruct (the_row _ _ A) as (r & off & E & _). cbn [fst snd] in E. rewrite (proj1 (row_num e heap pad fb base LK HO S0 S1 k j r _ _ o 8 E (I r) LF)).
  pose proof (lk_ci e LK (k, j)) as Q. rewrite (fx_ci _ _ _ F) in *. destruct (info_at db (k, j)) as [n|]; [|reflexivity]. rewrite info_read. apply Z.mod_small. apply info_range. apply Q. reflexivity.
Qed.
Ltac leaf := eexists; vm_compute; reflexivity.
Ltac leaf2 := do 2 eexists; vm_compute; reflexivity.
Ltac nums := eapply num; [eassumption|leaf2|]; intros r D U; rewrite <- ?D, <- ?U; own.
Ltac cis := apply described_read; [assumption|leaf|]; intros r; own.
Ltac links x := rewrite (lnk _ _ _ x); [|assumption|leaf|intros r; own|].
Lemma own_read : forall l i, at_ db l = Some i -> own_members db base mem l i.
Proof.
  intros [k j] i H. pose proof (at_valid db _ _ H) as HV. destruct (proj2 (exports_of _ _ _ e _ (C62_payload L fuel db X) BE) (k, j) i H) as (_ & HT & HA). pose proof (valid_of _ HV) as VE. unfold own_members. destruct k; cbn [fst snd].
  - split; [nums|cis].
  - nums.
  - split; [nums|cis].
  - split; [|split; [|split; [|split; [|split]]]]; try nums; try cis. links (x_type e (KField, j)); [rewrite HT; apply null_or|]. exact (lk_type e LK _ VE).
  - split; [nums|]. split; [nums|]. links (x_ret e (KFunction, j)); [rewrite (fx_ret _ _ _ F _ HV); apply null_or|]. exact (lk_ret e LK (KFunction, j) eq_refl VE).
  - split; [nums|cis].
  - exact I.
  - split; [split; [nums|cis]|]. intros n N. split.
    + assert (Q : of_object base mem (KTemplateType, j) ["parameter_types"; digit n] = rfa (nth n (x_args e (KTemplateType, j)) (ExportModel.Int 0))).
      { assert (R : ref_ok e (nth n (x_args e (KTemplateType, j)) (ExportModel.Int 0))).
        { pose proof (lk_args e LK _ VE) as A. destruct (Nat.lt_ge_cases n (length (x_args e (KTemplateType, j)))) as [B|B]; [|rewrite nth_overflow by exact B; reflexivity]. rewrite Forall_forall in A. apply A. apply nth_In. exact B. }
        destruct n as [|[|[|[|n]]]]; [| | | |lia]; (refine (lnk _ _ _ _ HV _ _ R); [leaf|intros r; own]). }
      rewrite Q, HA. clear Q. revert n N. generalize (it_args i). clear -X BE F LK HO S0 S1. intros l n _. revert n. induction l as [|t l IH]; intros n; [destruct n; reflexivity|]. destruct n as [|n]; cbn [map nth nth_error]; [apply null_or|apply IH].
    + destruct n as [|[|[|[|n]]]]; [| | | |lia]; nums.
  - exact I.
  - exact I.
  - nums.
  - nums.
  - links (x_prim e (KPrimAttr, j)); [|exact (lk_prim e LK _ VE)]. rewrite (fx_prim _ _ _ F _ HV). unfold ref_at. rewrite H. apply null_or.
  - intros h a A B. destruct (exports_of _ _ _ e _ (C66_attributes L fuel db X) BE) as (_ & Q & _). destruct (Q j h a A) as (off & O & T). 
    destruct (the_row _ _ H) as (r & off' & E & _). cbn [fst snd] in E.
    assert (P : of_object base mem (KTextAttr, j) ["value"] = address e heap base SAttrText + off).
    { destruct (leaf_at (Struct (struct_of KTextAttr)) ["value"]) as [[o w]|] eqn:LF; [|vm_compute in LF; discriminate LF]. assert (w = 8) by (vm_compute in LF; congruence). subst w.
      refine (row_adr e heap pad fb base LK HO S0 S1 KTextAttr j r _ SAttrText off o E _ (or_intror (or_introl eq_refl)) _ LF).
      - rewrite <- O. own.
      - exact (lk_vals e LK off (nth_error_In _ _ O)). }
    rewrite P. apply (text_read e heap pad fb base LK HO SAttrText (x_attr_text e)); [right; left; reflexivity|reflexivity|exact T|exact B].
Qed.
Lemma ctor_read : forall k j, k = KClass \/ k = KTemplateType -> V (k, j) -> of_object base mem (k, j) ["constructor"] = rfa (x_ctor e (k, j)) /\ of_object base mem (k, j) ["destructor"] = rfa (x_dtor e (k, j)).
Proof.
  intros k j K HV. destruct (lk_ctor e LK (k, j) K (valid_of _ HV)) as [A B]. destruct K as [-> | ->]; (split; [refine (lnk _ _ _ _ HV _ _ A)|refine (lnk _ _ _ _ HV _ _ B)]; first [leaf|intros r; own]).
Qed.
Lemma flags_read : forall k j, In k [KEnum; KField; KFunction; KClass] -> V (k, j) -> of_object base mem (k, j) ["flag_attributes"] = x_flags e (k, j) mod 2 ^ 32.
Proof.
  intros k j K HV. destruct (valid_at db _ HV) as [i A]. destruct (the_row _ _ A) as (r & off & E & _). cbn [fst snd] in E.
  destruct K as [<-|[<-|[<-|[<-|[]]]]]; (refine (proj1 (row_num e heap pad fb base LK HO S0 S1 _ j r _ _ _ 4 E _ _)); [own|vm_compute; reflexivity]).
Qed.
Lemma has_member : forall k a, has_array k a -> In ([array_name a], a) (kind_arrays k).
Proof. intros k a (o & u & W). destruct k, a; first [vm_compute in W; discriminate W | cbn; tauto]. Qed.
Lemma array_read : forall o a, V o -> has_array (fst o) a -> array_here base mem (object base mem o) (record_of (fst o)) [array_name a] = map rfa (x_arr e (a, o)).
Proof.
  intros [k j] a HV H. cbn [fst] in *. destruct (valid_at db _ HV) as [i A]. destruct (the_row _ _ A) as (r & off & E & _). cbn [fst snd] in E. exact (cell_read e heap pad fb base LK HO S0 S1 k j r _ a E (has_member k a H)).
Qed.
Lemma text_addr_mod : forall off, 0 <= off <= zlen (x_name_text e) -> text_addr e heap base SNameText (Some off) mod 256 ^ 8 = address e heap base SNameText + off.
Proof.
  intros off R. cbn [text_addr]. apply Z.mod_small. change (256 ^ 8) with (2 ^ 64). assert (FX : In SNameText fixed_tags) by (cbn; tauto). destruct (fixed_has e heap fb LK HO _ FX) as [x O]. rewrite (adr_has e heap base _ _ O).
  destruct (ofs_range e heap pad fb LK HO _ x O) as [X1 X2]. change (size_of (type_of SNameText)) with 1 in X2. cbn [live] in X2. lia.
Qed.
Lemma name_bytes : forall h n, m_find h (m_names db) = Some n -> Forall is_byte (n_text n).
Proof. intros h n K. destruct X as ((_ & W & _) & _). apply m_find_In in K. apply W in K. destruct K as [K _]. eapply Forall_impl; [|exact K]. unfold is_byte. cbn. lia. Qed.
Lemma name_read : forall i h n, nth_error (m_names db) i = Some (h, n) -> get base mem (name_object base mem i) Name ["hash"] = h /\ text_here base mem (get base mem (name_object base mem i) Name ["text"]) (n_text n).
Proof.
  intros i h n H. pose proof X as (W & _). pose proof (names_sorted db W) as SO. pose proof (nth_error_In _ _ H) as IN. assert (K : m_find h (m_names db) = Some n) by (apply ssorted_find; assumption).
  destruct (name_place db W h n K) as (off & G1 & G2). destruct (fx_names _ _ _ F) as [E1 E2].
  assert (N : nth_error (x_names e) i = Some (h, Some off)).
  { rewrite E2. pose proof (name_array_keys (m_names db)) as KS. assert (Q : nth_error (keys (name_array (m_names db))) i = Some h) by (rewrite KS; unfold keys; rewrite nth_error_map, H; reflexivity).
    unfold keys in Q. rewrite nth_error_map in Q. destruct (nth_error (name_array (m_names db)) i) as [[h' o]|] eqn:NE; [|discriminate Q]. cbn [option_map fst] in Q. assert (h' = h) by congruence. subst h'.
    assert (SK : ssorted (keys (name_array (m_names db)))) by (rewrite KS; exact SO). pose proof (ssorted_find _ _ _ _ SK (nth_error_In _ _ NE)) as Q2. congruence. }
  assert (FX : In SNames fixed_tags) by (cbn; tauto). destruct (fixed_has e heap fb LK HO _ FX) as [o O].
  assert (A : name_object base mem i = base + o + Z.of_nat i * size_of (Struct Name)).
  { unfold name_object. f_equal. assert (D : In (["names"], SNames) db_arrays) by (cbn; tauto). pose proof (proj2 (db_array_read e heap pad fb base LK HO S0 S1 _ _ D)) as Q. rewrite (adr_has e heap base _ _ O) in Q. exact Q. }
  assert (EL : nth_error (elems e heap fb base SNames) i = Some (lookup (name_values e heap base (h, Some off)))) by (cbn [elems]; apply (map_nth_error (fun n => lookup (name_values e heap base n))); exact N).
  rewrite A. split.
  - rewrite (read_leaf e heap pad fb base LK HO SNames Name o i _ ["hash"] 0 4 eq_refl O EL); [|vm_compute; tauto]. rewrite (lookup_nodup _ _ h (name_keys e heap base _)); [|left; reflexivity]. apply Z.mod_small. 
    pose proof W as (WN & _). destruct (proj2 WN h n K) as (HH & _). rewrite <- HH. apply (interned_range db W). right. rewrite HH. exact K.
  - destruct (leaf_at (Struct Name) ["text"]) as [[lo w]|] eqn:LF; [|vm_compute in LF; discriminate LF]. assert (w = 8) by (vm_compute in LF; congruence). subst w. apply leaf_in in LF.
    rewrite (read_leaf e heap pad fb base LK HO SNames Name o i _ ["text"] lo 8 eq_refl O EL LF). rewrite (lookup_nodup _ _ (text_addr e heap base SNameText (Some off)) (name_keys e heap base _)); [|right; left; reflexivity].
    rewrite text_addr_mod; [|pose proof (lk_names e LK _ (nth_error_In _ _ N)) as Q; exact Q].
    apply (text_read e heap pad fb base LK HO SNameText (x_name_text e)); [left; reflexivity|reflexivity|rewrite E1; exact G2|exact (name_bytes h n K)].
Qed.
Lemma container_read : forall i h c, nth_error (m_containers db) i = Some (h, c) -> let a := info_object base mem i in
  get base mem a ContainerInfo ["name"; "hash"] = n_hash (ci_name c) /\ text_here base mem (get base mem a ContainerInfo ["name"; "text"]) (n_text (ci_name c)) /\
  get base mem a ContainerInfo ["read_iterator_type"] = object_or_null base mem (type_named db (n_hash (ci_read c))) /\
  get base mem a ContainerInfo ["write_iterator_type"] = object_or_null base mem (type_named db (n_hash (ci_write c))) /\
  holds base mem a ContainerInfo ["flags"] (ci_flags c) /\ holds base mem a ContainerInfo ["count"] (ci_count c).
Proof.
  intros i h c H. destruct (exports_of _ _ _ e _ (C64_containers L fuel db X) BE) as (_ & Q & _). destruct (Q i h c H) as ((inf & off & I1 & I2 & I3 & I4 & I5 & I6) & IT). clear Q.
  assert (FX : In SInfos fixed_tags) by (cbn; tauto). destruct (fixed_has e heap fb LK HO _ FX) as [o O].
  assert (A : info_object base mem i = base + o + Z.of_nat i * size_of (Struct ContainerInfo)) by (rewrite info_read; cbn [info_addr]; rewrite (adr_has e heap base _ _ O); reflexivity).
  set (v := (inf, (or_null (type_named db (n_hash (ci_read c))), or_null (type_named db (n_hash (ci_write c)))))).
  assert (EL : nth_error (elems e heap fb base SInfos) i = Some (lookup (info_values e heap base v))).
  { cbn [elems]. apply (map_nth_error (fun x => lookup (info_values e heap base x))). clear -I1 IT. revert I1 IT. generalize (x_infos e) (x_iters e). induction i as [|i IH]; intros [|x l] [|y m] A B; try discriminate; cbn [nth_error combine] in *; [unfold v; congruence|apply IH; assumption]. }
  assert (G : forall p z lo w, leaf_at (Struct ContainerInfo) p = Some (lo, w) -> In (p, z) (info_values e heap base v) -> get base mem (info_object base mem i) ContainerInfo p = z mod 256 ^ w /\ holds base mem (info_object base mem i) ContainerInfo p z).
  { intros p z lo w LF I. apply leaf_in in LF. pose proof (read_leaf e heap pad fb base LK HO SInfos ContainerInfo o i _ p lo w eq_refl O EL LF) as Q. rewrite (lookup_nodup _ _ z (info_keys e heap base _) I) in Q. rewrite <- A in Q. split; [exact Q|].
    destruct (walk_leaf _ _ _ _ LF) as (t & W & SZ). exists lo, t. split; [exact W|]. rewrite SZ. exact Q. }
  assert (P : forall p x lo, leaf_at (Struct ContainerInfo) p = Some (lo, 8) -> In (p, rfa x) (info_values e heap base v) -> ref_ok e x -> get base mem (info_object base mem i) ContainerInfo p = rfa x).
  { intros p x lo LF I R. rewrite (proj1 (G _ _ _ _ LF I)). apply Z.mod_small. exact (ref_range e heap pad fb base LK HO S0 S1 x R). }
  cbv zeta. split; [|split; [|split; [|split; [|split]]]].
  - refine (eq_trans (proj1 (G _ _ _ 4 _ (or_introl eq_refl))) _); [vm_compute; reflexivity|]. rewrite I2. apply Z.mod_small. destruct X as (W & N & _). apply (interned_range db W). apply (proj2 N h). exact (nth_error_In _ _ H).
  - rewrite (proj1 (G ["name"; "text"] _ _ 8 ltac:(vm_compute; reflexivity) (or_intror (or_introl eq_refl)))). rewrite I5. rewrite text_addr_mod; [|pose proof (lk_infos e LK inf (nth_error_In _ _ I1)) as Q; rewrite I5 in Q; exact Q].
    apply (text_read e heap pad fb base LK HO SNameText (x_name_text e)); [left; reflexivity|reflexivity|exact I6|].
    destruct X as (W & N & _). pose proof (proj2 N h c (nth_error_In _ _ H)) as M. destruct M as [M|M]; [|exact (name_bytes _ _ M)]. exfalso.
    destruct W as (_ & _ & _ & _ & _ & _ & _ & _ & _ & _ & _ & _ & _ & _ & _ & _ & W & _). destruct W as [_ [_ W]]. destruct (W h c (nth_error_In _ _ H)) as [W1 W2]. congruence.
  - rewrite (P ["read_iterator_type"] (fst (snd v)) _ ltac:(vm_compute; reflexivity) (or_intror (or_intror (or_introl eq_refl)))); [apply null_or|]. apply (typed_ok L db e F).
  - rewrite (P ["write_iterator_type"] (snd (snd v)) _ ltac:(vm_compute; reflexivity) (or_intror (or_intror (or_intror (or_introl eq_refl))))); [apply null_or|]. apply (typed_ok L db e F).
  - rewrite <- I3. refine (proj2 (G _ _ _ _ _ _)); [vm_compute; reflexivity|]. do 4 right. left. reflexivity.
  - rewrite <- I4. refine (proj2 (G _ _ _ _ _ _)); [vm_compute; reflexivity|]. do 5 right. left. reflexivity.
Qed.
End Mem.
End Any.
