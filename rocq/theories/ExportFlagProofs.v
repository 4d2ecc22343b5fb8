(* Flag attributes and how classes inherit them. *)
From Verif Require Import Base BaseProofs Text HashModel HashSpec HashProofs SearchModel SearchProofs Maps DatabaseModel NamesProofs MergeSpec ExportModel ExportSpec ExportProofs ExportParentProofs ExportTablesProofs ExportLinkProofs.
From Coq Require Import Sorted Permutation.

Section Flags.
Variables (L : layout) (db : database) (T : table).
Notation nm := (name_array (m_names db)).
Notation names := (packed (name_texts (m_names db))).
Hypothesis HT : forall k, T k = T_of db nm k.
Hypothesis Hwf : wf_tables db.
Hypothesis Hint : all_interned db.
Notation V l := (In l (places db (fst l))).

Lemma literal_ok : forall s, forallb (fun c => (0 <? c) && (c <? 256)) (str s) && (zlen (str s) <? 1000) = true -> c_hash s = Ok (hash32 (str s) 0).
Proof.
  intros s H. apply andb_true_iff in H. destruct H as [H1 H2]. apply c_hash_ok. split; [apply str_ok; exact H1|]. lia.
Qed.
Lemma attribute_bits_ok : forall a, V a -> attribute_bits names T (Ptr a) = Ok (flag_value db a).
Proof.
  intros a Ha. unfold attribute_bits. cbn [loc_of obind]. rewrite (F_get db T HT) by exact Ha. cbn [obind].
  rewrite (F_hash db T HT) by exact Ha. rewrite (F_text db T HT Hwf Hint) by exact Ha.
  unfold flag_value, named.
  rewrite (literal_ok "disk_transient") by (vm_compute; reflexivity). cbn [obind]. destruct (hash_at db a =? hash32 (str "disk_transient") 0); [reflexivity|].
  rewrite (literal_ok "network_transient") by (vm_compute; reflexivity). cbn [obind]. destruct (hash_at db a =? hash32 (str "network_transient") 0); [reflexivity|].
  rewrite (literal_ok "replicate_transient") by (vm_compute; reflexivity). cbn [obind]. destruct (hash_at db a =? hash32 (str "replicate_transient") 0); [reflexivity|].
  rewrite (literal_ok "export_transient") by (vm_compute; reflexivity). cbn [obind]. destruct (hash_at db a =? hash32 (str "export_transient") 0); [reflexivity|].
  rewrite (literal_ok "transient") by (vm_compute; reflexivity). cbn [obind]. destruct (hash_at db a =? hash32 (str "transient") 0); [reflexivity|].
  rewrite (literal_ok "pre_save") by (vm_compute; reflexivity). cbn [obind]. destruct (hash_at db a =? hash32 (str "pre_save") 0); [reflexivity|].
  rewrite (literal_ok "post_load") by (vm_compute; reflexivity). cbn [obind]. destruct (hash_at db a =? hash32 (str "post_load") 0); [reflexivity|].
  rewrite (literal_ok "replicate") by (vm_compute; reflexivity). cbn [obind]. destruct (hash_at db a =? hash32 (str "replicate") 0); [reflexivity|].
  destruct (is_prefix (str "load_") (text_at db a)); [reflexivity|]. destruct (is_prefix (str "save_") (text_at db a)); [reflexivity|].
  rewrite (literal_ok "custom_flag") by (vm_compute; reflexivity). cbn [obind].
  destruct ((hash_at db a =? hash32 (str "custom_flag") 0) && kind_eqb (fst a) KIntAttr); [|reflexivity].
  rewrite (HT_row db T HT). destruct (T_row db a Ha) as [i (H1 & _ & ->)]. rewrite H1. reflexivity.
Qed.

Lemma bits_ok : forall ls b, (forall a, In a ls -> V a) ->
  exists b', each (fun a bits => do x <- attribute_bits names T a; Ok (Z.lor bits x)) (map Ptr ls) b = Ok b' /\
    forall n, Z.testbit b' n = true <-> (Z.testbit b n = true \/ exists a, In a ls /\ Z.testbit (flag_value db a) n = true).
Proof.
  induction ls as [|a ls IH]; intros b Hv; cbn [map each].
  - exists b. split; [reflexivity|]. intros n. split; [auto|]. intros [H|[a [[] _]]]; exact H.
  - rewrite attribute_bits_ok by (apply Hv; left; reflexivity). cbn [obind].
    destruct (IH (Z.lor b (flag_value db a))) as [b' [H1 H2]]; [intros; apply Hv; right; assumption|]. exists b'. split; [exact H1|].
    intros n. rewrite H2, Z.lor_spec, orb_true_iff. split.
    + intros [[H|H]|[x [Hx H]]]; [auto|right; exists a; split; [left; reflexivity|exact H]|right; exists x; split; [right; exact Hx|exact H]].
    + intros [H|[x [[<-|Hx] H]]]; [auto|auto|right; eauto].
Qed.

Variable arr : cell -> list ref.
Hypothesis Hattrs : forall l, Permutation (arr (AAttributes, l)) (map Ptr (attributes db l)).
Hypothesis Hbases : forall l, arr (ABases, l) = map Ptr (bases_of db l).

Lemma attr_list : forall l, exists ls, arr (AAttributes, l) = map Ptr ls /\ Permutation ls (attributes db l) /\ forall a, In a ls -> V a.
Proof.
  intros l. destruct (Permutation_map_inv _ _ (Hattrs l)) as [ls [E P]]. exists ls. split; [exact E|]. split; [apply Permutation_sym; exact P|].
  intros a Ha. apply (Permutation_in a (Permutation_sym P)) in Ha. apply child_valid in Ha. tauto.
Qed.
Lemma own_kinds : forall l n, own_flag db l n -> V l /\ In (fst l) [KEnum; KField; KFunction; KClass].
Proof.
  intros l n [a [Ha _]]. unfold attributes in Ha. apply child_valid in Ha. destruct Ha as (_ & Ho & Hl). unfold owner in Ho. apply first_owner_valid in Ho.
  split; [tauto|]. unfold lists in Hl. destruct (fst l), (fst a); cbn in Hl; try discriminate; cbn; tauto.
Qed.
Lemma add_flags : exists flags, AddFlagAttributeBits names T arr (locs T KEnum ++ locs T KField ++ locs T KFunction ++ locs T KClass) (fun _ => 0) = Ok flags /\
  forall l n, Z.testbit (flags l) n = true <-> own_flag db l n.
Proof.
  unfold AddFlagAttributeBits. rewrite !(F_locs db T HT). set (ls := places db KEnum ++ places db KField ++ places db KFunction ++ places db KClass).
  destruct (each_inv _ _ (fun l flags => do b <- GetFlagAttributeBits names T (arr (AAttributes, l)); Ok (upd flags l b)) (fun done flags =>
     (forall l n, In l done -> (Z.testbit (flags l) n = true <-> own_flag db l n)) /\ (forall l, ~ In l done -> flags l = 0)) ls (fun _ => 0)) as [flags [H1 [H2 H3]]].
  - split; [intros l n []|reflexivity].
  - intros done l flags _ [I1 I2]. destruct (attr_list l) as (as_ & E & P & Hv). unfold GetFlagAttributeBits. rewrite E.
    destruct (bits_ok as_ 0 Hv) as [b [B1 B2]]. rewrite B1. cbn [obind]. eexists. split; [reflexivity|]. split.
    + intros x n Hx. destruct (loc_eqb_spec l x) as [<-|Hne].
      * rewrite upd_same, B2, Z.bits_0. unfold own_flag. split.
        -- intros [H|[a [Ha H]]]; [discriminate|]. exists a. split; [apply (Permutation_in a P); exact Ha|exact H].
        -- intros [a [Ha H]]. right. exists a. split; [apply (Permutation_in a (Permutation_sym P)); exact Ha|exact H].
      * rewrite upd_other by exact Hne. apply I1. apply in_app_or in Hx. destruct Hx as [Hx|[Hx|[]]]; [exact Hx|congruence].
    + intros x Hx. rewrite upd_other by (intros ->; apply Hx; apply in_or_app; right; left; reflexivity). apply I2. intros Hin. apply Hx. apply in_or_app. left. exact Hin.
  - exists flags. split; [exact H1|]. intros l n. destruct (in_dec (fun x y => reflect_dec _ _ (loc_eqb_spec x y)) l ls) as [Hin|Hin]; [apply H2; exact Hin|].
    rewrite (H3 l Hin), Z.bits_0. split; [discriminate|]. intros Ho. exfalso. apply own_kinds in Ho. destruct Ho as [Hv Hk]. apply Hin. unfold ls. rewrite !in_app_iff.
    cbn in Hk. destruct Hk as [E|[E|[E|[E|[]]]]]; rewrite <- E in Hv; tauto.
Qed.

(* ---- inheritance ---- *)
Definition inherits (l : loc) (n : Z) : Prop := exists a, derives db l a /\ hands_down db a n.
Lemma inherits_step : forall l n, inherits l n <-> hands_down db l n \/ exists b, In b (bases_of db l) /\ inherits b n.
Proof.
  intros l n. split.
  - intros [a [Hd Hh]]. inversion Hd; subst; [auto|]. right. exists b. split; [assumption|]. exists a. auto.
  - intros [H|[b [Hb [a [Hd Hh]]]]]; [exists l; split; [constructor|exact H]|]. exists a. split; [econstructor; eassumption|exact Hh].
Qed.
Definition fair (flags : loc -> Z) : Prop := forall l n,
  (own_flag db l n -> Z.testbit (flags l) n = true) /\
  (Z.testbit (flags l) n = true -> own_flag db l n \/ (fst l = KClass /\ inherits l n)).
Definition grows (f g : loc -> Z) : Prop := forall l n, Z.testbit (f l) n = true -> Z.testbit (g l) n = true.

Lemma hashes_differ : hash32 (str "custom_flag_inherit") 0 =? hash32 (str "custom_flag") 0 = false.
Proof. vm_compute. reflexivity. Qed.
Lemma custom_ok : forall ls s, (forall a, In a ls -> V a) ->
  exists s', each (custom_flags T (hash32 (str "custom_flag") 0) (hash32 (str "custom_flag_inherit") 0)) (map Ptr ls) s = Ok s' /\
    (forall n, Z.testbit (fst s') n = true <-> (Z.testbit (fst s) n = true \/ exists a i, In a ls /\ named db a "custom_flag" = true /\ fst a = KIntAttr /\ at_ db a = Some i /\
        Z.testbit (hd 0 (it_data i) mod 2 ^ 32) n = true)) /\
    ((snd s' = snd s /\ forall a, In a ls -> named db a "custom_flag_inherit" = false) \/ (snd s' = 4294967295 /\ exists a, In a ls /\ named db a "custom_flag_inherit" = true)).
Proof.
  induction ls as [|a ls IH]; intros s Hv; cbn [map each].
  - exists s. split; [reflexivity|]. split.
    + intros n. split; [auto|]. intros [H|[a [i [[] _]]]]; exact H.
    + left. split; [reflexivity|intros a []].
  - assert (Ha : V a) by (apply Hv; left; reflexivity). unfold custom_flags at 1. cbn [loc_of obind]. rewrite (F_get db T HT) by exact Ha. cbn [obind].
    rewrite (F_hash db T HT) by exact Ha. fold (named db a "custom_flag"). fold (named db a "custom_flag_inherit").
    destruct (T_row db a Ha) as [i (Hi & _ & Hr)].
    assert (Hval : u32 (int_value (row_or T a)) = hd 0 (it_data i) mod 2 ^ 32) by (rewrite (HT_row db T HT), Hr; reflexivity).
    rewrite Hval.
    destruct (named db a "custom_flag" && kind_eqb (fst a) KIntAttr) eqn:E1.
    + cbn [obind]. apply andb_true_iff in E1. destruct E1 as [E1 E2]. destruct (kind_eqb_spec (fst a) KIntAttr) as [Ek|]; [|discriminate].
      assert (Eh : named db a "custom_flag_inherit" = false).
      { unfold named in *. apply Z.eqb_eq in E1. rewrite E1, Z.eqb_sym. exact hashes_differ. }
      destruct (IH (Z.lor (fst s) (hd 0 (it_data i) mod 2 ^ 32), snd s)) as (s' & H1 & H2 & H3); [intros; apply Hv; right; assumption|].
      exists s'. split; [exact H1|]. cbn [fst snd] in *. split.
      * intros n. rewrite H2, Z.lor_spec, orb_true_iff. split.
        -- intros [[H|H]|[x [j [Hx H]]]]; [auto|right; exists a, i; split; [left; reflexivity|]; auto|right; exists x, j; split; [right; exact Hx|exact H]].
        -- intros [H|[x [j [[<-|Hx] H]]]]; [auto| |right; exists x, j; auto]. destruct H as (_ & _ & H & H4). rewrite Hi in H. injection H as <-. auto.
      * destruct H3 as [[H3 H4]|[H3 [x [Hx H4]]]]; [left|right].
        -- split; [exact H3|]. intros x [<-|Hx]; [exact Eh|apply H4; exact Hx].
        -- split; [exact H3|]. exists x. split; [right; exact Hx|exact H4].
    + assert (Hno : forall n, ~ (named db a "custom_flag" = true /\ fst a = KIntAttr /\ at_ db a = Some i /\ Z.testbit (hd 0 (it_data i) mod 2 ^ 32) n = true)).
      { intros n (N1 & N2 & _). rewrite N1, N2 in E1. discriminate. }
      set (s1 := if named db a "custom_flag_inherit" then (fst s, 4294967295) else s).
      assert (Es : (if named db a "custom_flag_inherit" then Ok (fst s, 4294967295) else Ok s) = Ok s1) by (unfold s1; destruct (named db a "custom_flag_inherit"); reflexivity).
      rewrite Es. cbn [obind]. destruct (IH s1) as (s' & H1 & H2 & H3); [intros; apply Hv; right; assumption|]. exists s'. split; [exact H1|]. split.
      * intros n. rewrite H2. replace (fst s1) with (fst s) by (unfold s1; destruct (named db a "custom_flag_inherit"); reflexivity). split.
        -- intros [H|[x [j [Hx H]]]]; [auto|right; exists x, j; split; [right; exact Hx|exact H]].
        -- intros [H|[x [j [[<-|Hx] H]]]]; [auto| |right; exists x, j; auto]. exfalso. destruct H as (N1 & N2 & N3 & N4). apply (Hno n). rewrite Hi in N3. injection N3 as <-. auto.
      * destruct H3 as [[H3 H4]|[H3 [x [Hx H4]]]].
        -- unfold s1 in H3. destruct (named db a "custom_flag_inherit") eqn:Eh; cbn [snd] in H3.
           ++ right. split; [exact H3|]. exists a. split; [left; reflexivity|exact Eh].
           ++ left. split; [exact H3|]. intros x [<-|Hx]; [exact Eh|apply H4; exact Hx].
        -- right. split; [exact H3|]. exists x. split; [right; exact Hx|exact H4].
Qed.

Lemma inherited_ok : forall flags l, fair flags -> fst l = KClass ->
  exists own, GetInheritedFlagAttributes T arr flags l = Ok own /\
    forall n, (Z.testbit own n = true -> inherits l n) /\ (hands_down db l n -> Z.testbit own n = true).
Proof.
  intros flags l Hf Hk. unfold GetInheritedFlagAttributes.
  rewrite (literal_ok "custom_flag") by (vm_compute; reflexivity). cbn [obind]. rewrite (literal_ok "custom_flag_inherit") by (vm_compute; reflexivity). cbn [obind].
  destruct (attr_list l) as (ls & E & P & Hv). rewrite E. destruct (custom_ok ls (0, 0) Hv) as ([c m] & H1 & H2 & H3). rewrite H1. cbn [obind fst snd] in *.
  eexists. split; [reflexivity|]. intros n. rewrite Z.lor_spec, !Z.land_spec. unfold attrFlag_Replicate. change 256 with (2 ^ 8). rewrite Z.pow2_bits_eqb by lia.
  assert (Hc : Z.testbit c n = true <-> custom_flag_bit db l n).
  { rewrite H2, Z.bits_0. unfold custom_flag_bit. split.
    - intros [H|[a [i [Ha H]]]]; [discriminate|]. exists a, i. split; [apply (Permutation_in a P); exact Ha|exact H].
    - intros [a [i [Ha H]]]. right. exists a, i. split; [apply (Permutation_in a (Permutation_sym P)); exact Ha|exact H]. }
  split.
  - intros H. apply orb_true_iff in H. destruct H as [H|H]; apply andb_true_iff in H; destruct H as [HA HB].
    + apply Z.eqb_eq in HB. destruct (Hf l n) as [_ Hf2]. destruct (Hf2 HA) as [Ho|[_ Hi]]; [|exact Hi]. exists l. split; [constructor|]. split; [exact Hk|]. left. subst n. auto.
    + destruct H3 as [[-> _]|[_ [a [Ha Hn]]]]; [rewrite Z.bits_0 in HB; discriminate|]. exists l. split; [constructor|]. split; [exact Hk|]. right. split; [|apply Hc; exact HA].
      exists a. split; [apply (Permutation_in a P); exact Ha|exact Hn].
  - intros [_ [[-> Ho]|[[a [Ha Hn]] Hb]]]; apply orb_true_iff.
    + left. apply andb_true_iff. split; [apply (Hf l 8); exact Ho|reflexivity].
    + right. apply andb_true_iff. split; [apply Hc; exact Hb|]. destruct H3 as [[_ H3]|[-> _]].
      * rewrite H3 in Hn by (apply (Permutation_in a (Permutation_sym P)); exact Ha). discriminate.
      * destruct Hb as (x & i & _ & _ & _ & _ & Hb). change 4294967295 with (Z.ones 32). apply Z.ones_spec_iff; [lia|].
        destruct (Z.lt_ge_cases n 0) as [Hneg|Hpos]; [rewrite Z.testbit_neg_r in Hb by exact Hneg; discriminate|].
        destruct (Z.lt_ge_cases n 32) as [Hlt|Hge]; [lia|]. rewrite Z.mod_pow2_bits_high in Hb by lia. discriminate.
Qed.

Variables (fuel : nat) (rank : loc -> nat).
Hypothesis Hfuel : forall l, (rank l < fuel)%nat.
Hypothesis Hrank : forall l b, In b (bases_of db l) -> (rank b < rank l)%nat.

Lemma inherit_ok : forall n l flags, (rank l < n)%nat -> fair flags ->
  exists inh flags', InheritFlags n T arr (Ptr l) flags = Ok (inh, flags') /\ fair flags' /\ grows flags flags' /\
    (forall b, Z.testbit inh b = true <-> inherits l b) /\ (fst l = KClass -> forall b, inherits l b -> Z.testbit (flags' l) b = true).
Proof.
  induction n as [|n IH]; intros l flags Hr Hf; [lia|]. cbn [InheritFlags loc_of obind]. rewrite Hbases.
  match goal with |- context [?f (map Ptr (bases_of db l)) (0, flags)] => set (loop := f) end.
  assert (Hloop : forall bs inh0 fl0, (forall b, In b bs -> In b (bases_of db l)) -> fair fl0 ->
     exists inh fl, loop (map Ptr bs) (inh0, fl0) = Ok (inh, fl) /\ fair fl /\ grows fl0 fl /\
       forall x, Z.testbit inh x = true <-> (Z.testbit inh0 x = true \/ exists b, In b bs /\ inherits b x)).
  { induction bs as [|b bs IHb]; intros inh0 fl0 Hin Hf0.
    - exists inh0, fl0. split; [reflexivity|]. split; [exact Hf0|]. split; [intros ? ? H; exact H|]. intros x. split; [auto|]. intros [H|[b [[] _]]]; exact H.
    - destruct (IH b fl0) as (inh1 & fl1 & A1 & A2 & A3 & A4 & _); [|exact Hf0|].
      { assert (rank b < rank l)%nat by (apply Hrank, Hin; left; reflexivity). lia. }
      destruct (IHb (Z.lor inh0 inh1) fl1) as (inh2 & fl2 & B1 & B2 & B3 & B4); [intros; apply Hin; right; assumption|exact A2|].
      exists inh2, fl2. split; [|split; [exact B2|split; [intros ? ? H; apply B3, A3, H|]]].
      + change (loop (map Ptr (b :: bs)) (inh0, fl0)) with (do x <- InheritFlags n T arr (Ptr b) fl0; loop (map Ptr bs) (Z.lor inh0 (fst x), snd x)).
        rewrite A1. cbn [obind fst snd]. exact B1.
      + intros x. rewrite B4, Z.lor_spec, orb_true_iff, A4. split.
        * intros [[H|H]|[y [Hy H]]]; [auto|right; exists b; split; [left; reflexivity|exact H]|right; exists y; split; [right; exact Hy|exact H]].
        * intros [H|[y [[<-|Hy] H]]]; [auto|auto|right; eauto]. }
  destruct (Hloop (bases_of db l) 0 flags) as (inh & fl & L1 & L2 & L3 & L4); [auto|exact Hf|]. rewrite L1. cbn [obind fst snd].
  destruct (kind_eqb_spec (fst l) KClass) as [Ek|Ek].
  - destruct (inherited_ok fl l L2 Ek) as (own & O1 & O2). rewrite O1. cbn [obind].
    assert (Hin : forall b, Z.testbit (Z.lor inh own) b = true <-> inherits l b).
    { intros b. rewrite Z.lor_spec, orb_true_iff, L4, Z.bits_0. split.
      - intros [[H|H]|H]; [discriminate| |apply O2; exact H]. apply inherits_step. right. exact H.
      - intros H. apply inherits_step in H. destruct H as [H|H]; [right; apply O2; exact H|left; right; exact H]. }
    eexists _, _. split; [reflexivity|]. split; [|split; [|split; [exact Hin|]]].
    + intros x b. destruct (loc_eqb_spec l x) as [<-|Hne]; [rewrite upd_same|rewrite upd_other by exact Hne; apply L2].
      rewrite Z.lor_spec, orb_true_iff, Hin. destruct (L2 l b) as [P1 P2]. split; [intros H; left; apply P1; exact H|]. intros [H|H]; [apply P2; exact H|right; auto].
    + intros x b H. apply L3 in H. destruct (loc_eqb_spec l x) as [<-|Hne]; [rewrite upd_same, Z.lor_spec, H; reflexivity|rewrite upd_other by exact Hne; exact H].
    + intros _ b H. rewrite upd_same, Z.lor_spec. apply orb_true_iff. right. apply Hin. exact H.
  - eexists _, _. split; [reflexivity|]. split; [exact L2|]. split; [exact L3|]. split; [|congruence].
    intros b. rewrite L4, Z.bits_0. split.
    + intros [H|H]; [discriminate|]. apply inherits_step. right. exact H.
    + intros H. apply inherits_step in H. destruct H as [[H _]|H]; [congruence|right; exact H].
Qed.

Lemma inherit_all : forall flags, (forall l n, Z.testbit (flags l) n = true <-> own_flag db l n) ->
  exists flags', InheritFlagAttributes fuel T arr flags = Ok flags' /\
    forall l n, Z.testbit (flags' l) n = true <-> own_flag db l n \/ (In l (places db KClass) /\ inherits l n).
Proof.
  intros flags H0. unfold InheritFlagAttributes. rewrite (F_locs db T HT).
  destruct (each_inv _ _ (fun l flags => do x <- InheritFlags fuel T arr (Ptr l) flags; Ok (snd x)) (fun done fl => fair fl /\ grows flags fl /\
     forall l b, In l done -> inherits l b -> Z.testbit (fl l) b = true) (places db KClass) flags) as [fl [H1 (H2 & H3 & H4)]].
  - split; [|split; [intros ? ? H; exact H|intros l b []]]. intros l n. split; [apply H0|]. intros H. left. apply H0. exact H.
  - intros done l fl [rest E] (I1 & I2 & I3). destruct (inherit_ok fuel l fl (Hfuel l) I1) as (inh & fl' & A1 & A2 & A3 & A4 & A5). rewrite A1. cbn [obind snd].
    eexists. split; [reflexivity|]. split; [exact A2|]. split; [intros ? ? H; apply A3, I2, H|]. intros x b Hx Hi. apply in_app_or in Hx.
    destruct Hx as [Hx|[<-|[]]]; [apply A3; apply I3; assumption|]. apply A5; [|exact Hi].
    assert (Hl : In l (places db KClass)) by (rewrite E; apply in_or_app; right; left; reflexivity). apply places_In in Hl. tauto.
  - exists fl. split; [exact H1|]. intros l n. split.
    + intros H. apply H2 in H. destruct H as [H|[Hk Hi]]; [auto|]. pose proof Hi as Hi2. right. split; [|exact Hi].
      (* an ancestor reached: l itself has attributes, or is a type *)
      destruct Hi as [a [Hd Hh]]. inversion Hd; subst.
      * assert (Hv : V a). { destruct Hh as [_ [[_ Ho]|[[x [Hx _]] _]]]; [apply own_kinds in Ho; tauto|]. unfold attributes in Hx. apply child_valid in Hx. destruct Hx as (_ & Ho & _). apply first_owner_valid in Ho. tauto. }
        rewrite Hk in Hv. exact Hv.
      * unfold bases_of in H. apply in_flat_map in H. destruct H as [e [_ H]]. destruct (type_named db (n_hash (ti_base (snd e)))); [|contradiction].
        destruct (type_named db (n_hash (ti_derived (snd e)))) as [d|] eqn:Ed; [|contradiction]. destruct (loc_eqb_spec d l) as [->|]; [|contradiction].
        apply type_valid in Ed. destruct Ed as [Ed _]. rewrite Hk in Ed. exact Ed.
    + intros [H|[Hl Hi]]; [apply H2; exact H|]. apply H4; assumption.
Qed.
End Flags.
