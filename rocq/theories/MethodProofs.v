(* Type::DerivesFrom and Enum::GetValueName on the memory of a loaded database. *)
From Coq Require Import String Permutation Sorted.
From Verif Require Import Base BaseProofs Text Maps HashModel HashSpec HashProofs SearchModel RuntimeModel DatabaseModel NamesProofs MergeSpec MergeProofs ExportModel ExportSpec ExportProofs ExportTablesProofs ExportParentProofs ExportLinkProofs ExportMainProofs ExportWitness ExportProps.
From Verif Require Import ImageLayout ImageModel ImageSpec LaidModel LaidSpec LaidProofs LaidImageProofs LaidLinkProofs LaidReadProofs LaidMemProofs QueryModel QueryViewProofs QueryLoadProofs QuerySearchProofs.
#[local] Open Scope string_scope.
#[local] Open Scope Z_scope.
#[local] Open Scope list_scope.
Local Opaque sample.

From Verif Require Import MmapModel MmapSpec QueryProofs QuerySpec QueryStillProofs MethodModel.
Section Any.
Variables (L : layout) (fuel : nat) (db : database).
Hypothesis X : exportable L fuel db.
Notation V l := (In l (places db (fst l))).
Section Mem.
Variables (e : export) (heap : list (tag * list Z)) (pad fb base : Z).
Hypothesis BE : BuildCppExport L fuel db = Ok e.
Hypothesis F : facts L db e.
Hypothesis LK : linked e.
Hypothesis HO : heap_ok e heap.
Hypothesis S0 : 0 < base.
Hypothesis S1 : base + image_size e heap < 2 ^ 64.
Variables (this to options : Z) (mem : list Z).
Hypothesis VW : view e heap pad fb base (finished e heap fb base this to options) mem.
Notation fin := (finished e heap fb base this to options).
Notation plc := (LaidModel.place e heap base).
Notation pts := (points e heap base mem).

(* entry i of an array of pointers *)
Lemma pts_entry : forall a ls i l, pts a ls -> nth_error ls i = Some l -> exists p, element base mem a 8 (Z.of_nat i) = Ok p /\ load base mem p 8 = Ok (plc l).
Proof.
  intros a ls i l (SZ & d & DT & EL) N. exists (d + Z.of_nat i * 8). assert (J : (i < length ls)%nat) by (apply nth_error_Some; congruence). unfold element. rewrite SZ. cbn [obind]. replace (Z.of_nat i <? zlen ls) with true by (unfold zlen; lia). rewrite DT. cbn [obind]. split; [reflexivity|exact (EL i l N)].
Qed.
Lemma any_ok : forall test (P : loc -> Prop) a ls, pts a ls -> zlen ls <= 2 ^ 30 -> (forall l, In l ls -> exists r, test (plc l) = Ok r /\ (r = true <-> P l)) ->
  forall post pre n, ls = pre ++ post -> (length post < n)%nat -> exists r, any_of n test base mem a (zlen pre) = Ok r /\ (r = true <-> exists l, In l post /\ P l).
Proof.
  intros test P a ls PT SM T post. induction post as [|l post IH]; intros pre n E N; (destruct n as [|n]; [cbn [length] in N; lia|]); cbn [any_of]; rewrite (proj1 PT); cbn [obind].
  - rewrite app_nil_r in E. subst pre. rewrite Z.ltb_irrefl. exists false. split; [reflexivity|]. split; [discriminate|]. intros (l & [] & _).
  - assert (LN : zlen ls = zlen pre + 1 + zlen post) by (rewrite E; unfold zlen; rewrite app_length; cbn [length]; lia). pose proof (zlen_nonneg _ pre) as Z1. pose proof (zlen_nonneg _ post) as Z2. replace (zlen pre <? zlen ls) with true by lia.
    assert (NE : nth_error ls (length pre) = Some l) by (rewrite E, nth_error_app2, Nat.sub_diag by lia; reflexivity). destruct (pts_entry a ls _ l PT NE) as (p & E1 & E2). unfold zlen at 1. rewrite E1. cbn [obind]. rewrite E2. cbn [obind].
    destruct (T l (nth_error_In _ _ NE)) as (r & Q1 & Q2). rewrite Q1. cbn [obind]. destruct r.
    + exists true. split; [reflexivity|]. split; [|reflexivity]. intros _. exists l. split; [left; reflexivity|]. apply Q2. reflexivity.
    + replace (u32 (zlen pre + 1)) with (zlen (pre ++ [l])). 2:{ unfold zlen. rewrite app_length. cbn [length]. unfold u32. rewrite Z.mod_small; unfold zlen in *; lia. }
      destruct (IH (pre ++ [l]) n) as (r & R1 & R2); [rewrite E, <- app_assoc; reflexivity|cbn [length] in N; lia|]. exists r. split; [exact R1|]. rewrite R2. split; [intros (x & I & Px); exists x; split; [right; exact I|exact Px]|].
      intros (x & [<-|I] & Px); [|eauto]. exfalso. apply Q2 in Px. discriminate Px.
Qed.
Definition type_kind (k : kind) : Prop := k = KType \/ k = KClass \/ k = KEnum \/ k = KTemplateType.
Lemma type_place_kind : forall l, In l (type_places db) <-> V l /\ type_kind (fst l).
Proof.
  intros [k j]. unfold type_places, type_kind. rewrite !in_app_iff. cbn [fst]. split.
  - intros [I|[I|[I|I]]]; pose proof (proj1 (proj1 (places_In _ _ _) I)) as K; cbn [fst] in K; subst k; auto 6.
  - intros [I [-> |[-> |[-> | ->]]]]; auto.
Qed.
Lemma base_type : forall l b, In b (bases_of db l) -> In b (type_places db).
Proof.
  intros l b I. unfold bases_of in I. apply in_flat_map in I. destruct I as ([h t] & _ & I). destruct (type_named db (n_hash (ti_base (snd (h, t))))) as [b'|] eqn:B; [|destruct I]. destruct (type_named db (n_hash (ti_derived (snd (h, t))))) as [d|]; [|destruct I].
  destruct (loc_eqb d l); [|destruct I]. destruct I as [<-|[]]. unfold type_named in B. apply find_some in B. tauto.
Qed.
Lemma base_points : forall t, In t (type_places db) -> pts (plc t + OffsetOf Type_ "base_types") (bases_of db t) /\ zlen (bases_of db t) <= 2 ^ 30.
Proof.
  intros [k j] H. apply type_place_kind in H. destruct H as [H K]. cbn [fst] in *. assert (W : exists u, walk (Struct (record_of k)) [array_name ABases] = Some (OffsetOf Type_ "base_types", Arr u)) by (destruct K as [-> |[-> |[-> | ->]]]; eexists; vm_compute; reflexivity).
  destruct W as (u & W). rewrite <- (object_view e heap pad fb base LK HO S0 S1 this to options mem VW).
  destruct (cell_points L fuel db X e heap pad fb base BE F LK HO S0 S1 this to options mem VW k j ABases _ u (bases_of db (k, j)) H W (fx_bases _ _ _ F (k, j))) as (P & SM & _); [|auto].
  intros l I. apply type_place_kind. exact (base_type _ _ I).
Qed.
Lemma derives_view : forall rank, (forall l b, In b (bases_of db l) -> (rank b < rank l)%nat) -> forall h d t, In t (type_places db) -> (rank t < d)%nat ->
  exists r, DerivesFromAt d base mem (plc t) h = Ok r /\ (r = true <-> exists b a, In b (bases_of db t) /\ derives db b a /\ hash_at db a = h).
Proof.
  intros rank RK h. induction d as [|d IH]; intros t H R; [lia|]. cbn [DerivesFromAt]. cbv zeta. destruct (base_points t H) as [P SM]. unfold rounds. rewrite (proj1 P). cbn [obind]. set (n := S (Z.to_nat (zlen (bases_of db t)))).
  assert (NL : (length (bases_of db t) < n)%nat) by (unfold n, zlen; lia).
  destruct (any_ok (fun b => do x <- GetPrimitiveHash base mem b; Ok (x =? h)) (fun b => hash_at db b = h) _ _ P SM) with (post := bases_of db t) (pre := @nil loc) (n := n) as (r & R1 & R2); [|reflexivity|exact NL|].
  { intros l I. exists (hash_at db l =? h). pose proof (base_type _ _ I) as BT. apply type_place_kind in BT. rewrite (hash_view L fuel db X e heap pad fb base BE LK HO this to options mem VW l (proj1 BT)). cbn [obind]. split; [reflexivity|lia]. }
  change (zlen (@nil loc)) with 0 in R1. rewrite R1. cbn [obind]. destruct r.
  - exists true. split; [reflexivity|]. split; [|reflexivity]. intros _. destruct (proj1 R2 eq_refl) as (b & I & Q). exists b, b. split; [exact I|]. split; [constructor|exact Q].
  - destruct (any_ok (fun b => DerivesFromAt d base mem b h) (fun m => exists b a, In b (bases_of db m) /\ derives db b a /\ hash_at db a = h) _ _ P SM) with (post := bases_of db t) (pre := @nil loc) (n := n) as (r & Q1 & Q2); [|reflexivity|exact NL|].
    { intros l I. apply IH; [exact (base_type _ _ I)|]. pose proof (RK t l I). lia. }
    exists r. split; [exact Q1|]. rewrite Q2. split.
    + intros (m & I & b & a & I2 & D & Q). exists m, a. split; [exact I|]. split; [econstructor; eassumption|exact Q].
    + intros (b & a & I & D & Q). destruct D as [l|l m a Im D]; [exfalso; assert (false = true) by (apply R2; exists l; auto); discriminate|]. exists l. split; [exact I|]. exists m, a. auto.
Qed.
(* ---- enums ---- *)
Lemma member_load : forall k j p lo w, V (k, j) -> In (p, lo, w) (leaves (Struct (struct_of k))) -> load base mem (plc (k, j) + lo) w = Ok (of_object base mem (k, j) p).
Proof.
  intros k j p lo w H I. destruct (hash_at_row L fuel db X e BE _ H) as (r & E & _). cbn [fst snd] in E. destruct (row_cell e heap fb base LK HO k j r p lo w E I) as (pos & C & P).
  rewrite (member_view e heap pad fb base LK HO S0 S1 this to options mem VW k j r p lo w E I). rewrite <- P. exact (view_load e heap pad fb base LK HO _ mem _ _ _ _ _ _ VW C).
Qed.
Lemma constant_leaves : In (["value"], OffsetOf EnumConstant "value", 4) (leaves (Struct (struct_of KEnumConst))) /\ In (["name"; "text"], OffsetOf Primitive "name" + OffsetOf Name "text", 8) (leaves (Struct (struct_of KEnumConst))).
Proof. split; apply leaf_at_in; vm_compute; reflexivity. Qed.
Lemma constant_view : forall c i, at_ db c = Some i -> fst c = KEnumConst -> exists text, load base mem (plc c + OffsetOf EnumConstant "value") 4 = Ok (nth 0 (it_data i) 0 mod 2 ^ 32) /\
  load base mem (plc c + OffsetOf Primitive "name" + OffsetOf Name "text") 8 = Ok text /\ text_here base mem text (n_text (it_name i)).
Proof.
  intros [k j] i A K. cbn [fst] in K. subst k. pose proof (at_valid db _ _ A) as H. destruct constant_leaves as [I1 I2]. exists (of_object base mem (KEnumConst, j) ["name"; "text"]). split; [|split].
  - rewrite (member_load _ _ _ _ _ H I1). f_equal. pose proof (own_after L fuel db X e heap pad fb base BE F LK HO S0 S1 this to options mem VW _ _ A) as (o & t & W & G). cbn [fst own_members_after] in W, G. unfold of_object. cbn [fst]. rewrite G.
    assert (T : size_of t = 4). { destruct (walk_leaf _ _ _ _ I1) as (u & W' & SZ). change (struct_of KEnumConst) with (record_of KEnumConst) in W'. cbn [fst] in *. congruence. } rewrite T. reflexivity.
  - rewrite <- Z.add_assoc. exact (member_load _ _ _ _ _ H I2).
  - exact (proj2 (object_name_after L fuel db X e heap pad fb base BE LK HO S0 S1 this to options mem VW _ _ A)).
Qed.
Lemma value_ok : forall a ls value, pts a ls -> zlen ls <= 2 ^ 30 -> (forall l, In l ls -> In l (places db KEnumConst)) -> forall post pre n, ls = pre ++ post -> (length post < n)%nat ->
  exists p, value_name n base mem a value (zlen pre) = Ok p /\
    ((exists some c i rest, post = some ++ c :: rest /\ at_ db c = Some i /\ s32 (nth 0 (it_data i) 0 mod 2 ^ 32) = value /\ text_here base mem p (n_text (it_name i)) /\
       forall c' i', In c' some -> at_ db c' = Some i' -> s32 (nth 0 (it_data i') 0 mod 2 ^ 32) <> value) \/
     (p = 0 /\ forall c i, In c post -> at_ db c = Some i -> s32 (nth 0 (it_data i) 0 mod 2 ^ 32) <> value)).
Proof.
  intros a ls value PT SM VA post. induction post as [|l post IH]; intros pre n E N; (destruct n as [|n]; [cbn [length] in N; lia|]); cbn [value_name]; rewrite (proj1 PT); cbn [obind].
  - rewrite app_nil_r in E. subst pre. rewrite Z.ltb_irrefl. exists 0. split; [reflexivity|]. right. split; [reflexivity|]. intros c i [].
  - assert (LN : zlen ls = zlen pre + 1 + zlen post) by (rewrite E; unfold zlen; rewrite app_length; cbn [length]; lia). pose proof (zlen_nonneg _ pre) as Z1. pose proof (zlen_nonneg _ post) as Z2. replace (zlen pre <? zlen ls) with true by lia.
    assert (NE : nth_error ls (length pre) = Some l) by (rewrite E, nth_error_app2, Nat.sub_diag by lia; reflexivity). destruct (pts_entry a ls _ l PT NE) as (p & E1 & E2). unfold zlen at 1. rewrite E1. cbn [obind]. rewrite E2. cbn [obind].
    pose proof (VA l (nth_error_In _ _ NE)) as VL. pose proof (proj1 (proj1 (places_In _ _ _) VL)) as K. assert (VL' : V l) by (rewrite K; exact VL). destruct (valid_at db l VL') as [i A]. destruct (constant_view l i A K) as (text & T1 & T2 & T3). rewrite T1. cbn [obind].
    destruct (s32 (nth 0 (it_data i) 0 mod 2 ^ 32) =? value) eqn:Q.
    + exists text. split; [exact T2|]. left. exists [], l, i, post. split; [reflexivity|]. split; [exact A|]. split; [lia|]. split; [exact T3|]. intros c' i' [].
    + replace (u32 (zlen pre + 1)) with (zlen (pre ++ [l])). 2:{ unfold zlen. rewrite app_length. cbn [length]. unfold u32. rewrite Z.mod_small; unfold zlen in *; lia. }
      destruct (IH (pre ++ [l]) n) as (r & R1 & R2); [rewrite E, <- app_assoc; reflexivity|cbn [length] in N; lia|]. exists r. split; [exact R1|]. assert (NQ : forall i', at_ db l = Some i' -> s32 (nth 0 (it_data i') 0 mod 2 ^ 32) <> value) by (intros i' A'; assert (i' = i) by congruence; subst i'; lia).
      destruct R2 as [(some & c & i2 & rest & G1 & G2 & G3 & G4 & G5)|[G1 G2]].
      * left. exists (l :: some), c, i2, rest. split; [rewrite G1; reflexivity|]. split; [exact G2|]. split; [exact G3|]. split; [exact G4|]. intros c' i' [<-|I]; [apply NQ|apply G5; exact I].
      * right. split; [exact G1|]. intros c i' [<-|I]; [apply NQ|apply G2; exact I].
Qed.
End Mem.
End Any.
