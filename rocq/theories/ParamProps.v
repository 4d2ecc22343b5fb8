(* C47, C67: the objects of function parameters *)
From Coq Require Import Permutation String.
From Verif Require Import Base BaseProofs Text DatabaseModel BufferModel BufferSpec BufferProofs JsonLexModel JsonLexSpec JsonLexProofs JsonNumModel JsonNumProofs JsonObjModel JsonObjSpec JsonObjProofs JsonObjProps ParamModel ParamSpec ParamProofs ParamJsonProofs.
Local Open Scope list_scope.

(* Any use of a cache, of up to fifteen parameters each time, goes through, and its constructions, destructions, allocations
   and releases are those of the specification, in order *)
Theorem C47_history : forall fuel E ctor dtor at_ rounds mem, (64 <= fuel)%nat -> Forall (round_ok E) rounds ->
  exists w w', run_rounds fuel E ctor dtor at_ rounds (poc_new mem) = Ok w /\ poc_destroy dtor w = Ok w' /\ history E ctor dtor at_ None rounds (pw_log w').
Proof.
  intros fuel E ctor dtor at_ rounds mem Hf HR. destruct (rounds_ok fuel Hf E ctor dtor at_ rounds (poc_new mem) [] (new_ok fuel Hf ctor dtor at_ mem) HR) as [w [HW [_ [w' [ev [HD [HH HL]]]]]]].
  exists w, w'. split; [exact HW|]. split; [exact HD|]. rewrite HL. exact HH.
Qed.
Print Assumptions C47_history.

(* In such a use, when the types that have a constructor are those that have a destructor and no parameter is empty, every
   object is destroyed exactly once after it is constructed, before its memory is given back *)
Theorem C47_lifetimes : forall fuel E ctor dtor at_ rounds mem, (64 <= fuel)%nat -> Forall (round_ok E) rounds ->
  (forall ty, ctor ty = None <-> dtor ty = None) -> (forall r p, In r rounds -> In p (rd_function r) -> 0 < space E p) ->
  exists w w', run_rounds fuel E ctor dtor at_ rounds (poc_new mem) = Ok w /\ poc_destroy dtor w = Ok w' /\ lifetimes [] (pw_log w').
Proof.
  intros fuel E ctor dtor at_ rounds mem Hf HR Hp Hs. destruct (C47_history fuel E ctor dtor at_ rounds mem Hf HR) as [w [w' [HW [HD HH]]]]. exists w, w'. split; [exact HW|]. split; [exact HD|].
  eapply (history_lifetimes fuel Hf); [exact Hp|exact HH|]. rewrite Forall_forall in HR |- *. intros r Hr. destruct (HR r Hr) as [_ [_ [[others HP] _]]]. apply Forall_forall. intros p Hin. apply (Hs r p Hr).
  eapply Permutation_in; [exact HP|]. apply in_or_app. left. exact Hin.
Qed.
Print Assumptions C47_lifetimes.

(* Every parameter allocated in a round stays where AllocParameter put it, after those before it in one block with room for
   all, and can be read back; AllocParameter runs the constructor there and touches no other memory *)
Theorem C47_in_place : forall fuel E ctor dtor at_ before f given p mem, (64 <= fuel)%nat -> Forall (round_ok E) before -> round_ok E (mk_round f (given ++ [(p, fun m => m)])) ->
  exists w0 w1 w2 w3, run_rounds fuel E ctor dtor at_ before (poc_new mem) = Ok w0 /\ poc_Init fuel E dtor at_ w0 f = Ok w1 /\
    alloc_all fuel E ctor at_ given w1 = Ok w2 /\
    AllocParameter fuel E ctor at_ w2 p = Ok (base_of at_ w1 + space_of E (map fst given), w3) /\
    space_of E f <= zlen (wb_cells (pw_data w1)) /\ pw_block w3 = pw_block w1 /\ base_of at_ w3 = base_of at_ w1 /\ GetNbParameters w3 = zlen given + 1 /\
    pw_mem w3 = (match pr_op p, ctor (pr_type p) with POINTER, _ | _, None => pw_mem w2 | _, Some run => run (base_of at_ w1 + space_of E (map fst given)) (pw_mem w2) end) /\
    (forall i q, nth_error (map fst given ++ [p]) i = Some q ->
      GetParameter w3 (Z.of_nat i) = Ok (mk_pdesc (pr_type q) (pr_op q) (base_of at_ w1 + space_of E (firstn i (map fst given ++ [p]))))).
Proof.
  intros fuel E ctor dtor at_ before f given p mem Hf HB [Hk [Hs [[others HP] Hl]]]. cbn [rd_function rd_allocated] in *.
  destruct (rounds_ok fuel Hf E ctor dtor at_ before (poc_new mem) [] (new_ok fuel Hf ctor dtor at_ mem) HB) as [w0 [HW [[l [P1 [P2 [P3 P4]]]] _]]].
  destruct (Init_ok fuel Hf E ctor dtor at_ w0 l f P1 P2 P3 Hk Hs) as [w1 [HI [HR1 [Hc1 _]]]].
  rewrite map_app in HP. cbn [map fst] in HP. rewrite app_length in Hl. cbn [length] in Hl.
  assert (HK : Forall (known_type E) ((map fst given ++ [p]) ++ others)) by (eapply Permutation_Forall; [apply Permutation_sym; exact HP|exact Hk]).
  assert (HS : space_of E (map fst given) + (space E p + 0) + space_of E others = space_of E f).
  { rewrite <- (space_perm fuel Hf E ctor dtor at_ _ _ HP), !(space_app fuel Hf E ctor dtor at_). reflexivity. }
  pose proof (space_of_nonneg fuel Hf E ctor dtor at_ others (proj2 (proj1 (Forall_app _ _ _) HK))) as Ho. apply Forall_app in HK. destruct HK as [HK _]. apply Forall_app in HK. destruct HK as [HK1 HK2]. inversion HK2 as [|? ? Hkp _]; subst.
  assert (Hsp : 0 <= space E p) by apply (space_ok fuel Hf E ctor dtor at_ p Hkp).
  destruct (alloc_all_ok fuel Hf E ctor dtor at_ given w1 [] HR1 HK1) as [w2 [HA [HR2 [Hh2 [Hb2 _]]]]]; [cbn [space_of fold_right]; lia|cbn [length]; lia|]. cbn [app] in HR2.
  assert (Hc2 : cap w2 = cap w1). { rewrite <- !held_room, Hh2. reflexivity. }
  destruct (Alloc_ok fuel Hf E ctor dtor at_ w2 (map fst given) p HR2 Hkp) as [w3 [HA3 [HR3 [Hh3 [Hc3 [Hb3 [_ Hm3]]]]]]]; [lia|rewrite map_length; lia|].
  exists w0, w1, w2, w3. split; [exact HW|]. split; [exact HI|]. split; [exact HA|]. rewrite !held_base. rewrite Hh3, Hh2. rewrite Hh2 in HA3, Hm3. split; [exact HA3|]. split; [exact Hc1|]. split; [congruence|]. split; [reflexivity|].
  destruct HR3 as [_ [_ [_ [HH _]]]]. rewrite Hh3, Hh2 in HH. split.
  { destruct HH as [HN _]. unfold GetNbParameters. rewrite HN, (zlen_placed E). unfold zlen. rewrite app_length, map_length. cbn [length]. lia. }
  split; [rewrite Hm3; destruct (pr_op p), (ctor (pr_type p)); reflexivity|].
  intros i q Hq. set (ps := map fst given ++ [p]) in *. assert (Hi : (i < length ps)%nat) by (apply nth_error_Some; congruence).
  apply nth_error_split in Hq. destruct Hq as [a [b [Hab Hla]]]. rewrite Hab in HH |- *. rewrite (placed_app E) in HH. cbn [placed] in HH.
  assert (Hz : zlen ps <= 15) by (unfold zlen, ps; rewrite app_length, map_length; cbn [length]; lia).
  rewrite <- (zlen_placed E ps 0), Hab, (placed_app E) in Hz. cbn [placed] in Hz.
  pose proof (holds_get fuel Hf ctor dtor at_ w3 (placed E (address_of at_ (held w1)) a) (q, address_of at_ (held w1) + space_of E a) (placed E (address_of at_ (held w1) + space_of E a + space E q) b) HH) as HG.
  rewrite (zlen_placed E) in HG. unfold zlen in HG at 2. rewrite Hla in HG. rewrite HG.
  - unfold desc. cbn [fst snd]. replace (firstn i (a ++ q :: b)) with a; [reflexivity|]. rewrite <- Hla. rewrite firstn_app, Nat.sub_diag, firstn_all. cbn [firstn]. symmetry. apply app_nil_r.
  - unfold zlen in *. rewrite !app_length in *. cbn [length] in *. clear - Hz. assert (HL : forall x y (l : list param), length (placed E x l) = length (placed E y l)) by (intros x y l; revert x y; induction l as [|c l IH]; intros; [reflexivity|cbn; f_equal; apply IH]).
    rewrite (HL _ 0 a), (HL _ (0 + space_of E a + space E q) b). exact Hz.
Qed.
Print Assumptions C47_in_place.

(* The cache has room for sixteen parameters, but once it holds sixteen none can be read back, and neither another Init nor
   its destruction gets anywhere; a seventeenth is not accepted *)
Theorem C47_sixteen_refuted : forall fuel E ctor dtor at_ f given mem, (64 <= fuel)%nat -> Forall (known_type E) f -> space_of E f <= 2 ^ 31 ->
  map fst given = f -> length f = 16%nat ->
  exists w1 w2, poc_Init fuel E dtor at_ (poc_new mem) f = Ok w1 /\ alloc_all fuel E ctor at_ given w1 = Ok w2 /\ GetNbParameters w2 = 16 /\
    (forall i, GetParameter w2 i = Trap) /\ (forall f', poc_Init fuel E dtor at_ w2 f' = Trap) /\ poc_destroy dtor w2 = Trap /\
    (forall p x, AllocParameter fuel E ctor at_ w2 p <> Ok x).
Proof.
  intros fuel E ctor dtor at_ f given mem Hf Hk Hs Hg Hl. destruct (new_ok fuel Hf ctor dtor at_ mem) as [P1 [P2 [P3 P4]]]. destruct (Init_ok fuel Hf E ctor dtor at_ (poc_new mem) [] f P1 P2 P3 Hk Hs) as [w1 [HI [HR1 [Hc1 _]]]].
  destruct (alloc_all_ok fuel Hf E ctor dtor at_ given w1 [] HR1) as [w2 [HA [HR2 [Hh2 [Hb2 _]]]]]; [rewrite Hg; exact Hk|rewrite Hg; cbn [space_of fold_right]; lia|rewrite <- (map_length fst), Hg; cbn [length]; lia|].
  exists w1, w2. split; [exact HI|]. split; [exact HA|]. cbn [app] in HR2. rewrite Hg in HR2. pose proof HR2 as [HB2 [HP2 [HC2 [[HN HD] HK2]]]]. rewrite (zlen_placed E) in HN. unfold zlen in HN. rewrite Hl in HN. change (Z.of_nat 16) with 16 in HN.
  assert (HG : forall i, GetParameter w2 i = Trap) by (intros i; unfold GetParameter; rewrite HN; reflexivity).
  assert (HDS : forall n, delete_from dtor (S n) 0 w2 = Trap) by (intros n; cbn [delete_from]; rewrite HG; reflexivity).
  assert (HDel : DeleteObjects dtor w2 = Trap) by (unfold DeleteObjects, GetNbParameters; rewrite HN; change (Z.to_nat 16) with (S 15); apply HDS).
  split; [exact HN|]. split; [exact HG|]. split; [intros f'; unfold poc_Init; rewrite HDel; reflexivity|]. split; [unfold poc_destroy; rewrite HDel; reflexivity|].
  intros p x HAl. unfold AllocParameter in HAl. destruct (ParamAllocSize E p) as [z| | |]; try discriminate. cbn [obind] in HAl. destruct (data_alloc fuel at_ w2 z) as [[ad w3]| | |] eqn:Ed; try discriminate. cbn [obind fst snd] in HAl.
  assert (HN3 : pw_nb w3 = 16).
  { unfold data_alloc in Ed. destruct (wb_alloc fuel (pw_data w2) z) as [y| | |]; try discriminate. cbn [obind] in Ed. destruct (wb_pos (pw_data w2) + z >? zlen (wb_cells (pw_data w2))); [|injection Ed as _ <-; exact HN].
    match type of Ed with (do m <- ?o; _) = _ => destruct o as [m'| | |]; try discriminate end. cbn [obind] in Ed. injection Ed as _ <-. exact HN. }
  destruct (is_pointer (pr_op p)); [|destruct (ctor (pr_type p))]; unfold PushParameter in HAl; cbn [pw_nb] in HAl; rewrite HN3 in HAl; discriminate.
Qed.
Print Assumptions C47_sixteen_refuted.

(* ---- arguments in JSON ---- *)
(* A JSON array with at least as many values as the function has parameters, all of whose offsets are their position in the
   call: each parameter in turn is constructed, after the ones before it, and its value stored in it as in a field; further
   values are ignored *)
Theorem C67_arguments : forall fuel E ctor dtor at_ F data tf n before mem f call args,
  (64 <= fuel)%nat -> wf_types E -> Forall is_byte data -> zlen data < 2 ^ 31 -> (2 * length data <= n)%nat -> Forall (round_ok E) before ->
  Forall (known_type E) f -> space_of E f <= 2 ^ 31 -> call_order f call -> (length f <= 15)%nat -> document (str2d F) data (J_array args) -> (length f <= length args)%nat ->
  exists w w1 lut, run_rounds fuel E ctor dtor at_ before (poc_new mem) = Ok w /\ poc_Init fuel E dtor at_ w f = Ok w1 /\ SetupTypeDispatchLUT = Ok lut /\
    match store_arguments E F lut tf ctor (combine (placed E (base_of at_ w1) call) args) (pw_mem w1) with
    | Ok m => exists w', BuildParameterObjectCache_JSON fuel E ctor dtor at_ F data tf n w f = Ok (true, w') /\ pw_mem w' = m /\ GetNbParameters w' = zlen f /\
        (forall i p a, nth_error (placed E (base_of at_ w1) call) i = Some (p, a) -> GetParameter w' (Z.of_nat i) = Ok (mk_pdesc (pr_type p) (pr_op p) a))
    | Trap => BuildParameterObjectCache_JSON fuel E ctor dtor at_ F data tf n w f = Trap
    | UB => BuildParameterObjectCache_JSON fuel E ctor dtor at_ F data tf n w f = UB
    | Fuel => BuildParameterObjectCache_JSON fuel E ctor dtor at_ F data tf n w f = Fuel
    end.
Proof.
  intros fuel E ctor dtor at_ F data tf n before mem f call args Hf HE Hb Hs Hn HB Hk Hsp Hc Hl HD Ha.
  destruct (rounds_ok fuel Hf E ctor dtor at_ before (poc_new mem) [] (new_ok fuel Hf ctor dtor at_ mem) HB) as [w [HW [[l HPO] _]]]. pose proof HPO as [P1 [P2 [P3 P4]]].
  destruct (Init_ok fuel Hf E ctor dtor at_ w l f P1 P2 P3 Hk Hsp) as [w1 [HI [HR1 [Hc1 _]]]]. exists w, w1, the_lut. split; [exact HW|]. split; [exact HI|]. split; [exact lut_ok|].
  pose proof (build_ok fuel Hf E HE ctor dtor at_ F data Hb Hs tf w l f call args n w1 HPO Hk Hsp Hc ltac:(lia) HI HD Hn) as HX. cbv zeta in HX.
  destruct (store_arguments E F the_lut tf ctor (combine (placed E (base_of at_ w1) call) args) (pw_mem w1)) as [m| | |]; [|exact HX..].
  replace (length f <=? length args)%nat with true in HX by (symmetry; apply Nat.leb_le; exact Ha). destruct HX as [w' [HX1 [HX2 HX3]]]. exists w'. split; [exact HX1|]. split; [exact HX3|].
  pose proof (Permutation_length (proj1 Hc)) as HLc. split.
  - destruct HX2 as [HN _]. unfold GetNbParameters. rewrite HN, (zlen_placed E). unfold zlen. rewrite HLc. reflexivity.
  - intros i p a Hi. apply nth_error_split in Hi. destruct Hi as [x [y [Hxy Hlx]]]. rewrite Hxy in HX2. rewrite <- Hlx. apply (holds_get fuel Hf ctor dtor at_ w' x (p, a) y HX2). rewrite <- Hxy, (zlen_placed E). unfold zlen. lia.
Qed.
Print Assumptions C67_arguments.

(* with fewer values it returns false, or what storing them led to *)
Theorem C67_too_few : forall fuel E ctor dtor at_ F data tf n before mem f call args,
  (64 <= fuel)%nat -> wf_types E -> Forall is_byte data -> zlen data < 2 ^ 31 -> (2 * length data <= n)%nat -> Forall (round_ok E) before ->
  Forall (known_type E) f -> space_of E f <= 2 ^ 31 -> call_order f call -> (length f <= 16)%nat -> document (str2d F) data (J_array args) -> (length args < length f)%nat ->
  exists w, run_rounds fuel E ctor dtor at_ before (poc_new mem) = Ok w /\
    forall b w', BuildParameterObjectCache_JSON fuel E ctor dtor at_ F data tf n w f = Ok (b, w') -> b = false.
Proof.
  intros fuel E ctor dtor at_ F data tf n before mem f call args Hf HE Hb Hs Hn HB Hk Hsp Hc Hl HD Ha.
  destruct (rounds_ok fuel Hf E ctor dtor at_ before (poc_new mem) [] (new_ok fuel Hf ctor dtor at_ mem) HB) as [w [HW [[l HPO] _]]]. pose proof HPO as [P1 [P2 [P3 P4]]].
  destruct (Init_ok fuel Hf E ctor dtor at_ w l f P1 P2 P3 Hk Hsp) as [w1 [HI [HR1 [Hc1 _]]]]. exists w. split; [exact HW|]. intros b w' HBu.
  pose proof (build_ok fuel Hf E HE ctor dtor at_ F data Hb Hs tf w l f call args n w1 HPO Hk Hsp Hc Hl HI HD Hn) as HX. cbv zeta in HX.
  destruct (store_arguments E F the_lut tf ctor (combine (placed E (base_of at_ w1) call) args) (pw_mem w1)) as [m| | |]; [|congruence..].
  replace (length f <=? length args)%nat with false in HX by (symmetry; apply Nat.leb_gt; exact Ha). destruct HX as [w2 [k [HX _]]]. congruence.
Qed.
Print Assumptions C67_too_few.

(* a document that is not an array is refused, and nothing is constructed or stored *)
Theorem C67_not_an_array : forall fuel E ctor dtor at_ F data tf n before mem f call j,
  (64 <= fuel)%nat -> Forall is_byte data -> zlen data < 2 ^ 31 -> Forall (round_ok E) before ->
  Forall (known_type E) f -> space_of E f <= 2 ^ 31 -> call_order f call -> (length f <= 16)%nat -> document (str2d F) data j -> (forall l, j <> J_array l) ->
  exists w w1, run_rounds fuel E ctor dtor at_ before (poc_new mem) = Ok w /\ poc_Init fuel E dtor at_ w f = Ok w1 /\
    BuildParameterObjectCache_JSON fuel E ctor dtor at_ F data tf n w f = Ok (false, w1) /\ GetNbParameters w1 = 0.
Proof.
  intros fuel E ctor dtor at_ F data tf n before mem f call j Hf Hb Hs HB Hk Hsp Hc Hl [pl [HL HM]] Ha.
  destruct (rounds_ok fuel Hf E ctor dtor at_ before (poc_new mem) [] (new_ok fuel Hf ctor dtor at_ mem) HB) as [w [HW [[l HPO] _]]]. pose proof HPO as [P1 [P2 [P3 P4]]].
  destruct (Init_ok fuel Hf E ctor dtor at_ w l f P1 P2 P3 Hk Hsp) as [w1 [HI [HR1 [Hc1 _]]]]. exists w, w1. split; [exact HW|]. split; [exact HI|].
  pose proof (Permutation_length (proj1 Hc)) as HLen. destruct (sorted_call f call Hc ltac:(lia)) as [s [HS _]].
  split; [|destruct HR1 as [_ [_ [_ [[HN _] _]]]]; exact HN].
  unfold BuildParameterObjectCache_JSON. rewrite HI. cbn [obind]. rewrite HS. cbn [obind]. destruct (at_begin data) as [HB1 [HB2 HB3]]. assert (HA : at_rest data (JSONContext 0) data) by (split; assumption).
  destruct (layout_reads F data Hs 0 data pl HL (JSONContext 0) HA eq_refl HB3) as [t1 [c1 [t' [c' [HL0 [HRD HT]]]]]]. rewrite HM in HRD. rewrite HL0. cbn [obind fst snd].
  assert (HNT : jtype_eqb (jt_type t1) T_LBRACKET = false).
  { destruct j; [..|exfalso; eapply Ha; reflexivity|]; cbn [tokens app] in HRD; pose proof (reads_first _ _ _ _ _ _ _ _ HRD) as HT1; cbn [tok_is] in HT1; try (rewrite HT1; reflexivity); destruct HT1 as [HT1 _]; rewrite HT1; reflexivity. }
  rewrite HNT. reflexivity.
Qed.
Print Assumptions C67_not_an_array.

(* ---- witnesses ---- *)
(* types of the example of C21: int, an enum, three classes; 4 is Object with a constructor that writes 1 in its first byte *)
Definition ex_ctor (ty : nat) : option (Z -> list Z -> list Z) := if Nat.eqb ty 4 then Some (fun a m => match wr m a 1 with Ok m => m | _ => m end) else None.
Definition ex_dtor (ty : nat) : option (Z -> list Z -> list Z) := if Nat.eqb ty 4 then Some (fun a m => match wr m a 0 with Ok m => m | _ => m end) else None.
Definition ex_at (k : nat) : Z := 64 * Z.of_nat k.
Definition ex_f : list param := [mk_param 1 4 VALUE; mk_param 0 0 VALUE; mk_param 2 4 POINTER; mk_param 3 4 VALUE].
Definition ex_g : list param := [mk_param 0 0 VALUE].
Definition ex_rounds : list round := [mk_round ex_g [(mk_param 0 0 VALUE, fun m => m)]; mk_round ex_f (map (fun p => (p, fun m => m)) ex_f); mk_round ex_g []].
Lemma ex_known : forall p, (pr_type p < 5)%nat -> known_type ex_E p.
Proof. intros [o ty q] H. cbn in H. unfold known_type. cbn [pr_type]. destruct ty as [|[|[|[|[|ty]]]]]; [eexists; split; [reflexivity|cbn; lia]..|lia]. Qed.
Lemma ex_rounds_ok : Forall (round_ok ex_E) ex_rounds.
Proof.
  unfold ex_rounds. repeat apply Forall_cons; try apply Forall_nil; (split; [repeat (apply Forall_cons; [apply ex_known; cbn; lia|]); apply Forall_nil|split; [cbn; lia|split; [|cbn; lia]]]).
  - exists []. apply Permutation_refl.
  - exists []. apply Permutation_refl.
  - exists ex_g. apply Permutation_refl.
Qed.
Example C47_witness : Forall (round_ok ex_E) ex_rounds /\ (forall ty, ex_ctor ty = None <-> ex_dtor ty = None) /\ (forall r p, In r ex_rounds -> In p (rd_function r) -> 0 < space ex_E p) /\
  match run_rounds 64 ex_E ex_ctor ex_dtor ex_at ex_rounds (poc_new (repeat 0 400)) with
  | Ok w => match poc_destroy ex_dtor w with
            | Ok w => pw_log w = [Allocated 1 32; Allocated 2 108; Freed 1; Constructed 4 128; Constructed 4 172; Destroyed 4 128; Destroyed 4 172; Freed 2]
            | _ => False end
  | _ => False end.
Proof.
  split; [exact ex_rounds_ok|]. split; [intros ty; unfold ex_ctor, ex_dtor; destruct (Nat.eqb ty 4); split; intros H; congruence|]. split.
  - intros r p Hr Hp. cbn in Hr. repeat destruct Hr as [<-|Hr]; try contradiction; cbn in Hp; repeat destruct Hp as [<-|Hp]; try contradiction; reflexivity.
  - vm_compute. reflexivity.
Qed.
Definition ex_args : list Z := Eval vm_compute in str "[5, -3, true]".
Definition ex_two : list param := [mk_param 1 0 VALUE; mk_param 0 0 VALUE].
Example C67_witness : call_order ex_two (rev ex_two) /\ document (str2d ex_F) ex_args (J_array [J_int 5; J_int (2 ^ 64 - 3); J_true]) /\
  match BuildParameterObjectCache_JSON 64 ex_E ex_ctor ex_dtor ex_at ex_F ex_args 1 100 (poc_new (repeat 0 100)) ex_two with
  | Ok (b, w) => b = true /\ slice (pw_mem w) 64 8 = le_bytes 4 5 ++ le_bytes 4 (-3) /\ GetParameter w 1 = Ok (mk_pdesc 0 VALUE 68)
  | _ => False end.
Proof.
  split; [|split].
  - split; [apply perm_swap|]. intros [|[|[|i]]] p H; cbn in H; try discriminate; injection H as <-; reflexivity.
  - eexists. split.
    + change ex_args with ([] ++ [91] ++ ([] ++ [53] ++ ([] ++ [44] ++ ([32] ++ [45; 51] ++ ([] ++ [44] ++ ([32] ++ str "true" ++ ([] ++ [93] ++ []))))))).
      eapply lay_token; [constructor|apply sp_char; constructor|exact I|].
      eapply lay_token; [constructor|eapply (sp_int _ [53] 5); [discriminate|reflexivity]|eexists; eexists; split; [reflexivity|unfold digit, letter; lia]|].
      eapply lay_token; [constructor|apply sp_char; constructor|exact I|].
      eapply lay_token; [repeat constructor|eapply (sp_neg _ [51] 3); [discriminate|reflexivity]|eexists; eexists; split; [reflexivity|unfold digit, letter; lia]|].
      eapply lay_token; [constructor|apply sp_char; constructor|exact I|].
      eapply lay_token; [repeat constructor|apply sp_word; constructor|exact I|].
      eapply lay_token; [constructor|apply sp_char; constructor|exact I|]. apply lay_end. constructor.
    + reflexivity.
  - vm_compute. auto.
Qed.
(* nothing checks what separates the values *)
Example C67_separator : match BuildParameterObjectCache_JSON 64 ex_E ex_ctor ex_dtor ex_at ex_F (str "[5:-3}") 1 100 (poc_new (repeat 0 100)) ex_two with
  | Ok (b, w) => b = true /\ slice (pw_mem w) 64 8 = le_bytes 4 5 ++ le_bytes 4 (-3)
  | _ => False end.
Proof. vm_compute. auto. Qed.
