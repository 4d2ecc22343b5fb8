(* C88: loading arbitrary text *)
From Coq Require Import String.
From Verif Require Import Base BaseProofs Text RuntimeModel JsonLexModel JsonLexSpec JsonNumModel JsonNumSpec JsonNumProofs JsonObjModel JsonObjSpec JsonStoreProofs JsonSafeSpec JsonSafeProofs JsonObjProps.
Local Open Scope list_scope.

(* whatever the text, the load ends, within a number of nested calls linear in its length *)
Theorem C88_ends : forall E F data mem object ty tf fuel, wf_types E -> wf_sizes E -> (ty < length E)%nat -> Forall is_byte data -> zlen data < 2 ^ 31 -> (3 * length data + 4 <= fuel)%nat ->
  LoadJSON fuel E F data mem object ty tf <> Fuel.
Proof. intros E F data mem object ty tf fuel H1 H2 H3 H4 H5 H6 H. pose proof (load_safe E F data mem object ty tf fuel H1 H2 H3 H4 H5 H6) as HS. rewrite H in HS. exact HS. Qed.
Print Assumptions C88_ends.
(* whatever the text, and whether or not an error is reported, only bytes of the object's fields change *)
Theorem C88_only_fields : forall E F data mem object ty tf fuel err mem', wf_types E -> wf_sizes E -> (ty < length E)%nat -> Forall is_byte data -> zlen data < 2 ^ 31 -> (3 * length data + 4 <= fuel)%nat ->
  LoadJSON fuel E F data mem object ty tf = Ok (err, mem') ->
  exists lut, SetupTypeDispatchLUT = Ok lut /\ zlen mem' = zlen mem /\ forall x, ~ of_field E lut tf ty object x -> znth mem' x = znth mem x.
Proof.
  intros E F data mem object ty tf fuel err mem' H1 H2 H3 H4 H5 H6 H. pose proof (load_safe E F data mem object ty tf fuel H1 H2 H3 H4 H5 H6) as HS. rewrite H in HS. destruct HS as [S1 S2]. exists the_lut. split; [exact lut_ok|]. auto.
Qed.
Print Assumptions C88_only_fields.
(* it is undefined only if a number is cut off in its exponent at the end of the text, a decimal number does not fit in an
   integer type, or the fields do not lie in memory *)
Theorem C88_undefined : forall E F data mem object ty tf fuel lut, wf_types E -> wf_sizes E -> (ty < length E)%nat -> Forall is_byte data -> zlen data < 2 ^ 31 -> (3 * length data + 4 <= fuel)%nat ->
  SetupTypeDispatchLUT = Ok lut -> (forall x, of_field E lut tf ty object x -> 0 <= x < zlen mem) ->
  LoadJSON fuel E F data mem object ty tf = UB -> cut_number data \/ wild_decimal F data.
Proof.
  intros E F data mem object ty tf fuel lut H1 H2 H3 H4 H5 H6 HL HW H. rewrite lut_ok in HL. injection HL as <-. pose proof (load_safe E F data mem object ty tf fuel H1 H2 H3 H4 H5 H6) as HS. rewrite H in HS. destruct HS as [HS|[HS|HS]]; [left; exact HS|right; exact HS|contradiction].
Qed.
Print Assumptions C88_undefined.
(* it stops at an assertion only if some class has a C-array *)
Theorem C88_assert : forall E F data mem object ty tf fuel, wf_types E -> wf_sizes E -> (ty < length E)%nat -> Forall is_byte data -> zlen data < 2 ^ 31 -> (3 * length data + 4 <= fuel)%nat ->
  LoadJSON fuel E F data mem object ty tf = Trap -> has_arrays E.
Proof. intros E F data mem object ty tf fuel H1 H2 H3 H4 H5 H6 H. pose proof (load_safe E F data mem object ty tf fuel H1 H2 H3 H4 H5 H6) as HS. rewrite H in HS. exact HS. Qed.
Print Assumptions C88_assert.
(* hence, without C-arrays, with the fields in memory, no number cut off and no decimal number out of range, every text is
   loaded or refused with an error *)
Theorem C88_defined : forall E F data mem object ty tf fuel lut, wf_types E -> wf_sizes E -> (ty < length E)%nat -> Forall is_byte data -> zlen data < 2 ^ 31 -> (3 * length data + 4 <= fuel)%nat ->
  SetupTypeDispatchLUT = Ok lut -> (forall x, of_field E lut tf ty object x -> 0 <= x < zlen mem) -> ~ has_arrays E -> ~ cut_number data -> ~ wild_decimal F data ->
  exists err mem', LoadJSON fuel E F data mem object ty tf = Ok (err, mem').
Proof.
  intros E F data mem object ty tf fuel lut H1 H2 H3 H4 H5 H6 HL HW HA HC HD. destruct (LoadJSON fuel E F data mem object ty tf) as [[err mem']| | |] eqn:H.
  - eauto.
  - exfalso. exact (HA (C88_assert E F data mem object ty tf fuel H1 H2 H3 H4 H5 H6 H)).
  - exfalso. destruct (C88_undefined E F data mem object ty tf fuel lut H1 H2 H3 H4 H5 H6 HL HW H); contradiction.
  - exfalso. exact (C88_ends E F data mem object ty tf fuel H1 H2 H3 H4 H5 H6 H).
Qed.
Print Assumptions C88_defined.

(* finding: an array with more values than the field has elements stops the program *)
Definition ex_long : list Z := Eval vm_compute in str "{""inner"":{""v"":[7,300,1]}}".
Theorem C88_long_array_refuted : LoadJSON 200 ex_E ex_F ex_long ex_mem 8 4 1 = Trap.
Proof. vm_compute. reflexivity. Qed.
Print Assumptions C88_long_array_refuted.
(* finding: a decimal number too large for the int it is for is undefined *)
Definition ex_big_F : floats := mk_floats (fun x => x) (fun x => x) (fun x => x) (fun x => x) (fun x => Some (10 ^ 30)) (fun x => true) (fun x => []) zlen.
Definition ex_big : list Z := Eval vm_compute in str "{""x"":1.0e30}".
Theorem C88_big_number_refuted : LoadJSON 200 ex_E ex_big_F ex_big ex_mem 8 4 1 = UB.
Proof. vm_compute. reflexivity. Qed.
Print Assumptions C88_big_number_refuted.

(* the theorems are about something: a broken text still stores the members read before the error *)
Lemma ex_sizes : wf_sizes ex_E.
Proof.
  split.
  - intros t Ht. each Ht; subst t; unfold is_u32; cbn; lia.
  - intros t fa fs e n Ht Hk He Hn. each Ht; subst t; cbn in Hk; try discriminate; injection Hk as <- <-; each He; subst e; cbn in Hn; try discriminate. injection Hn as <-. unfold is_u32. lia.
Qed.
Definition ex_broken : list Z := Eval vm_compute in str "{""x"":9,""inner"":{""v"":[7,}, ""colour"" ""Red"" 1".
Definition ex_after : list Z := Eval vm_compute in firstn 8 ex_mem ++ le_bytes 4 9 ++ skipn 12 ex_mem.
Example C88_witness : exists err, LoadJSON (3 * length ex_broken + 4) ex_E ex_F ex_broken ex_mem 8 4 1 = Ok (err, ex_after) /\ je_code err <> E_NONE /\
  (exists lut, SetupTypeDispatchLUT = Ok lut /\ zlen ex_after = zlen ex_mem /\ forall x, ~ of_field ex_E lut 1 4 8 x -> znth ex_after x = znth ex_mem x).
Proof.
  eexists. split; [vm_compute; reflexivity|]. split; [discriminate|].
  eapply (C88_only_fields ex_E ex_F ex_broken ex_mem 8 4 1 (3 * length ex_broken + 4) _ ex_after ex_wf ex_sizes); [cbn; lia| |reflexivity|lia|vm_compute; reflexivity].
  unfold ex_broken, is_byte. repeat constructor; lia.
Qed.
(* a class without arrays, for C88_defined: any text without decimal numbers and cut numbers *)
Definition ex_flat : list rtype := [ mk_rtype h_int 4 K_type []; mk_rtype h_Base 4 (K_class 0 [(1050319643, ex_x)]) [] ].
Lemma ex_flat_wf : wf_types ex_flat.
Proof.
  intros i t H. unfold ex_flat in H. destruct i as [|[|i]]; cbn [nth_error] in H; [injection H as <-; split; [cbn; lia|]..|destruct i; discriminate]; [exact I|].
  split; [split; [repeat constructor|cbn; lia]|]. intros e He. cbn in He. repeat (destruct He as [<-|He]; [cbn; lia|]). contradiction.
Qed.
Lemma ex_flat_fields : forall lut x, SetupTypeDispatchLUT = Ok lut -> of_field ex_flat lut 0 1 0 x -> 0 <= x < 4.
Proof.
  intros lut x HL [name [f [Hf HM]]]. rewrite lut_ok in HL. injection HL as <-. destruct (member_in ex_flat 0 1 name f Hf) as [t [fa [fs [e [M1 [M2 [M3 M4]]]]]]]. each M1; subst t; cbn in M2; try discriminate. injection M2 as <- <-. each M3. subst e. cbn in M4. subst f.
  destruct HM as [HM|[n [t [i [HM _]]]]]; [|discriminate HM]. cbn [ex_x rf_type rf_ptr rf_offset] in HM.
  inversion HM as [|ty t b p a y Ht Hr Hx|ty t fl cs p a y Ht Hk Hx|ty p nm g a y Hg _|ty p nm g n t i a y Hg _ _ _ _]; subst.
  - cbn in Ht. injection Ht as <-. vm_compute in Hr. injection Hr as <-. cbn in Hx. lia.
  - cbn in Ht. injection Ht as <-. discriminate Hk.
  - discriminate Hg.
  - discriminate Hg.
Qed.
Example C88_defined_witness : forall F data, Forall is_byte data -> zlen data < 2 ^ 31 -> ~ cut_number data -> ~ wild_decimal F data ->
  exists err mem', LoadJSON (3 * length data + 4) ex_flat F data [1; 2; 3; 4] 0 1 0 = Ok (err, mem').
Proof.
  intros F data H1 H2 H3 H4. refine (C88_defined ex_flat F data [1; 2; 3; 4] 0 1 0 (3 * length data + 4) the_lut ex_flat_wf _ _ H1 H2 _ lut_ok _ _ H3 H4).
  - split; [intros t Ht; each Ht; subst t; unfold is_u32; cbn; lia|]. intros t fa fs e n Ht Hk He Hn. each Ht; subst t; cbn in Hk; try discriminate; injection Hk as <- <-; each He; subst e; discriminate Hn.
  - cbn. lia.
  - lia.
  - intros x Hx. exact (ex_flat_fields the_lut x lut_ok Hx).
  - intros [t [fa [fs [e [M1 [M2 [M3 M4]]]]]]]. each M1; subst t; cbn in M2; try discriminate. injection M2 as <- <-. each M3. subst e. apply M4. reflexivity.
Qed.
