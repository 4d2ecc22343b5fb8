From Coq Require Import Permutation.
From Verif Require Import Base BaseProofs Text DatabaseModel BufferModel BufferSpec BufferProofs JsonLexModel JsonLexSpec JsonLexProofs JsonNumModel JsonNumProofs JsonObjModel JsonObjSpec JsonObjProofs ParamModel ParamSpec ParamProofs.

Lemma nth_skip : forall A n m (l : list A), nth_error (skipn n l) m = nth_error l (n + m).
Proof. intros A n m. induction n as [|n IH]; intros l; [reflexivity|]. destruct l as [|a l]; [destruct m; reflexivity|]. apply IH. Qed.
Lemma znth_wr : forall A (l : list A) i v l', wr l i v = Ok l' -> forall j, znth l' j = if j =? i then Some v else znth l j.
Proof.
  intros A l i v l' H j. unfold wr in H. destruct ((0 <=? i) && (i <? zlen l)) eqn:E; [|discriminate]. injection H as <-. unfold znth, zlen in *.
  destruct (Z.eqb_spec j i) as [->|Hne].
  - destruct (Z.ltb_spec i 0); [lia|]. rewrite nth_error_app2; rewrite firstn_length; [|lia]. replace (Z.to_nat i - Nat.min (Z.to_nat i) (length l))%nat with 0%nat by lia. reflexivity.
  - destruct (Z.ltb_spec j 0); [reflexivity|]. destruct (Z.lt_ge_cases j i) as [Hji|Hji].
    + rewrite nth_error_app1 by (rewrite firstn_length; lia). assert (Hl : (Z.to_nat j < Z.to_nat i)%nat) by lia. revert Hl. generalize (Z.to_nat j) (Z.to_nat i). clear. intros n m. revert m l.
      induction n as [|n IH]; intros [|m] [|a l] H; cbn; try lia; auto. apply IH. lia.
    + rewrite nth_error_app2 by (rewrite firstn_length; lia). rewrite firstn_length. replace (Z.to_nat j - Nat.min (Z.to_nat i) (length l))%nat with (S (Z.to_nat j - S (Z.to_nat i)))%nat by lia. cbn [nth_error].
      etransitivity; [exact (nth_skip _ (S (Z.to_nat i)) (Z.to_nat j - S (Z.to_nat i)) l)|]. apply (f_equal (nth_error l)). lia.
Qed.
Lemma sort_fields_ok : forall ps s, zlen s = 16 -> NoDup (map pr_offset ps) -> (forall p, In p ps -> 0 <= pr_offset p < 16) ->
  exists s', sort_fields ps s = Ok s' /\ (forall p, In p ps -> znth s' (pr_offset p) = Some (Some p)) /\ (forall j, ~ In j (map pr_offset ps) -> znth s' j = znth s j).
Proof.
  induction ps as [|p ps IH]; intros s Hz Hn Hr; [exists s; split; [reflexivity|split; [intros p []|reflexivity]]|]. cbn [sort_fields map] in *. inversion Hn as [|? ? Hni Hn2]; subst. specialize (Hr p (or_introl eq_refl)) as Hp.
  unfold MAX_NB_FIELDS. replace (pr_offset p <? 16) with true by lia. cbn [assert obind]. destruct (wr s (pr_offset p) (Some p)) as [s1| | |] eqn:Ew.
  2-4: exfalso; unfold wr in Ew; rewrite Hz in Ew; replace ((0 <=? pr_offset p) && (pr_offset p <? 16)) with true in Ew by lia; discriminate.
  cbn [obind]. assert (Hz1 : zlen s1 = 16).
  { unfold wr in Ew. destruct ((0 <=? pr_offset p) && (pr_offset p <? zlen s)) eqn:E; [|discriminate]. assert (Hs1 : firstn (Z.to_nat (pr_offset p)) s ++ Some p :: skipn (S (Z.to_nat (pr_offset p))) s = s1) by congruence. rewrite <- Hs1. clear Ew. unfold zlen in *. rewrite app_length, firstn_length. change (length (Some p :: skipn (S (Z.to_nat (pr_offset p))) s)) with (S (length (skipn (S (Z.to_nat (pr_offset p))) s))). rewrite skipn_length. lia. }
  destruct (IH s1 Hz1 Hn2 (fun q Hq => Hr q (or_intror Hq))) as [s' [HS [HA HB]]]. exists s'. split; [exact HS|]. split.
  - intros q [->|Hq]; [|apply HA; exact Hq]. rewrite (HB _ Hni), (znth_wr _ _ _ _ _ Ew), Z.eqb_refl. reflexivity.
  - intros j Hj. cbn [In] in Hj. rewrite HB by (intros Hi; apply Hj; right; exact Hi). rewrite (znth_wr _ _ _ _ _ Ew). replace (j =? pr_offset p) with false; [reflexivity|]. symmetry. apply Z.eqb_neq. intros He; apply Hj; left; congruence.
Qed.
Lemma sorted_call : forall f call, call_order f call -> (length call <= 16)%nat ->
  exists s, sort_fields f (repeat None (Z.to_nat MAX_NB_FIELDS)) = Ok s /\ forall i p, nth_error call i = Some p -> znth s (Z.of_nat i) = Some (Some p).
Proof.
  intros f call [HP HO] Hl. assert (HM : forall l : list param, (forall i p, nth_error l i = Some p -> pr_offset p = Z.of_nat i) -> NoDup (map pr_offset l)).
  { intros l H. apply NoDup_nth_error. intros i j Hi Hij. rewrite map_length in Hi. rewrite !nth_error_map in Hij. destruct (nth_error l i) as [p|] eqn:Ei; [|apply nth_error_None in Ei; lia].
    destruct (nth_error l j) as [q|] eqn:Ej; [|discriminate]. cbn in Hij. injection Hij as Hij. rewrite (H _ _ Ei), (H _ _ Ej) in Hij. lia. }
  destruct (sort_fields_ok f (repeat None (Z.to_nat MAX_NB_FIELDS))) as [s [HS [HA _]]].
  - reflexivity.
  - eapply Permutation_NoDup; [apply Permutation_map; exact HP|]. apply HM. exact HO.
  - intros p Hp. apply (Permutation_in _ (Permutation_sym HP)) in Hp. apply In_nth_error in Hp. destruct Hp as [i Hi]. rewrite (HO _ _ Hi). assert (i < length call)%nat by (apply nth_error_Some; congruence). lia.
  - exists s. split; [exact HS|]. intros i p Hi. rewrite <- (HO _ _ Hi). apply HA. eapply Permutation_in; [exact HP|]. eapply nth_error_In. exact Hi.
Qed.

Section Json.
Variable fuel : nat.
Hypothesis Hfuel : (64 <= fuel)%nat.
Variable E : list rtype.
Hypothesis HE : wf_types E.
Variable ctor dtor : nat -> option (Z -> list Z -> list Z).
Variable at_ : nat -> Z.
Variable F : floats.
Variable data : list Z.
Hypothesis Hbytes : Forall is_byte data.
Hypothesis Hsmall : small data.
Variable tf : Z.
Notation sd := (str2d F).
Notation reads := (reads F data).

(* the token before the next argument is c's last; what is left *)
Definition left_tokens (args : list json) : list stoken := commas (map tokens args) ++ [SChar T_RBRACKET].
Lemma load_value : forall n c j rest k t t' c' m p, reads t c (k :: tokens j ++ rest) t' c' -> (2 * length (tokens j) <= n)%nat -> (pr_type p < length E)%nat ->
  forall object, exists t1 c1, reads t1 c1 rest t' c' /\ LoadJSON_field E F data tf n c m object (as_field p) =
    do m <- store E F the_lut tf j m object (Some (pr_type p)) (is_pointer (pr_op p)) (Some (as_field p)); Ok (c1, m).
Proof.
  intros n c j rest k t t' c' m p HR Hn Hp object. destruct (next_ok F data _ _ t c m t' c' HR) as [t0 [c0 [HN HR0]]]. destruct (reads_app F data _ _ _ _ _ _ HR0) as [t1 [c1 [HR1 HR2]]].
  exists t1, c1. split; [exact HR2|]. unfold LoadJSON_field. rewrite lut_ok. cbn [obind]. unfold next in *. cbn [ps_c ps_m] in *. rewrite HN. cbn [obind as_field rf_type rf_ptr].
  rewrite (all_values E HE F the_lut data Hbytes tf j n t0 c0 m object (Some (pr_type p)) (is_pointer (pr_op p)) (Some (as_field p)) t1 c1); [|exact Hp|exact Hp|discriminate|exact Hn|exact HR1].
  unfold ended. cbn [as_field]. destruct (store E F the_lut tf j m object _ _ _); reflexivity.
Qed.
(* something else than a value *)
Lemma load_nothing : forall n c m object p, no_error c -> (pr_type p < length E)%nat ->
  forall t1 c1, LexerNextToken sd data c = Ok (t1, c1) -> no_error c1 -> jt_type t1 = T_RBRACKET \/ jt_type t1 = T_NONE ->
  exists c2, LoadJSON_field E F data tf (S n) c m object (as_field p) = Ok (c2, m) /\ je_code (jc_err c2) = E_TOKEN.
Proof.
  intros n c m object p Hn Hp t1 c1 HL Hn1 Ht. unfold LoadJSON_field. rewrite lut_ok. cbn [obind]. unfold next. cbn [ps_c ps_m]. rewrite HL. cbn [obind fst snd as_field rf_type rf_ptr]. rewrite PV_S.
  unfold transient_class, get_type. destruct (nth_error E (pr_type p)) as [t|] eqn:Et; [|apply nth_error_None in Et; lia]. cbn [obind ps_t]. exists (SetError c1 E_TOKEN).
  unfold no_error in Hn1. split; [destruct Ht as [-> | ->]; reflexivity|unfold SetError; rewrite Hn1; reflexivity].
Qed.

Lemma load_loop : forall call args n i sorted t c t' c' w done k, ready E at_ w done -> Forall (known_type E) call -> space_of E done + space_of E call <= cap w -> (length done + length call <= 16)%nat ->
  (forall j p, nth_error call j = Some p -> znth sorted (i + Z.of_nat j) = Some (Some p)) -> (2 * length (left_tokens args) <= n)%nat ->
  (args <> [] /\ reads t c (k :: left_tokens args) t' c' \/ args = [] /\ no_error c /\ exists t1 c1, LexerNextToken sd data c = Ok (t1, c1) /\ no_error c1 /\ (jt_type t1 = T_RBRACKET \/ jt_type t1 = T_NONE)) ->
  jt_type t' = T_NONE -> 
  let objs := placed E (address_of at_ (held w) + space_of E done) call in
  match store_arguments E F the_lut tf ctor (combine objs args) (pw_mem w) with
  | Ok m => if (length call <=? length args)%nat
            then exists w', load_parameters fuel E ctor at_ F data tf n (length call) i sorted c w = Ok (true, w') /\ ready E at_ w' (done ++ call) /\ held w' = held w /\ pw_mem w' = m
            else exists w' k, load_parameters fuel E ctor at_ F data tf n (length call) i sorted c w = Ok (false, w') /\ ready E at_ w' (done ++ firstn k call) /\ (k <= length call)%nat
  | Trap => load_parameters fuel E ctor at_ F data tf n (length call) i sorted c w = Trap
  | UB => load_parameters fuel E ctor at_ F data tf n (length call) i sorted c w = UB
  | Fuel => load_parameters fuel E ctor at_ F data tf n (length call) i sorted c w = Fuel
  end.
Proof.
  induction call as [|p call IH]; intros args n i sorted t c t' c' w done k HR Hk Hs Hl Hsort Hn Htok Ht' objs.
  - cbn. exists w. rewrite app_nil_r. auto.
  - inversion Hk as [|? ? Hkp Hkc]; subst. change (space_of E (p :: call)) with (space E p + space_of E call) in Hs. pose proof (space_of_nonneg fuel Hfuel E ctor dtor at_ call Hkc). cbn [length] in Hl.
    destruct (Alloc_ok fuel Hfuel E ctor dtor at_ w done p HR Hkp ltac:(lia) ltac:(lia)) as [w1 [HA [HR1 [Hh [Hc [Hb [_ Hm]]]]]]].
    cbn [length load_parameters]. specialize (Hsort 0%nat p eq_refl) as Hp0. cbn in Hp0. rewrite Z.add_0_r in Hp0. unfold rd. rewrite Hp0. cbn [obind]. rewrite HA. cbn [obind fst snd]. set (a := address_of at_ (held w) + space_of E done) in *.
    assert (HpE : (pr_type p < length E)%nat). { destruct Hkp as [ty [Hty _]]. apply nth_error_Some. congruence. }
    destruct args as [|j args].
    + destruct Htok as [[Hx _]|[_ [Hnc [t1 [c1 [HL [Hn1 Ht1]]]]]]]; [contradiction|]. subst objs. cbn [placed combine length Nat.leb]. cbn [store_arguments].
      destruct n as [|n]; [cbn in Hn; lia|]. destruct (load_nothing n c (pw_mem w1) a p Hnc HpE t1 c1 HL Hn1 Ht1) as [c2 [HLJ Hc2]]. rewrite HLJ. cbn [obind fst snd]. rewrite Hc2. cbn [store_arguments combine]. eexists. exists 1%nat. split; [reflexivity|]. split; [exact HR1|cbn; lia].
    + destruct Htok as [[_ HRD]|[Hx _]]; [|discriminate]. subst objs. cbn [placed combine store_arguments].
      assert (HT : left_tokens (j :: args) = tokens j ++ match args with [] => [SChar T_RBRACKET] | _ => SChar T_COMMA :: left_tokens args end).
      { unfold left_tokens. cbn [map]. destruct args as [|j2 args]; [reflexivity|]. rewrite commas_cons by (apply map_nonnil; discriminate). rewrite <- app_assoc. reflexivity. }
      rewrite HT in HRD, Hn. rewrite app_length in Hn. destruct (load_value n c j _ k t t' c' (pw_mem w1) p HRD ltac:(lia) HpE a) as [t1 [c1 [HR2 HLJ]]]. rewrite HLJ.
      unfold a in Hm |- *. fold a in Hm |- *. rewrite <- Hm. destruct (store E F the_lut tf j (pw_mem w1) a (Some (pr_type p)) (is_pointer (pr_op p)) (Some (as_field p))) as [m2| | |]; [|reflexivity..].
      cbn [obind fst snd]. assert (Hn1 : no_error c1) by (inversion HR2; destruct args; assumption). unfold no_error in Hn1. rewrite Hn1.
      set (w2 := mk_pw (pw_data w1) (pw_block w1) (pw_descs w1) (pw_nb w1) m2 (pw_log w1)).
      specialize (IH args n (i + 1) sorted t1 c1 t' c' w2 (done ++ [p]) (SChar T_COMMA)).
      assert (HIH : address_of at_ (held w2) + space_of E (done ++ [p]) = a + space E p) by (change (held w2) with (held w1); rewrite Hh, (space_app fuel Hfuel E ctor dtor at_); unfold a; cbn; lia).
      cbv zeta in IH. rewrite HIH in IH. specialize (IH HR1 Hkc). assert (HI3 : space_of E (done ++ [p]) + space_of E call <= cap w2) by (change (cap w2) with (cap w1); rewrite (space_app fuel Hfuel E ctor dtor at_), Hc; cbn; lia). specialize (IH HI3).
      assert (HI4 : (length (done ++ [p]) + length call <= 16)%nat) by (rewrite app_length; cbn [length]; lia). specialize (IH HI4).
      assert (HI5 : forall j0 p0, nth_error call j0 = Some p0 -> znth sorted (i + 1 + Z.of_nat j0) = Some (Some p0)).
      { intros j0 p0 Hj. specialize (Hsort (S j0) p0 Hj). replace (i + 1 + Z.of_nat j0) with (i + Z.of_nat (S j0)) by lia. exact Hsort. }
      specialize (IH HI5). assert (HI6 : (2 * length (left_tokens args) <= n)%nat).
      { assert (1 <= length (tokens j))%nat by (destruct j; cbn; lia). destruct args; cbn [length] in Hn; unfold left_tokens in *; cbn [map commas app length] in *; lia. }
      specialize (IH HI6). assert (HI7 : args <> [] /\ reads t1 c1 (SChar T_COMMA :: left_tokens args) t' c' \/ args = [] /\ no_error c1 /\ exists t0 c0, LexerNextToken sd data c1 = Ok (t0, c0) /\ no_error c0 /\ (jt_type t0 = T_RBRACKET \/ jt_type t0 = T_NONE)).
      { destruct args as [|j2 args]; [right; split; [reflexivity|]|left; split; [discriminate|exact HR2]]. split; [exact Hn1|]. inversion HR2 as [|? ? ? t0 c0 ? ? ? Hn0 Hk0 HL0 HR0]; subst. exists t0, c0. split; [exact HL0|]. inversion HR0; subst. split; [assumption|right; assumption]. }
      specialize (IH HI7 Ht'). change (pw_mem w2) with m2 in IH. destruct (store_arguments E F the_lut tf ctor (combine (placed E (a + space E p) call) args) m2) as [m3| | |]; [|exact IH..].
      change (S (length call) <=? length (j :: args))%nat with (length call <=? length args)%nat. destruct (length call <=? length args)%nat.
      * destruct IH as [w' [HX1 [HX2 [HX3 HX4]]]]. exists w'. rewrite <- app_assoc in HX2. split; [exact HX1|]. split; [exact HX2|]. split; [rewrite HX3; exact Hh|exact HX4].
      * destruct IH as [w' [k' [HX1 [HX2 HX3]]]]. exists w', (S k'). rewrite <- app_assoc in HX2. split; [exact HX1|]. split; [exact HX2|cbn; lia].
Qed.

Lemma build_ok : forall w l f call args n w1, parameters_of w l -> Forall (known_type E) f -> space_of E f <= 2 ^ 31 -> call_order f call -> (length f <= 16)%nat ->
  poc_Init fuel E dtor at_ w f = Ok w1 -> document sd data (J_array args) -> (2 * length data <= n)%nat ->
  let objs := placed E (base_of at_ w1) call in
  match store_arguments E F the_lut tf ctor (combine objs args) (pw_mem w1) with
  | Ok m => if (length f <=? length args)%nat
            then exists w', BuildParameterObjectCache_JSON fuel E ctor dtor at_ F data tf n w f = Ok (true, w') /\ holds w' objs /\ pw_mem w' = m
            else exists w' k, BuildParameterObjectCache_JSON fuel E ctor dtor at_ F data tf n w f = Ok (false, w') /\ ready E at_ w' (firstn k call)
  | Trap => BuildParameterObjectCache_JSON fuel E ctor dtor at_ F data tf n w f = Trap
  | UB => BuildParameterObjectCache_JSON fuel E ctor dtor at_ F data tf n w f = UB
  | Fuel => BuildParameterObjectCache_JSON fuel E ctor dtor at_ F data tf n w f = Fuel
  end.
Proof.
  intros w l f call args n w1 [HB [HH [H15 _]]] Hk Hs Hcall Hlen HI [pl [HL HM]] Hn objs. destruct (Init_ok fuel Hfuel E ctor dtor at_ w l f HB HH H15 Hk Hs) as [w1' [HI' [HR1 [Hc1 _]]]]. rewrite HI in HI'. injection HI' as <-.
  pose proof (proj1 Hcall) as HP. pose proof (Permutation_length HP) as HLen. destruct (sorted_call f call Hcall ltac:(lia)) as [s [HS Hsort]].
  unfold BuildParameterObjectCache_JSON. rewrite HI. cbn [obind]. rewrite HS. cbn [obind]. destruct (at_begin data) as [HB1 [HB2 HB3]].
  assert (HA : at_rest data (JSONContext 0) data) by (split; assumption). destruct (layout_reads F data Hsmall 0 data pl HL (JSONContext 0) HA eq_refl HB3) as [t1 [c1 [t' [c' [HL0 [HRD HT]]]]]]. rewrite HM, tokens_array in HRD.
  rewrite HL0. cbn [obind fst snd]. pose proof (reads_first _ _ _ _ _ _ _ _ HRD) as Hk1. cbn [tok_is] in Hk1. rewrite Hk1. cbn [jtype_eqb]. 
  assert (HLn : forall p text l, layout sd p text l -> (length l <= length text)%nat).
  { clear. intros p text l H. induction H as [|p w k s r ks Hw Hsp Hf _ IH]; [apply Nat.le_0_l|]. pose proof (spelled_nonempty _ _ _ Hsp). rewrite !app_length. cbn [length]. destruct s; [contradiction|cbn [length]; lia]. }
  pose proof (HLn _ _ _ HL) as HLL. rewrite <- (map_length snd), HM, tokens_array in HLL. cbn [length] in HLL.
  rewrite <- HLen. pose proof (load_loop call args n 0 s t1 c1 t' c' w1 [] (SChar T_LBRACKET) HR1) as HX. cbv zeta in HX. cbn [space_of fold_right length app] in HX. rewrite Z.add_0_r, <- held_base in HX. fold objs in HX.
  assert (X1 : Forall (known_type E) call) by (eapply Permutation_Forall; [apply Permutation_sym; exact HP|exact Hk]). specialize (HX X1).
  assert (X2 : 0 + space_of E call <= cap w1) by (rewrite (space_perm fuel Hfuel E ctor dtor at_ _ _ HP); lia). specialize (HX X2 ltac:(lia)).
  specialize (HX Hsort). assert (X3 : (2 * length (left_tokens args) <= n)%nat) by (unfold left_tokens; lia). specialize (HX X3).
  assert (X4 : args <> [] /\ reads t1 c1 (SChar T_LBRACKET :: left_tokens args) t' c' \/ args = [] /\ no_error c1 /\ exists t0 c0, LexerNextToken sd data c1 = Ok (t0, c0) /\ no_error c0 /\ (jt_type t0 = T_RBRACKET \/ jt_type t0 = T_NONE)).
  { destruct args as [|j args]; [right; split; [reflexivity|]|left; split; [discriminate|exact HRD]]. inversion HRD as [|? ? ? t0 c0 ? ? ? Hn0 Hk0 HL1 HR0]; subst. split; [assumption|]. exists t0, c0. split; [exact HL1|]. cbn in HR0. inversion HR0; subst. split; [assumption|left; assumption]. }
  specialize (HX X4 HT). destruct (store_arguments E F the_lut tf ctor (combine objs args) (pw_mem w1)) as [m| | |]; [|exact HX..]. destruct (length call <=? length args)%nat.
  - destruct HX as [w' [HX1 [HX2 [HX3 HX4]]]]. exists w'. split; [exact HX1|]. split; [|exact HX4]. destruct HX2 as [_ [_ [_ [HX2 _]]]]. rewrite HX3, <- held_base in HX2. exact HX2.
  - destruct HX as [w' [k [HX1 [HX2 _]]]]. exists w', k. auto.
Qed.
End Json.
