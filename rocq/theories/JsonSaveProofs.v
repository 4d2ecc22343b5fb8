(* Proofs about saving objects as JSON and loading them again *)
From Coq Require Import Sorted.
From Verif Require Import Base BaseProofs Text FileUtilsSpec HashModel HashSpec HashProofs SearchModel SearchProofs RuntimeModel JsonLexModel JsonLexSpec JsonLexProofs JsonNumModel JsonNumSpec JsonNumProofs JsonObjModel JsonObjSpec JsonObjProofs.

(* ---- pieces of a document ---- *)
Section Lays.
Variable sd : list Z -> Z.
Definition Any (r : list Z) : Prop := True.
(* text is the tokens ks when followed by something that meets P *)
Definition plain_token (k : stoken) : Prop := match k with SString s => Forall is_byte s | _ => True end.
Definition lays (P : list Z -> Prop) (text : list Z) (ks : list stoken) : Prop := Forall plain_token ks /\ forall p rest l, P rest -> layout sd (p + zlen text) rest l ->
  exists pks, map snd pks = ks /\ layout sd p (text ++ rest) (pks ++ l).
Lemma lays_nil : forall P, lays P [] [].
Proof. intros P. split; [constructor|]. intros p rest l _ H. exists []. split; [reflexivity|]. cbn [app]. rewrite zlen_nil, Z.add_0_r in H. exact H. Qed.
Lemma lays_app : forall P Q a b ka kb, lays P a ka -> lays Q b kb -> (forall rest, Q rest -> P (b ++ rest)) -> lays Q (a ++ b) (ka ++ kb).
Proof.
  intros P Q a b ka kb [Ka Ha] [Kb Hb] HPQ. split; [apply Forall_app; split; assumption|]. intros p rest l HQ HL. rewrite zlen_app, Z.add_assoc in HL. destruct (Hb _ _ _ HQ HL) as [kb' [HM HL2]]. destruct (Ha _ _ _ (HPQ _ HQ) HL2) as [ka' [HM2 HL3]].
  exists (ka' ++ kb'). rewrite map_app, HM, HM2, <- !app_assoc. split; [reflexivity|exact HL3].
Qed.
Lemma lays_weaken : forall (P Q : list Z -> Prop) a ka, (forall r, Q r -> P r) -> lays P a ka -> lays Q a ka.
Proof. intros P Q a ka H [Ka Ha]. split; [exact Ka|]. intros p rest l HQ HL. apply Ha; auto. Qed.
Lemma lays_token : forall k s, spelled sd k s -> plain_token k -> lays (may_follow k) s [k].
Proof.
  intros k s Hs Hk. split; [constructor; [exact Hk|constructor]|]. intros p rest l Hf HL. exists [(p, k)]. split; [reflexivity|]. pose proof (lay_token sd p [] k s rest l (Forall_nil _) Hs Hf) as H. rewrite zlen_nil, Z.add_0_r in H. exact (H HL).
Qed.
Lemma layout_white : forall w p text l, Forall white w -> layout sd (p + zlen w) text l -> layout sd p (w ++ text) l.
Proof.
  intros w p text l Hw H. inversion H as [p' w' Hw'|p' w' k s r ks Hw' Hs Hf HL]; subst.
  - apply lay_end. apply Forall_app. auto.
  - rewrite app_assoc. replace (p + zlen w + zlen w') with (p + zlen (w ++ w')) by (rewrite zlen_app; lia). apply lay_token; [apply Forall_app; auto|exact Hs|exact Hf|].
    rewrite zlen_app. replace (p + (zlen w + zlen w') + zlen s) with (p + zlen w + zlen w' + zlen s) by lia. exact HL.
Qed.
Lemma lays_white : forall w, Forall white w -> lays Any w [].
Proof. intros w Hw. split; [constructor|]. intros p rest l _ HL. exists []. split; [reflexivity|]. apply layout_white; assumption. Qed.
Lemma number_bytes : forall dg radix ds acc v, (forall c x, dg c = Some x -> is_byte c) -> number dg radix ds acc = Some v -> Forall is_byte ds.
Proof.
  intros dg radix. induction ds as [|c ds IH]; intros acc v Hd H; [constructor|]. cbn [number] in H. destruct (dg c) as [x|] eqn:Ec; [|discriminate]. constructor; [eapply Hd; exact Ec|eapply IH; [exact Hd|exact H]].
Qed.
Lemma dec_bytes : forall c x, dec_digit c = Some x -> is_byte c.
Proof. intros c x H. unfold dec_digit in H. destruct (_ && _) eqn:Ec; [|discriminate]. unfold is_byte. lia. Qed.
Lemma hex_bytes : forall c x, hex_digit c = Some x -> is_byte c.
Proof. intros c x H. unfold hex_digit in H. unfold is_byte. repeat (destruct (_ && _) eqn:? in H; [lia|]). discriminate. Qed.
Lemma digits_bytes : forall ds, Forall digit ds -> Forall is_byte ds.
Proof. intros ds H. eapply Forall_impl; [|exact H]. intros c Hc. unfold digit, is_byte in *. lia. Qed.
Lemma exponent_bytes : forall e, exponent e -> Forall is_byte e.
Proof.
  intros e [|x sign ds Hx Hs Hd _]; [constructor|]. constructor; [unfold is_byte; lia|]. apply Forall_app. split; [|apply digits_bytes; exact Hd]. destruct Hs as [->|[->| ->]]; repeat constructor; unfold is_byte; lia.
Qed.
Lemma spelled_bytes : forall k s, spelled sd k s -> plain_token k -> Forall is_byte s.
Proof.
  intros k s H Hk. assert (HSg : forall sign : list Z, sign = [] \/ sign = [45] -> Forall is_byte sign) by (intros sign [->| ->]; repeat constructor; unfold is_byte; lia).
  destruct H as [t c H|t s H|s H|ds v _ H|ds v _ H|ds v _ H|ds v _ H|sign ds fs e Hs _ Hd Hf He|sign ds e Hs _ Hd He _].
  - constructor; [destruct H; unfold is_byte; lia|constructor].
  - destruct H; repeat constructor; unfold is_byte; lia.
  - constructor; [unfold is_byte; lia|]. apply Forall_app. split; [exact Hk|]. repeat constructor; unfold is_byte; lia.
  - eapply number_bytes; [exact dec_bytes|exact H].
  - constructor; [unfold is_byte; lia|]. eapply number_bytes; [exact dec_bytes|exact H].
  - apply Forall_app. split; [repeat constructor; unfold is_byte; lia|]. eapply number_bytes; [exact hex_bytes|exact H].
  - apply Forall_app. split; [repeat constructor; unfold is_byte; lia|]. eapply number_bytes; [exact hex_bytes|exact H].
  - apply Forall_app. split; [apply HSg; exact Hs|]. apply Forall_app. split; [apply digits_bytes; exact Hd|]. constructor; [unfold is_byte; lia|]. apply Forall_app. split; [apply digits_bytes; exact Hf|apply exponent_bytes; exact He].
  - apply Forall_app. split; [apply HSg; exact Hs|]. apply Forall_app. split; [apply digits_bytes; exact Hd|apply exponent_bytes; exact He].
Qed.
Lemma layout_bytes : forall p text l, layout sd p text l -> Forall plain_token (map snd l) -> Forall is_byte text.
Proof.
  induction 1 as [p w Hw|p w k s r ks Hw Hs Hf HL IH]; intros HP.
  - eapply Forall_impl; [|exact Hw]. intros c Hc. unfold white, is_byte in *. lia.
  - inversion HP as [|? ? HP1 HP2]; subst. apply Forall_app. split; [eapply Forall_impl; [|exact Hw]; intros c Hc; unfold white, is_byte in *; lia|]. apply Forall_app. split; [eapply spelled_bytes; eassumption|apply IH; exact HP2].
Qed.
Lemma lays_bytes : forall text ks, lays Any text ks -> Forall is_byte text.
Proof.
  intros text ks [HK H]. destruct (H 0 [] [] I) as [pks [HM HL]]; [apply lay_end; constructor|]. rewrite !app_nil_r in HL. apply (layout_bytes _ _ _ HL). rewrite HM. exact HK.
Qed.
Lemma lays_document : forall text j, lays Any text (tokens j) -> document sd text j.
Proof.
  intros text j [_ H]. destruct (H 0 [] [] I) as [pks [HM HL]]; [apply lay_end; constructor|]. exists pks. rewrite app_nil_r in HL. rewrite app_nil_r in HL. split; assumption.
Qed.
Lemma alone_punct : forall c r, In c [44; 58; 93; 125; 34; 123; 91; 10] -> stands_alone (c :: r).
Proof.
  intros c r H. exists c, r. split; [reflexivity|]. unfold digit, letter. cbn [In] in H. lia.
Qed.
Lemma lays_char : forall t c, punct t c -> lays Any [c] [SChar t].
Proof. intros t c H. apply (lays_token (SChar t) [c]); [constructor; exact H|exact I]. Qed.
Lemma lays_string : forall s, string_chars s -> Forall is_byte s -> lays Any (SaveString s) [SString s].
Proof. intros s H Hb. apply (lays_token (SString s)); [apply sp_string; exact H|exact Hb]. Qed.

Lemma newline_white : forall flags, Forall white (NewLine flags).
Proof. intros flags. unfold NewLine. destruct (has_flag _ _); [|constructor]. constructor; [right; lia|]. apply Forall_forall. intros x Hx. apply repeat_spec in Hx. subst x. right. lia. Qed.
(* the pieces of an object between its braces: w says whether something has been written before *)
Definition piece (w : bool) (text : list Z) (w' : bool) (ks : list stoken) : Prop :=
  lays stands_alone text ks /\ (w = true -> text = [] \/ exists r, text = 44 :: r) /\ (text = [] -> ks = [] /\ w' = w) /\ (text <> [] -> w' = true).
Lemma piece_nil : forall w, piece w [] w [].
Proof. intros w. split; [apply lays_nil|]. split; [auto|]. split; [auto|]. contradiction. Qed.
Lemma piece_app : forall w a w1 ka b w2 kb, piece w a w1 ka -> piece w1 b w2 kb -> piece w (a ++ b) w2 (ka ++ kb).
Proof.
  intros w a w1 ka b w2 kb [Ha1 [Ha2 [Ha3 Ha4]]] [Hb1 [Hb2 [Hb3 Hb4]]]. destruct a as [|x a].
  - destruct (Ha3 eq_refl) as [-> ->]. cbn [app]. exact (conj Hb1 (conj Hb2 (conj Hb3 Hb4))).
  - assert (Hw1 : w1 = true) by (apply Ha4; discriminate). split; [|split; [|split]].
    + eapply lays_app; [exact Ha1|exact Hb1|]. intros rest Hr. destruct (Hb2 Hw1) as [->|[r ->]]; [exact Hr|]. apply alone_punct. cbn; auto.
    + intros Hw. destruct (Ha2 Hw) as [H|[r H]]; [discriminate|]. right. exists (r ++ b). rewrite H. reflexivity.
    + discriminate.
    + intros _. destruct b as [|y b]; [|apply Hb4; discriminate]. destruct (Hb3 eq_refl) as [_ ->]. exact Hw1.
Qed.
End Lays.

Fixpoint joined (w : bool) (l : list (list stoken)) : list stoken :=
  match l with [] => [] | x :: r => (if w then [SChar T_COMMA] else []) ++ x ++ joined true r end.
Lemma joined_app : forall a b w, joined w (a ++ b) = joined w a ++ joined (w || match a with [] => false | _ => true end) b.
Proof.
  induction a as [|x a IH]; intros b w; cbn [app joined]; [rewrite orb_false_r; reflexivity|]. rewrite IH, <- !app_assoc. cbn [orb]. rewrite orb_true_r. reflexivity.
Qed.
Lemma joined_commas : forall l, joined false l = commas l.
Proof.
  intros [|x l]; [reflexivity|]. cbn [joined app]. revert x. induction l as [|y l IH]; intros x; [cbn; apply app_nil_r|]. cbn [joined commas app]. rewrite (IH y). reflexivity.
Qed.

(* ---- names of enum values ---- *)
Lemma identifier_chars : forall s, identifier s -> string_chars s.
Proof. intros s [_ H]. induction H as [|c s [_ [H1 [H2 _]]] _ IH]; constructor; assumption. Qed.
Lemma string_chars_app : forall a b, string_chars a -> string_chars b -> string_chars (a ++ b).
Proof.
  intros a b Ha Hb. induction Ha as [|c r H1 H2 H3 IH|c r H1 H3 IH|x y z t r H1 H2 H3 H4 H5 IH]; [exact Hb|apply sc_plain; assumption|apply sc_escape; assumption|].
  apply (sc_unicode x y z t (r ++ b)); assumption.
Qed.
Lemma symbols_plain : forall s rest cur, Forall (fun c => c <> 124) s -> symbols (s ++ 124 :: rest) cur = (rev cur ++ s) :: symbols rest [].
Proof.
  induction s as [|c s IH]; intros rest cur H; cbn [app symbols].
  - cbn. rewrite app_nil_r. reflexivity.
  - inversion H; subst. replace (c =? 124) with false by lia. rewrite IH by assumption. cbn [rev]. rewrite <- app_assoc. reflexivity.
Qed.
Lemma symbols_last : forall s cur, Forall (fun c => c <> 124) s -> rev cur ++ s <> [] -> symbols s cur = [rev cur ++ s].
Proof.
  induction s as [|c s IH]; intros cur H Hne; cbn [symbols].
  - destruct cur as [|x cur]; [contradiction|]. rewrite app_nil_r. reflexivity.
  - inversion H; subst. replace (c =? 124) with false by lia. rewrite IH; [cbn [rev]; rewrite <- app_assoc; reflexivity|assumption|]. cbn [rev]. rewrite <- app_assoc. destruct (rev cur); discriminate.
Qed.
Lemma identifier_plain : forall s, identifier s -> Forall (fun c => c <> 124) s.
Proof. intros s [_ H]. eapply Forall_impl; [|exact H]. cbn. tauto. Qed.
(* names with bars between them *)
Fixpoint barred (names : list (list Z)) : list Z := match names with [] => [] | n :: [] => n | n :: r => n ++ 124 :: barred r end.
Lemma barred_symbols : forall names, Forall identifier names -> symbols (barred names) [] = names.
Proof.
  induction names as [|n names IH]; intros H; [reflexivity|]. inversion H as [|? ? Hn Hns]; subst. pose proof (identifier_plain n Hn) as Hp. destruct names as [|n2 names].
  - cbn [barred]. rewrite (symbols_last n [] Hp); [reflexivity|]. exact (proj1 Hn).
  - change (barred (n :: n2 :: names)) with (n ++ 124 :: barred (n2 :: names)). rewrite (symbols_plain n _ [] Hp). rewrite (IH Hns). reflexivity.
Qed.
Lemma barred_chars : forall names, Forall identifier names -> string_chars (barred names).
Proof.
  induction names as [|n names IH]; intros H; [constructor|]. inversion H as [|? ? Hn Hns]; subst. destruct names as [|n2 names]; [apply identifier_chars; exact Hn|].
  change (barred (n :: n2 :: names)) with (n ++ 124 :: barred (n2 :: names)). apply string_chars_app; [apply identifier_chars; exact Hn|]. constructor; [lia|lia|apply IH; exact Hns].
Qed.
Lemma identifier_bytes : forall s, identifier s -> Forall is_byte s.
Proof. intros s [_ H]. eapply Forall_impl; [|exact H]. intros c Hc. apply Hc. Qed.
Lemma barred_bytes : forall names, Forall identifier names -> Forall is_byte (barred names).
Proof.
  induction names as [|n names IH]; intros H; [constructor|]. inversion H as [|? ? Hn Hns]; subst. destruct names as [|n2 names]; [apply identifier_bytes; exact Hn|].
  change (barred (n :: n2 :: names)) with (n ++ 124 :: barred (n2 :: names)). apply Forall_app. split; [apply identifier_bytes; exact Hn|]. constructor; [unfold is_byte; lia|apply IH; exact Hns].
Qed.
Lemma barred_cons : forall n names, names <> [] -> barred (n :: names) = n ++ 124 :: barred names.
Proof. intros n [|x names] H; [contradiction|reflexivity]. Qed.

Definition const_ok (cs : list (entry (list Z * Z))) : Prop := forall e, In e cs -> identifier (fst (snd e)) /\ fst e = hash32 (fst (snd e)) 0.
(* the loop over the flags: it names some constants, which have every bit of the value that any constant has *)
Lemma save_flags_ok : forall cs value w, value <> 0 ->
  exists used, (forall e, In e used -> In e cs /\ Z.land value (snd (snd e)) <> 0) /\
    (forall b e, Z.testbit value b = true -> In e cs -> Z.testbit (snd (snd e)) b = true -> exists u, In u used /\ Z.testbit (snd (snd u)) b = true) /\
    save_flags cs value w = match used with [] => if w then [34] else SaveString (str "clReflect_JSON_EnumFlagNotFound") | _ => (if w then 124 else 34) :: barred (map (fun e => fst (snd e)) used) ++ [34] end.
Proof.
  induction cs as [|[h [name v]] cs IH]; intros value w Hv.
  - exists []. split; [contradiction|]. split; [contradiction|]. reflexivity.
  - cbn [save_flags]. destruct (Z.eqb_spec (Z.land value v) 0) as [Hl|Hl]; cbn [negb].
    + destruct (IH value w Hv) as [used [H1 [H2 H3]]]. exists used. split; [intros e He; destruct (H1 e He); split; [right; assumption|assumption]|]. split; [|exact H3].
      intros b e Hb [<-|He] Hbe; [|eapply H2; eassumption]. exfalso. cbn [fst snd] in Hbe. assert (HT : Z.testbit (Z.land value v) b = true) by (rewrite Z.land_spec, Hb, Hbe; reflexivity). rewrite Hl, Z.bits_0 in HT. discriminate.
    + cbv zeta. destruct (Z.eqb_spec (Z.ldiff value v) 0) as [Hd|Hd].
      * exists [(h, (name, v))]. split; [intros e [<-|[]]; split; [left; reflexivity|exact Hl]|]. split; [|cbn [map barred fst snd]; reflexivity].
        intros b e Hb _ _. exists (h, (name, v)). split; [left; reflexivity|]. cbn [snd]. assert (HT : Z.testbit (Z.ldiff value v) b = false) by (rewrite Hd; apply Z.bits_0). rewrite Z.ldiff_spec, Hb in HT. destruct (Z.testbit v b); [reflexivity|discriminate].
      * destruct (IH (Z.ldiff value v) true Hd) as [used [H1 [H2 H3]]]. exists ((h, (name, v)) :: used). split; [|split].
        -- intros e [<-|He]; [split; [left; reflexivity|exact Hl]|]. destruct (H1 e He) as [H4 H5]. split; [right; exact H4|]. intros H6. apply H5. apply Z.bits_inj'. intros b Hb0. rewrite Z.land_spec, Z.ldiff_spec, Z.bits_0.
           assert (HT : Z.testbit (Z.land value (snd (snd e))) b = false) by (rewrite H6; apply Z.bits_0). rewrite Z.land_spec in HT. destruct (Z.testbit value b), (Z.testbit (snd (snd e)) b), (Z.testbit v b); cbn in *; congruence.
        -- intros b e Hb He Hbe. destruct (Z.testbit v b) eqn:Ev; [exists (h, (name, v)); split; [left; reflexivity|exact Ev]|].
           destruct He as [<-|He]; [cbn [snd] in Hbe; congruence|]. destruct (H2 b e) as [u [Hu Hub]]; [rewrite Z.ldiff_spec, Hb, Ev; reflexivity|exact He|exact Hbe|]. exists u. split; [right; exact Hu|exact Hub].
        -- rewrite H3. destruct used as [|u used]; [reflexivity|]. cbn [map]. rewrite (barred_cons name) by discriminate. rewrite <- !app_assoc. reflexivity.
Qed.
Lemma lor_all : forall l, (forall b, Z.testbit (fold_right Z.lor 0 l) b = true <-> exists v, In v l /\ Z.testbit v b = true).
Proof.
  induction l as [|x l IH]; intros b; cbn [fold_right In].
  - rewrite Z.bits_0. split; [discriminate|intros [v [[] _]]].
  - rewrite Z.lor_spec, orb_true_iff, IH. split.
    + intros [H|[v [H1 H2]]]; [exists x; auto|exists v; auto].
    + intros [v [[<-|H1] H2]]; [left; exact H2|right; exists v; auto].
Qed.
Lemma lor_left : forall l a, fold_left Z.lor l a = Z.lor a (fold_right Z.lor 0 l).
Proof. induction l as [|x l IH]; intros a; cbn [fold_left fold_right]; [rewrite Z.lor_0_r; reflexivity|]. rewrite IH, Z.lor_assoc. reflexivity. Qed.
Lemma lookup_const : forall (cs : list (entry (list Z * Z))) e, strict cs -> In e cs -> lookup cs (fst e) = Some (snd e).
Proof. intros cs [h x] Hs He. apply lookup_strict; assumption. Qed.

Lemma enum_name_ok : forall cs value, In value (constant_values cs) -> exists e, In e cs /\ snd (snd e) = value /\ enum_name cs value = fst (snd e).
Proof.
  induction cs as [|[h [name v]] cs IH]; intros value H; [contradiction|]. cbn [enum_name]. destruct (Z.eqb_spec v value) as [->|Hne].
  - exists (h, (name, value)). split; [left; reflexivity|]. split; reflexivity.
  - destruct H as [H|H]; [cbn in H; contradiction|]. destruct (IH value H) as [e [H1 [H2 H3]]]. exists e. split; [right; exact H1|]. split; assumption.
Qed.
Lemma enum_values_used : forall cs used, strict cs -> const_ok cs -> (forall e, In e used -> In e cs) ->
  flat_map (fun s => match lookup cs (hash32 s 0) with Some (_, v) => [v] | None => [] end) (map (fun e => fst (snd e)) used) = constant_values used.
Proof.
  intros cs used Hs Hc. induction used as [|e used IH]; intros H; [reflexivity|]. cbn [map flat_map constant_values]. rewrite IH by (intros; apply H; right; assumption).
  assert (He : In e cs) by (apply H; left; reflexivity). rewrite <- (proj2 (Hc e He)), (lookup_const cs e Hs He). destruct (snd e). reflexivity.
Qed.
Lemma enum_saved : forall mem a fl cs text bytes, strict cs -> const_ok cs -> rd_bytes mem a 4 = Ok bytes -> SaveEnum mem a fl cs = Ok text -> nameable fl cs (s32 (le_val bytes)) ->
  exists s v r, text = SaveString s /\ (string_chars s /\ Forall is_byte s) /\ enum_values fl cs s = v :: r /\ fold_left Z.lor r v = s32 (le_val bytes).
Proof.
  intros mem a fl cs text bytes Hs Hc HR HS Hn. unfold SaveEnum in HS. rewrite HR, bind_Ok in HS. cbv zeta in HS. set (value := s32 (le_val bytes)) in *. unfold nameable in Hn. destruct (fl && negb (value =? 0)) eqn:Ef.
  - apply andb_true_iff in Ef. destruct Ef as [-> Hv]. assert (Hv' : value <> 0) by (intros HH; rewrite HH in Hv; discriminate). injection HS as <-. destruct Hn as [[sel [Hsel Hval]] Hpart].
    destruct (save_flags_ok cs value false Hv') as [used [H1 [H2 H3]]].
    assert (HV : value = fold_right Z.lor 0 (constant_values used)).
    { apply Z.bits_inj'. intros b _. apply eq_true_iff_eq. rewrite lor_all. split.
      - intros Hb. pose proof Hb as Hb'. rewrite <- Hval, lor_all in Hb'. destruct Hb' as [v [Hv1 Hv2]]. apply Hsel in Hv1. unfold constant_values in Hv1. apply in_map_iff in Hv1. destruct Hv1 as [e [<- He]].
        destruct (H2 b e Hb He Hv2) as [u [Hu1 Hu2]]. exists (snd (snd u)). split; [apply in_map_iff; exists u; auto|exact Hu2].
      - intros [v [Hin Hb]]. unfold constant_values in Hin. apply in_map_iff in Hin. destruct Hin as [e [<- He]]. destruct (H1 e He) as [Hcs Hl]. destruct (Hpart (snd (snd e))) as [HH|HH]; [apply in_map_iff; exists e; auto|contradiction|].
        rewrite <- HH, Z.land_spec in Hb. apply andb_true_iff in Hb. apply Hb. }
    destruct used as [|u used]; [exfalso; apply Hv'; exact HV|]. set (names := map (fun e : entry (list Z * Z) => fst (snd e)) (u :: used)) in *.
    assert (Hid : Forall identifier names) by (unfold names; apply Forall_map, Forall_forall; intros e He; apply Hc, H1; exact He).
    exists (barred names), (snd (snd u)), (constant_values used). split; [exact H3|]. split; [split; [apply barred_chars|apply barred_bytes]; exact Hid|]. split.
    + unfold enum_values. rewrite (barred_symbols names Hid). exact (enum_values_used cs (u :: used) Hs Hc (fun e He => proj1 (H1 e He))).
    + rewrite lor_left. symmetry. exact HV.
  - injection HS as <-. destruct (enum_name_ok cs value Hn) as [e [H1 [H2 H3]]]. destruct (Hc e H1) as [Hid Hh]. rewrite H3. exists (fst (snd e)), value, []. split; [reflexivity|]. split; [split; [apply identifier_chars|apply identifier_bytes]; exact Hid|]. split; [|reflexivity].
    unfold enum_values. assert (HS : (if fl then symbols (fst (snd e)) [] else [fst (snd e)]) = map (fun e => fst (snd e)) [e]).
    { destruct fl; [|reflexivity]. exact (barred_symbols [fst (snd e)] (Forall_cons _ Hid (Forall_nil _))). }
    rewrite HS. etransitivity; [apply (enum_values_used cs [e] Hs Hc); intros x [<-|[]]; exact H1|]. cbn. rewrite H2. reflexivity.
Qed.

(* ---- where the bytes of an object go ---- *)
(* m' is m with the bytes of mem at the offsets P of an object at a copied to one at a2 *)
Definition copied (mem : list Z) (a a2 : Z) (P : Z -> Prop) (m m' : list Z) : Prop :=
  zlen m' = zlen m /\ (forall d, P d -> znth m' (a2 + d) = znth mem (a + d)) /\
  (forall x, znth m' x = znth m x \/ (P (x - a2) /\ znth m' x = znth mem (a + (x - a2)))).
Lemma copied_none : forall mem a a2 m (P : Z -> Prop), (forall d, ~ P d) -> copied mem a a2 P m m.
Proof. intros mem a a2 m P H. split; [reflexivity|]. split; [intros d Hd; destruct (H d Hd)|]. auto. Qed.
Lemma copied_trans : forall mem a a2 P Q R m m1 m2, copied mem a a2 P m m1 -> copied mem a a2 Q m1 m2 -> (forall d, R d <-> P d \/ Q d) -> copied mem a a2 R m m2.
Proof.
  intros mem a a2 P Q R m m1 m2 [H1 [H2 H3]] [H4 [H5 H6]] HR. split; [lia|]. split.
  - intros d Hd. apply HR in Hd. destruct Hd as [Hd|Hd]; [|apply H5; exact Hd]. destruct (H6 (a2 + d)) as [H|[H H']]; [rewrite H; apply H2; exact Hd|]. rewrite H'. f_equal. lia.
  - intros x. destruct (H6 x) as [H|[H H']]; [|right; split; [apply HR; auto|exact H']]. destruct (H3 x) as [H0|[H0 H0']]; [left; congruence|]. right. split; [apply HR; auto|congruence].
Qed.
Lemma copied_ext : forall mem a a2 P Q m m', (forall d, P d <-> Q d) -> copied mem a a2 P m m' -> copied mem a a2 Q m m'.
Proof. intros mem a a2 P Q m m' H [H1 [H2 H3]]. split; [exact H1|]. split; [intros d Hd; apply H2, H; exact Hd|]. intros x. destruct (H3 x) as [H4|[H4 H5]]; [auto|]. right. split; [apply H; exact H4|exact H5]. Qed.
(* seen from an enclosing object *)
Lemma copied_shift : forall mem a a2 o P m m', copied mem (a + o) (a2 + o) P m m' -> copied mem a a2 (fun d => P (d - o)) m m'.
Proof.
  intros mem a a2 o P m m' [H1 [H2 H3]]. split; [exact H1|]. split.
  - intros d Hd. specialize (H2 _ Hd). replace (a2 + o + (d - o)) with (a2 + d) in H2 by lia. replace (a + o + (d - o)) with (a + d) in H2 by lia. exact H2.
  - intros x. destruct (H3 x) as [H|[H H']]; [auto|]. right. replace (x - (a2 + o)) with (x - a2 - o) in H, H' by lia. split; [exact H|]. rewrite H'. f_equal. lia.
Qed.
Lemma copied_bytes : forall mem a a2 n bytes m m', rd_bytes mem a n = Ok bytes -> wr_bytes m a2 bytes = Ok m' -> copied mem a a2 (fun d => 0 <= d < n) m m'.
Proof.
  intros mem a a2 n bytes m m' HR HW. apply rd_bytes_ok in HR. destruct HR as [R1 [R2 [R3 HR]]]. assert (HL : zlen bytes = n) by (rewrite HR; apply slice_length; assumption). apply written_splice in HW. destruct HW as [W1 W2].
  assert (HS : forall d, 0 <= d < n -> znth bytes d = znth mem (a + d)).
  { intros d Hd. rewrite HR, znth_slice by lia. replace ((0 <=? d) && (d <? n)) with true by lia. reflexivity. }
  split; [exact W1|]. split.
  - intros d Hd. rewrite W2, HL. replace ((a2 <=? a2 + d) && (a2 + d <? a2 + n)) with true by lia. replace (a2 + d - a2) with d by lia. apply HS. exact Hd.
  - intros x. rewrite W2, HL. destruct ((a2 <=? x) && (x <? a2 + n)) eqn:Ex; [|left; reflexivity]. right. split; [lia|]. apply HS. lia.
Qed.

(* ---- fields ---- *)
Section Members.
Variable E : list rtype.
Hypothesis HE : wf_types E.
Variable tf : Z.
Lemma find_has : forall n ty h g, find_field n E ty h = Some g -> has_member E ty h g.
Proof.
  induction n as [|n IH]; intros ty h g H; [discriminate|]. cbn [find_field] in H. destruct (nth_error E ty) as [t|] eqn:Et; [|discriminate].
  assert (HB : forall l, (forall b, In b l -> In b (rt_bases t)) -> forall r, (forall f, r = Some f -> has_member E ty h f) -> forall g, fold_left (fun r b => match r with Some f => Some f | None => find_field n E b h end) l r = Some g -> has_member E ty h g).
  { induction l as [|b l IHl]; intros Hl r Hr g0 H0; cbn [fold_left] in H0; [apply Hr; exact H0|]. eapply IHl; [intros b' Hb'; apply Hl; right; exact Hb'| |exact H0].
    intros f Hf. destruct r as [f0|]; [apply Hr; exact Hf|]. apply (hm_base E ty t b); [exact Et|apply Hl; left; reflexivity|apply IH; exact Hf]. }
  destruct (rt_kind t) as [| |fa fs] eqn:Ek; try (eapply HB; [| |exact H]; [auto|discriminate]).
  destruct (lookup fs h) as [f|] eqn:EL; [|eapply HB; [| |exact H]; [auto|discriminate]]. injection H as <-. pose proof (lookup_in _ _ _ _ EL) as Hin. eapply hm_own; eassumption.
Qed.
Lemma find_complete : forall n ty h f, has_member E ty h f -> (ty < n)%nat -> exists g, find_field n E ty h = Some g.
Proof.
  intros n ty h f H. revert n. induction H as [ty t fa fs h f Ht Hk Hin|ty t b h f Ht Hb H IH]; intros n Hn; (destruct n as [|n]; [lia|]); cbn [find_field]; rewrite Ht.
  - rewrite Hk. assert (Hs : strict fs). { pose proof (HE ty t Ht) as [_ HW]. rewrite Hk in HW. apply HW. } rewrite (lookup_strict _ fs h f Hs Hin). eauto.
  - assert (HB : forall l r, (In b l \/ r <> None) -> exists g, fold_left (fun r b => match r with Some f => Some f | None => find_field n E b h end) l r = Some g).
    { assert (Hbn : (b < n)%nat) by (pose proof (HE ty t Ht) as [HW _]; specialize (HW b Hb); lia). destruct (IH n Hbn) as [g Hg].
      induction l as [|b' l IHl]; intros r Hr; cbn [fold_left]; [destruct Hr as [[]|Hr]; destruct r; [eauto|contradiction]|]. apply IHl.
      destruct r as [r|]; [right; discriminate|]. destruct Hr as [[->|Hr]|Hr]; [right; congruence|left; exact Hr|contradiction]. }
    destruct (match rt_kind t with K_class _ fs => lookup fs h | _ => None end) as [f0|]; [eauto|]. apply HB. left. exact Hb.
Qed.
Lemma saved_has : forall ty f, saved_field E tf ty f -> (forall v t fa fs, uses E tf ty v -> nth_error E v = Some t -> rt_kind t = K_class fa fs -> forall e, In e fs -> fst e = hash32 (rf_name (snd e)) 0) ->
  has_member E ty (hash32 (rf_name f) 0) f /\ has_flag (rf_flags f) tf = false.
Proof.
  induction 1 as [ty t fa fs h f Ht Hk Hfa Hin Hff Hp|ty t b f Ht Htr Hb _ IH]; intros HN.
  - pose proof (HN ty t fa fs (us_self _ _ _) Ht Hk _ Hin) as Hh. cbn [fst snd] in Hh. subst h. split; [eapply hm_own; eassumption|exact Hff].
  - destruct IH as [H1 H2]. { intros v t' fa fs Hv. apply HN. eapply us_base; eassumption. } split; [eapply hm_base; eassumption|exact H2].
Qed.
Lemma saved_member_field : forall ty t fa fs f sorted pm, nth_error E ty = Some t -> rt_kind t = K_class fa fs -> (forall v t, uses E tf ty v -> nth_error E v = Some t -> type_ok E tf sorted pm v t) ->
  saved_field E tf ty f -> member_field E tf ty (rf_name f) = Some f.
Proof.
  intros ty t fa fs f sorted pm Ht Hk HU Hs. assert (HT := HU ty t (us_self _ _ _) Ht). destruct HT as [HT _]. rewrite Hk in HT. destruct HT as [Huniq _].
  destruct (saved_has ty f Hs) as [Hm Hff]. { intros v t' fa' fs' Hv Ht' Hk' e He. pose proof (HU v t' Hv Ht') as [HT _]. rewrite Hk' in HT. apply HT. exact He. }
  destruct (find_complete (S ty) ty _ f Hm ltac:(lia)) as [g Hg]. pose proof (Huniq _ _ _ Hm (find_has _ _ _ _ Hg)) as Hfg. subst g.
  unfold member_field. rewrite Ht. destruct t as [h sz k bs]. cbn [rt_kind] in Hk. subst k. rewrite Hg, Hff. reflexivity.
Qed.
Lemma uses_trans : forall a b c, uses E tf a b -> uses E tf b c -> uses E tf a c.
Proof. intros a b c H. induction H as [|ty t b0 u Ht Hb H IH|ty f u Hf H IH]; intros Hc; [exact Hc|eapply us_base; eauto|eapply us_field; eauto]. Qed.

(* ---- the order of the fields ---- *)
Lemma lowest_ok : forall fs last lo best o b, lowest_field fs tf last lo best = (o, b) ->
  (forall f, best = Some f -> rf_offset f = lo) -> (best = None -> lo = 2147483647) ->
  (b = None -> best = None /\ forall e, In e fs -> has_flag (rf_flags (snd e)) tf = false -> rf_offset (snd e) > last -> rf_offset (snd e) >= lo) /\
  (forall f, b = Some f -> rf_offset f = o /\ o <= lo /\ (best = Some f \/ exists h, In (h, f) fs /\ has_flag (rf_flags f) tf = false /\ last < o) /\
     forall e, In e fs -> has_flag (rf_flags (snd e)) tf = false -> rf_offset (snd e) > last -> rf_offset (snd e) >= o).
Proof.
  induction fs as [|[h f] fs IH]; intros last lo best o b H Hb1 Hb2; cbn [lowest_field] in H.
  - injection H as <- <-. split; [intros ->; split; [reflexivity|contradiction]|]. intros f Hf. split; [apply Hb1; exact Hf|]. split; [lia|]. split; [left; exact Hf|contradiction].
  - unfold is_transient in H. destruct (has_flag (rf_flags f) tf) eqn:Ef.
    + destruct (IH _ _ _ _ _ H Hb1 Hb2) as [H1 H2]. split.
      * intros Hn. destruct (H1 Hn) as [H3 H4]. split; [exact H3|]. intros e [<-|He]; [cbn [snd]; congruence|apply H4; exact He].
      * intros g Hg. destruct (H2 g Hg) as [H3 [H4 [H5 H6]]]. split; [exact H3|]. split; [exact H4|]. split; [destruct H5 as [H5|[k [H5 H5']]]; [left; exact H5|right; exists k; split; [right; exact H5|exact H5']]|].
        intros e [<-|He]; [cbn [snd]; congruence|apply H6; exact He].
    + destruct ((rf_offset f >? last) && (rf_offset f <? lo)) eqn:Ec.
      * destruct (IH _ _ _ _ _ H) as [H1 H2]; [intros g Hg; injection Hg as <-; reflexivity|discriminate|]. split.
        -- intros Hn. destruct (H1 Hn) as [H3 _]. discriminate.
        -- intros g Hg. destruct (H2 g Hg) as [H3 [H4 [H5 H6]]]. split; [exact H3|]. split; [lia|]. split.
           ++ right. destruct H5 as [H5|[k [H5 H5']]]; [injection H5 as <-; exists h; split; [left; reflexivity|split; [exact Ef|lia]]|exists k; split; [right; exact H5|exact H5']].
           ++ intros e [<-|He]; [cbn [snd]; lia|apply H6; exact He].
      * destruct (IH _ _ _ _ _ H Hb1 Hb2) as [H1 H2]. split.
        -- intros Hn. destruct (H1 Hn) as [H3 H4]. split; [exact H3|]. intros e [<-|He]; [cbn [snd]; lia|apply H4; exact He].
        -- intros g Hg. destruct (H2 g Hg) as [H3 [H4 [H5 H6]]]. split; [exact H3|]. split; [exact H4|]. split; [destruct H5 as [H5|[k [H5 H5']]]; [left; exact H5|right; exists k; split; [right; exact H5|exact H5']]|].
           intros e [<-|He]; [cbn [snd]; lia|apply H6; exact He].
Qed.
End Members.
