(* Loading an arbitrary text: it ends, and changes only the object *)
From Verif Require Import Base BaseProofs Text RuntimeModel JsonLexModel JsonLexSpec JsonLexProofs JsonNumModel JsonNumSpec JsonNumProofs JsonObjModel JsonObjSpec JsonObjProofs JsonStoreProofs JsonSafeSpec.

(* ---- strings lie in the text, whatever errors they have ---- *)
Section Strings.
Variable data : list Z.
Lemma consume_inv : forall c n c', ConsumeChars data c n = Ok c' -> jc_pos c' = jc_pos c + n /\ jc_pos c' <= zlen data.
Proof. intros c n c' H. unfold ConsumeChars, assert in H. destruct (jc_pos c + n <=? zlen data) eqn:E; [|discriminate H]. cbn [obind] in H. injection H as <-. cbn. lia. Qed.
Lemma hex4_inv : forall c n c', Lexer32bitHexDigits data c = Ok (n, c') -> jc_pos c' = jc_pos c + 1 + n /\ 0 <= n.
Proof.
  intros c n c' H. unfold Lexer32bitHexDigits in H. apply bind_inv in H. destruct H as [c1 [H1 H]]. apply consume_inv in H1. destruct H1 as [H1 _].
  destruct (overflows data c1 4); [injection H as <- <-; rewrite SetError_pos; lia|].
  apply bind_inv in H. destruct H as [p [_ H]]. apply bind_inv in H. destruct H as [d0 [_ H]]. apply bind_inv in H. destruct H as [ok [_ H]]. destruct ok.
  - apply bind_inv in H. destruct H as [c2 [H2 H]]. apply consume_inv in H2. injection H as <- <-. lia.
  - injection H as <- <-. rewrite SetError_pos. lia.
Qed.
Lemma escape_inv : forall c n c', LexerEscapeSequence data c = Ok (n, c') -> n <> 0 -> jc_pos c' = jc_pos c + 1 + n /\ 0 <= n.
Proof.
  intros c n c' H Hn. unfold LexerEscapeSequence in H. apply bind_inv in H. destruct H as [c1 [H1 H]]. apply consume_inv in H1. destruct H1 as [H1 _].
  destruct (overflows data c1 0); [injection H as <- <-; lia|]. apply bind_inv in H. destruct H as [ch [_ H]].
  match type of H with (if ?x then _ else _) = _ => destruct x end.
  - apply bind_inv in H. destruct H as [c2 [H2 H]]. apply consume_inv in H2. injection H as <- <-. lia.
  - destruct (ch =? 117); [|injection H as <- <-; lia]. apply bind_inv in H. destruct H as [[k c2] [H2 H]]. apply hex4_inv in H2. cbn [fst snd] in H. assert (En : n = 1 + k) by congruence. assert (c' = c2) by congruence. subst c'. lia.
Qed.
Lemma string_loop_inv : forall fuel c start len t c', string_loop fuel data c start len = Ok (t, c') -> start + len = jc_pos c -> 0 <= len ->
  jt_type t = T_STRING -> jt_val t = start /\ 0 <= jt_length t /\ start + jt_length t <= zlen data.
Proof.
  induction fuel as [|fuel IH]; intros c start len t c' H Hp Hl Ht; [discriminate H|]. cbn [string_loop] in H. destruct (overflows data c 0); [injection H as <- <-; discriminate Ht|].
  apply bind_inv in H. destruct H as [ch [_ H]]. destruct (ch =? 34).
  - apply bind_inv in H. destruct H as [c1 [H1 H]]. apply consume_inv in H1. injection H as <- <-. cbn. lia.
  - destruct (ch =? 92).
    + apply bind_inv in H. destruct H as [[k c1] [H1 H]]. cbn [fst snd] in H. destruct (k =? 0) eqn:Ek; [injection H as <- <-; discriminate Ht|]. apply escape_inv in H1; [|lia]. exact (IH _ _ _ _ _ H ltac:(lia) ltac:(lia) Ht).
    + apply bind_inv in H. destruct H as [c1 [H1 H]]. apply consume_inv in H1. exact (IH _ _ _ _ _ H ltac:(lia) ltac:(lia) Ht).
Qed.
Lemma hex_loop_type : forall fuel c type ch v t c', hex_loop fuel data c type ch v = Ok (t, c') -> jt_type t = T_NONE \/ jt_type t = type.
Proof.
  induction fuel as [|fuel IH]; intros c type ch v t c' H; [discriminate H|]. cbn [hex_loop] in H. apply bind_inv in H. destruct H as [c1 [_ H]]. destruct (overflows data c1 0); [injection H as <- <-; left; reflexivity|].
  apply bind_inv in H. destruct H as [d [_ H]]. destruct (ishexdigit d); [exact (IH _ _ _ _ _ _ H)|]. injection H as <- <-. right. reflexivity.
Qed.
Lemma hex_type : forall c type t c', LexerHexInteger data c type = Ok (t, c') -> jt_type t = T_NONE \/ jt_type t = type.
Proof.
  intros c type t c' H. unfold LexerHexInteger in H. destruct (overflows data c 0); [injection H as <- <-; left; reflexivity|]. apply bind_inv in H. destruct H as [d [_ H]].
  destruct (negb (ishexdigit d)); [injection H as <- <-; left; reflexivity|]. exact (hex_loop_type _ _ _ _ _ _ _ H).
Qed.
Lemma number_type : forall sd c t c', LexerNumber sd data c = Ok (t, c') -> jt_type t <> T_STRING.
Proof.
  intros sd c t c' H HT. unfold LexerNumber in H. apply bind_inv in H. destruct H as [st [_ H]]. apply bind_inv in H. destruct H as [ch [_ H]].
  match type of H with (if ?x then _ else _) = _ => destruct x end; [injection H as <- <-; discriminate HT|]. apply bind_inv in H. destruct H as [px [_ H]].
  destruct (px =? 100). { apply bind_inv in H. destruct H as [c1 [_ H]]. apply hex_type in H. rewrite HT in H. destruct H as [H|H]; discriminate H. }
  destruct (px =? 120). { apply bind_inv in H. destruct H as [c1 [_ H]]. apply hex_type in H. rewrite HT in H. destruct H as [H|H]; discriminate H. }
  apply bind_inv in H. destruct H as [c1 [_ H]]. apply bind_inv in H. destruct H as [[v c2] [_ H]]. cbn [fst snd] in H. destruct v as [v|]; [|injection H as <- <-; discriminate HT].
  apply bind_inv in H. destruct H as [ds [_ H]]. apply bind_inv in H. destruct H as [e [_ H]].
  match type of H with (if ?x then _ else _) = _ => destruct x end; [|injection H as <- <-; discriminate HT].
  apply bind_inv in H. destruct H as [[ok c3] [_ H]]. cbn [fst snd] in H. destruct ok; [|injection H as <- <-; discriminate HT].
  apply bind_inv in H. destruct H as [k [_ H]]. apply bind_inv in H. destruct H as [c4 [_ H]]. injection H as <- <-. discriminate HT.
Qed.
Lemma keyword_type : forall kw c type len t c', keyword_loop data c type len kw = Ok (t, c') -> jt_type t = T_NONE \/ jt_type t = type.
Proof.
  induction kw as [|k kw IH]; intros c type len t c' H; cbn [keyword_loop] in H; [injection H as <- <-; right; reflexivity|]. destruct (overflows data c 0); [injection H as <- <-; left; reflexivity|].
  apply bind_inv in H. destruct H as [ch [_ H]]. destruct (k =? ch); [|injection H as <- <-; left; reflexivity]. apply bind_inv in H. destruct H as [c1 [_ H]]. exact (IH _ _ _ _ _ H).
Qed.
Lemma token_string : small data -> forall sd fuel c t c', inside data c -> next_token fuel sd data c = Ok (t, c') -> jt_type t = T_STRING ->
  0 <= jt_val t /\ 0 <= jt_length t /\ jt_val t + jt_length t <= zlen data.
Proof.
  intros Hs sd. induction fuel as [|fuel IH]; intros c t c' Hi H HT; [discriminate H|]. cbn [next_token] in H. destruct (overflows data c 0); [injection H as <- <-; discriminate HT|].
  apply bind_inv in H. destruct H as [ch [_ H]].
  assert (HW : forall c0 c1, jc_pos c0 = jc_pos c -> ConsumeChar data c0 = Ok c1 -> inside data c1). { intros c0 c1 H0 H1. apply consume_inv in H1. unfold inside in *. lia. }
  destruct (ch =? 10). { apply bind_inv in H. destruct H as [c1 [H1 H]]. exact (IH _ _ _ (HW (IncLine c) c1 eq_refl H1) H HT). }
  match type of H with (if ?x then _ else _) = _ => destruct x end. { apply bind_inv in H. destruct H as [c1 [H1 H]]. exact (IH _ _ _ (HW c c1 eq_refl H1) H HT). }
  destruct (structural ch) as [ty|] eqn:Es. { apply bind_inv in H. destruct H as [c1 [_ H]]. injection H as <- <-. cbn in HT. subst ty. apply structural_punct in Es. inversion Es. }
  assert (HK : forall ty kw, LexerKeyword data c ty kw = Ok (t, c') -> ty <> T_STRING -> False). { intros ty kw HH Hne. unfold LexerKeyword in HH. apply bind_inv in HH. destruct HH as [c1 [_ HH]]. apply keyword_type in HH. rewrite HT in HH. destruct HH as [HH|HH]; [discriminate HH|congruence]. }
  destruct (ch =? 34).
  - unfold LexerString in H. apply bind_inv in H. destruct H as [c1 [H1 H]]. pose proof (HW c c1 eq_refl H1) as Hi1. apply bind_inv in H. destruct H as [st [H2 H]]. unfold PeekChars, assert in H2. destruct (u32 (jc_pos c1) <=? zlen data); [|discriminate H2]. cbn [obind] in H2. injection H2 as <-.
    rewrite (small_u32 data (jc_pos c1) Hs Hi1) in H. apply string_loop_inv in H; [|lia|lia|exact HT]. destruct Hi1. lia.
  - destruct ((ch =? 45) || isdigit ch). { exfalso. exact (number_type _ _ _ _ H HT). }
    destruct (ch =? 116). { exfalso. exact (HK _ _ H ltac:(discriminate)). }
    destruct (ch =? 102). { exfalso. exact (HK _ _ H ltac:(discriminate)). }
    destruct (ch =? 110). { exfalso. exact (HK _ _ H ltac:(discriminate)). }
    injection H as <- <-. discriminate HT.
Qed.
End Strings.

Section Safe.
Variable E : list rtype.
Variable F : floats.
Variable lut : list (option basic).
Variable data : list Z.
Variable tf : Z.
Notation sd := (str2d F).
Notation MS := (may_store E lut tf).
Notation MF := (may_store_field E lut tf).
Hypothesis HE : wf_types E.
Hypothesis Hbytes : Forall is_byte data.
Hypothesis Hsmall : small data.
Hypothesis Hsz : wf_sizes E.
Hypothesis Hlut : forall h, exists e, rd lut (GetTypeDispatchIndex h) = Ok e.

Definition tok_fine (t : jtok) : Prop :=
  (jt_type t = T_STRING -> exists s, rd_bytes data (jt_val t) (jt_length t) = Ok s) /\
  (jt_type t = T_DECIMAL -> exists c c', inside data c /\ LexerNextToken sd data c = Ok (t, c')).
Definition fine (s : pstate) : Prop := inside data (ps_c s) /\ tok_fine (ps_t s).
Definition left_ (s : pstate) : Z := zlen data - jc_pos (ps_c s) + (if IsValid (ps_t s) then 1 else 0).
Lemma left_pos : forall s, fine s -> 0 <= left_ s.
Proof. intros s [[_ H] _]. unfold left_. destruct (IsValid (ps_t s)); lia. Qed.
Lemma no_token_fine : tok_fine no_token.
Proof. split; intros H; discriminate H. Qed.
Lemma next_fine : forall s, inside data (ps_c s) ->
  (next F data s = UB /\ cut_number data) \/
  exists s', next F data s = Ok s' /\ fine s' /\ ps_m s' = ps_m s /\ left_ s' <= zlen data - jc_pos (ps_c s).
Proof.
  intros s Hi. unfold next. destruct (next_any data Hsmall sd (ps_c s) Hi) as [[HU HC]|[t [c' [HL [[HO1 [HO2 _]] [HV _]]]]]].
  - left. rewrite HU. split; [reflexivity|]. exists (jc_pos (ps_c s)). split; [exact Hi|exact HC].
  - right. rewrite HL. cbn [obind fst snd]. eexists. split; [reflexivity|]. split; [split; [exact HO1|]|split; [reflexivity|]].
    + cbn [ps_t]. split; [|intros _; exists (ps_c s), c'; auto]. intros HT. unfold LexerNextToken in HL. destruct (token_string data Hsmall sd _ _ _ _ Hi HL HT) as [T1 [T2 T3]]. unfold rd_bytes.
      replace ((0 <=? jt_val t) && (0 <=? jt_length t) && (jt_val t + jt_length t <=? zlen data)) with true by lia. eauto.
    + unfold left_. cbn [ps_c ps_t]. destruct (IsValid t) eqn:Ev; [specialize (HV eq_refl)|]; lia.
Qed.
Lemma left_valid : forall s ty, jt_type (ps_t s) = ty -> ty <> T_NONE -> left_ s = zlen data - jc_pos (ps_c s) + 1.
Proof. intros s ty H Hn. unfold left_. rewrite (valid_type _ _ H Hn). reflexivity. Qed.
Lemma expect_fine : forall s ty, fine s -> ty <> T_NONE ->
  (Expect F data s ty = UB /\ cut_number data) \/
  (exists s', Expect F data s ty = Ok (ps_t s, s') /\ jt_type (ps_t s) = ty /\ IsValid (ps_t s) = true /\ fine s' /\ ps_m s' = ps_m s /\ left_ s' + 1 <= left_ s) \/
  (Expect F data s ty = Ok (no_token, fail s) /\ jt_type (ps_t s) <> ty).
Proof.
  intros s ty Hf Hn. unfold Expect. destruct (jtype_eqb (jt_type (ps_t s)) ty) eqn:Et.
  - apply jtype_eqb_eq in Et. destruct (next_fine s (proj1 Hf)) as [[HU HC]|[s' [HN [H1 [H2 H3]]]]]; [left; rewrite HU; auto|right; left]. rewrite HN. exists s'. cbn [obind]. rewrite (left_valid s ty Et Hn). pose proof (valid_type _ _ Et Hn). split; [reflexivity|]. split; [exact Et|]. split; [assumption|]. split; [exact H1|]. split; [exact H2|lia].
  - right. right. split; [reflexivity|]. exact (jtype_eqb_ne _ _ Et).
Qed.
Lemma fail_fine : forall s, fine s -> fine (fail s) /\ ps_m (fail s) = ps_m s /\ left_ (fail s) = left_ s.
Proof. intros s [H1 H2]. unfold fail, fine, left_, inside. cbn [ps_c ps_t ps_m]. rewrite SetError_pos. auto. Qed.

(* what may come of it *)
Definition within (m : list Z) (P : Z -> Prop) : Prop := forall x, P x -> 0 <= x < zlen m.
Definition stuck : Prop := cut_number data \/ wild_decimal F data.
Definition Post (P : Z -> Prop) (s : pstate) (k : Z) (r : outcome pstate) : Prop :=
  match r with
  | Ok s' => fine s' /\ left_ s' + k <= left_ s /\ only P (ps_m s) (ps_m s')
  | Trap => has_arrays E
  | UB => stuck \/ ~ within (ps_m s) P
  | Fuel => False
  end.
Definition PostM (P : Z -> Prop) (m : list Z) (r : outcome (list Z)) : Prop :=
  match r with
  | Ok m' => only P m m'
  | UB => stuck \/ ~ within m P
  | _ => False
  end.
Lemma Post_weak : forall (P Q : Z -> Prop) s k k' r, Post P s k r -> (forall x, P x -> Q x) -> k' <= k -> Post Q s k' r.
Proof.
  intros P Q s k k' r H HPQ Hk. destruct r as [s'| | |]; cbn in *; auto.
  - destruct H as [H1 [H2 H3]]. split; [exact H1|]. split; [lia|]. eapply only_weak; eauto.
  - destruct H as [H|H]; [left; exact H|right]. intros HW. apply H. intros x Hx. auto.
Qed.
Lemma PostM_weak : forall (P Q : Z -> Prop) m r, PostM P m r -> (forall x, P x -> Q x) -> PostM Q m r.
Proof.
  intros P Q m r H HPQ. destruct r as [s'| | |]; cbn in *; auto.
  - eapply only_weak; eauto.
  - destruct H as [H|H]; [left; exact H|right]. intros HW. apply H. intros x Hx. auto.
Qed.
Lemma Post_from : forall P s s1 k k' r, zlen (ps_m s1) = zlen (ps_m s) -> only P (ps_m s) (ps_m s1) -> left_ s1 + k <= left_ s -> Post P s1 k' r -> Post P s (k + k') r.
Proof.
  intros P s s1 k k' r Hz Ho Hl H. destruct r as [s'| | |]; cbn in *; auto.
  - destruct H as [H1 [H2 H3]]. split; [exact H1|]. split; [lia|]. eapply only_trans; eassumption.
  - destruct H as [H|H]; [left; exact H|right]. intros HW. apply H. unfold within in *. rewrite Hz. exact HW.
Qed.
Lemma Post_bind : forall P s k k' a (f : pstate -> outcome pstate), Post P s k a ->
  (forall s1, fine s1 -> left_ s1 + k <= left_ s -> Post P s1 k' (f s1)) -> Post P s (k + k') (obind a f).
Proof.
  intros P s k k' a f H Hf. destruct a as [s1| | |]; cbn [obind]; auto. destruct H as [H1 [H2 H3]].
  apply (Post_from P s s1 k k'); [apply H3|exact H3|exact H2|]. apply Hf; assumption.
Qed.
Lemma Post_expect : forall P s ty k (f : jtok * pstate -> outcome pstate), fine s -> ty <> T_NONE ->
  (forall s1, jt_type (ps_t s) = ty -> IsValid (ps_t s) = true -> fine s1 -> ps_m s1 = ps_m s -> left_ s1 + 1 <= left_ s -> Post P s1 (k - 1) (f (ps_t s, s1))) ->
  (Post P (fail s) k (f (no_token, fail s))) -> Post P s k (obind (Expect F data s ty) f).
Proof.
  intros P s ty k f Hf Hn H1 H2. destruct (expect_fine s ty Hf Hn) as [[HU HC]|[[s1 [HE1 [Ht [Hv [H3 [H4 H5]]]]]]|[HE1 Ht]]].
  - rewrite HU. left. left. exact HC.
  - rewrite HE1. cbn [obind]. replace k with (1 + (k - 1)) by lia. apply (Post_from P s s1); [rewrite H4; reflexivity|rewrite H4; apply only_refl|exact H5|]. apply H1; assumption.
  - rewrite HE1. cbn [obind]. destruct (fail_fine s Hf) as [F1 [F2 F3]]. replace k with (0 + k) by lia. apply (Post_from P s (fail s)); [rewrite F2; reflexivity|rewrite F2; apply only_refl|lia|exact H2].
Qed.
Lemma Post_ok : forall P s, fine s -> Post P s 0 (Ok s).
Proof. intros P s H. split; [exact H|]. split; [lia|apply only_refl]. Qed.
Lemma Post_next : forall P s, fine s -> IsValid (ps_t s) = true -> Post P s 1 (next F data s).
Proof.
  intros P s H Hv. destruct (next_fine s (proj1 H)) as [[HU HC]|[s' [HN [H1 [H2 H3]]]]]; [rewrite HU; left; left; exact HC|]. rewrite HN. split; [exact H1|]. split; [unfold left_ at 2; rewrite Hv; lia|]. rewrite H2. apply only_refl.
Qed.

(* ---- writing ---- *)
Lemma write_post : forall m a bs, bs <> [] -> PostM (fun x => a <= x < a + zlen bs) m (wr_bytes m a bs).
Proof.
  intros m a bs Hb. destruct (wr_bytes m a bs) as [m'| | |] eqn:Ew; cbn [PostM]; try (unfold wr_bytes in Ew; destruct (_ && _); discriminate Ew).
  - exact (only_written _ _ _ _ Ew).
  - right. intros HW. assert (Hz : 0 < zlen bs) by (destruct bs; [contradiction|rewrite zlen_cons; pose proof (zlen_nonneg _ bs); lia]). assert (0 <= a < zlen m) by (apply HW; lia). assert (0 <= a + zlen bs - 1 < zlen m) by (apply HW; lia).
    unfold wr_bytes in Ew. replace ((0 <=? a) && (a + zlen bs <=? zlen m)) with true in Ew by lia. discriminate Ew.
Qed.
Lemma write_le : forall m a n v, (0 < n)%nat -> PostM (fun x => a <= x < a + Z.of_nat n) m (wr_bytes m a (le_bytes n v)).
Proof. intros m a n v Hn. rewrite <- (le_bytes_zlen n v). apply write_post. destruct n; [lia|discriminate]. Qed.
Lemma number_post : forall ty t b p a m r, nth_error E ty = Some t -> rd lut (GetTypeDispatchIndex (rt_hash t)) = Ok (Some b) -> PostM (fun x => a <= x < a + basic_size b) m r -> PostM (MS ty p a) m r.
Proof. intros ty t b p a m r Ht He H. eapply PostM_weak; [exact H|]. intros x Hx. eapply ms_number; eauto. Qed.
Lemma load_integer_post : forall b m a v, PostM (fun x => a <= x < a + basic_size b) m (load_integer F b m a v).
Proof. intros b m a v. destruct b; cbn [load_integer]; try (apply (write_le m a); cbn; lia). apply (write_post m a [_]). discriminate. Qed.
Lemma integer_post : forall ty t v m a p, nth_error E ty = Some t -> PostM (MS ty p a) m (LoadInteger F lut v m a (Some (rt_hash t)) p).
Proof.
  intros ty t v m a p Ht. cbn [LoadInteger]. destruct p.
  - eapply PostM_weak; [apply (write_le m a 4); lia|]. intros x Hx. apply ms_pointer. exact Hx.
  - destruct (Hlut (rt_hash t)) as [e He]. rewrite He. cbn [obind]. destruct e as [b|]; [|apply only_refl]. exact (number_post _ _ _ _ _ _ _ Ht He (load_integer_post b m a v)).
Qed.
Lemma decimal_post : forall ty t tk m a p, tok_fine tk -> jt_type tk = T_DECIMAL -> nth_error E ty = Some t -> PostM (MS ty p a) m (ParserDecimal F lut tk m a (Some (rt_hash t))).
Proof.
  intros ty t tk m a p [_ Hf] HT Ht. unfold ParserDecimal. rewrite (valid_type _ _ HT) by discriminate. destruct (Hlut (rt_hash t)) as [e He]. rewrite He. cbn [obind]. destruct e as [b|]; [|apply only_refl].
  apply (number_post _ _ _ _ _ _ _ Ht He). destruct (Hf HT) as [c [c' [Hi HL]]].
  assert (HW : forall b, integer_type b -> match dtrunc F (jt_val tk) with Some v => ~ (basic_min b <= v <= basic_max b) | None => True end -> stuck).
  { intros b0 Hb H0. right. exists c, tk, c'. split; [exact Hi|]. split; [exact HL|]. split; [exact HT|]. exists b0. auto. }
  assert (HI : integer_type b -> PostM (fun x => a <= x < a + basic_size b) m (match dtrunc F (jt_val tk) with
      | Some v => if (basic_min b <=? v) && (v <=? basic_max b) then wr_bytes m a (le_bytes (Z.to_nat (basic_size b)) v) else UB | None => UB end)).
  { intros Hb. specialize (HW b Hb). destruct (dtrunc F (jt_val tk)) as [v|]; [|left; apply HW; exact I]. destruct ((basic_min b <=? v) && (v <=? basic_max b)) eqn:Eb; [|left; apply HW; lia].
    pose proof (basic_pos b). eapply PostM_weak; [apply write_le; lia|]. cbv beta. intros x Hx. lia. }
  destruct b; cbn [load_decimal]; try (apply HI; repeat split; discriminate); try (apply (write_le m a); cbn; lia). apply (write_post m a [_]). discriminate.
Qed.
Lemma string_post : forall ty t tk m a p, tok_fine tk -> jt_type tk = T_STRING -> nth_error E ty = Some t -> PostM (MS ty p a) m (ParserString E data tk m a (Some ty)).
Proof.
  intros ty t tk m a p [Hf _] HT Ht. destruct (Hf HT) as [s Hs]. rewrite (parser_string_ok E HE data Hbytes tk s m a ty (conj HT Hs)). unfold get_type. rewrite Ht. cbn [obind].
  destruct (rt_kind t) as [|fl cs|fa fs] eqn:Ek; try apply only_refl. unfold store_enum. destruct (enum_values fl cs s) as [|v r]; [apply only_refl|]. eapply PostM_weak; [apply (write_le m a 4); lia|]. intros x Hx. eapply ms_enum; eauto.
Qed.

Definition tgt (type : option nat) (p : bool) (field : option rfield) (a : Z) : Z -> Prop :=
  match type with None => fun _ => False | Some ty => target E lut tf ty p field a end.
Lemma Post_scalar : forall (P : Z -> Prop) s ty (use : jtok -> outcome (list Z)), fine s -> ty <> T_NONE -> jt_type (ps_t s) = ty ->
  PostM P (ps_m s) (use (ps_t s)) -> Post P s 1 (scalar F data s ty use).
Proof.
  intros P s ty use Hf Hn Ht H. unfold scalar. destruct (expect_fine s ty Hf Hn) as [[HU HC]|[[s1 [HE1 [_ [_ [H3 [H4 H5]]]]]]|[_ Hne]]]; [rewrite HU; left; left; exact HC| |contradiction].
  rewrite HE1. cbn [obind fst snd]. destruct (use (ps_t s)) as [m'| | |]; cbn [obind PostM] in *; try contradiction; [|exact H]. split; [exact H3|]. split; [|exact H]. unfold left_ in *. cbn [ps_c ps_t]. lia.
Qed.

(* ---- the parser ---- *)
Notation PV := (ParserValue E F lut data tf).
Notation PE := (ParserElements E F lut data tf).
Notation PA := (ParserArray E F lut data tf).
Notation PP := (ParserPair E F lut data tf).
Notation PM := (ParserMembers E F lut data tf).
Notation PO := (ParserObject E F lut data tf).
Definition fld (type : option nat) (p : bool) (field : option rfield) : Prop :=
  match field with Some f => type = Some (rf_type f) /\ p = rf_ptr f /\ (forall n, rf_count f = Some n -> is_u32 n /\ has_arrays E) | None => True end.
Definition obj (type : option nat) (a : Z) : Z -> Prop := match type with None => fun _ => False | Some ty => of_field E lut tf ty a end.
Definition elems (it : option array_iter) (type : option nat) (p : bool) (P : Z -> Prop) : Prop :=
  match it with
  | None => True
  | Some it => has_arrays E /\ exists ty t base es n i, type = Some ty /\ nth_error E ty = Some t /\ 0 <= es < 2 ^ 32 /\ is_u32 n /\ 0 <= i <= n /\
      it = mk_iter base es (i * es) (u64 (u32 n * es)) /\ (forall j x, 0 <= j < n -> MS ty p (u64 (base + j * es)) x -> P x)
  end.
Definition bnd (n : nat) (s : pstate) (k : Z) : Prop := 3 * left_ s + k <= Z.of_nat n.
Definition okV (n : nat) : Prop := forall s a type p field, fine s -> in_types E type -> fld type p field -> bnd n s 2 -> Post (tgt type p field a) s 0 (PV n s a type p field).
Definition okE (n : nat) : Prop := forall s it type p P, fine s -> elems it type p P -> bnd n s 3 -> Post P s 0 (PE n s it type p).
Definition okA (n : nat) : Prop := forall s a type p field, fine s -> in_types E type -> fld type p field -> bnd n s 1 -> Post (tgt type p field a) s 0 (PA n s a type field).
Definition okP (n : nat) : Prop := forall s a type, fine s -> in_types E type -> bnd n s 2 -> Post (obj type a) s 0 (PP n s a type).
Definition okM (n : nat) : Prop := forall s a type, fine s -> in_types E type -> bnd n s 3 -> Post (obj type a) s 0 (PM n s a type).
Definition okO (n : nat) : Prop := forall s a type, fine s -> in_types E type -> bnd n s 1 -> Post (obj type a) s 0 (PO n s a type).

Lemma Post_close : forall P s ty, fine s -> ty <> T_NONE -> Post P s 0 (do x <- Expect F data s ty; Ok (snd x)).
Proof.
  intros P s ty Hf Hn. apply Post_expect; [exact Hf|exact Hn| |apply Post_ok; apply fail_fine; exact Hf]. intros s1 _ _ H1 _ _. cbn [snd]. apply (Post_weak P P s1 0 _ _ (Post_ok P s1 H1)); [auto|lia].
Qed.
Lemma Post_fail : forall P s, fine s -> Post P s 0 (Ok (fail s)).
Proof. intros P s Hf. destruct (fail_fine s Hf) as [F1 [F2 F3]]. split; [exact F1|]. split; [lia|]. rewrite F2. apply only_refl. Qed.
Lemma bnd_S : forall n s k, fine s -> 0 < k -> bnd n s k -> exists m, n = S m /\ bnd m s (k - 1).
Proof. intros n s k Hf Hk H. pose proof (left_pos s Hf). unfold bnd in *. destruct n as [|m]; [lia|]. exists m. split; [reflexivity|lia]. Qed.
Lemma in_nth : forall ty, (ty < length E)%nat -> exists t, nth_error E ty = Some t.
Proof. intros ty H. destruct (nth_error E ty) as [t|] eqn:Et; [eauto|]. apply nth_error_None in Et. lia. Qed.
Lemma member_fld : forall ty name f, member_field E tf ty name = Some f -> fld (Some (rf_type f)) (rf_ptr f) (Some f).
Proof.
  intros ty name f Hf. split; [reflexivity|]. split; [reflexivity|]. intros n Hn. destruct (member_in E tf ty name f Hf) as [t [fa [fs [e [M1 [M2 [M3 M4]]]]]]]. subst f. split; [exact (proj2 Hsz t fa fs e n M1 M2 M3 Hn)|].
  exists t, fa, fs, e. split; [exact M1|]. split; [exact M2|]. split; [exact M3|]. rewrite Hn. discriminate.
Qed.
Lemma tgt_ms : forall ty p field a x, MS ty p a x -> tgt (Some ty) p field a x.
Proof. intros. left. assumption. Qed.

Lemma stepV : forall n, okO n -> okA n -> okV (S n).
Proof.
  intros n HO HA s a type p field Hf Hty Hfl Hb. rewrite PV_S.
  assert (HTr : exists tr, transient_class E tf type = Ok tr). { destruct type as [ty|]; [|eexists; reflexivity]. destruct (in_nth ty Hty) as [t Ht]. cbn [transient_class]. unfold get_type. rewrite Ht. eexists. reflexivity. }
  destruct HTr as [tr HTr]. rewrite HTr. cbn [obind].
  assert (HL : forall v ty0, ty0 <> T_NONE -> jt_type (ps_t s) = ty0 -> PostM (tgt type p field a) (ps_m s) (do h <- hash_of E type; LoadInteger F lut v (ps_m s) a h p)).
  { intros v ty0 _ _. destruct type as [ty|]; cbn [hash_of]; [|apply only_refl]. destruct (in_nth ty Hty) as [t Ht]. unfold get_type. rewrite Ht. cbn [obind]. eapply PostM_weak; [exact (integer_post ty t v (ps_m s) a p Ht)|]. intros x Hx. apply tgt_ms. exact Hx. }
  assert (HS : forall ty0 use, ty0 <> T_NONE -> jt_type (ps_t s) = ty0 -> PostM (tgt type p field a) (ps_m s) (use (ps_t s)) -> Post (tgt type p field a) s 0 (scalar F data s ty0 use)).
  { intros ty0 use Hn Ht HP. apply (Post_weak _ _ s 1 0 _ (Post_scalar _ s ty0 use Hf Hn Ht HP)); [auto|lia]. }
  assert (HLit : forall v ty0, ty0 <> T_NONE -> jt_type (ps_t s) = ty0 -> PostM (tgt type p field a) (ps_m s) (do h <- hash_of E type; ParserLiteralValue F lut (ps_t s) v (ps_m s) a h p)).
  { intros v ty0 Hn Ht. unfold ParserLiteralValue. rewrite (valid_type _ _ Ht Hn). exact (HL v ty0 Hn Ht). }
  destruct (jt_type (ps_t s)) eqn:Ety; try (apply Post_fail; exact Hf).
  - apply (Post_bind _ s 0 0).
    + destruct type as [ty|].
      * destruct tr.
        -- apply (Post_weak (obj None 0) _ s 0 0); [apply HO; [exact Hf|exact I|unfold bnd in *; lia]|intros x []|lia].
        -- apply (Post_weak (obj (Some ty) a) _ s 0 0); [apply HO; [exact Hf|exact Hty|unfold bnd in *; lia]|intros x [name [f [H1 H2]]]; apply tgt_ms; exact (field_stores E lut tf ty p name f a x H1 H2)|lia].
      * apply (Post_weak (obj None 0) _ s 0 0); [apply HO; [exact Hf|exact I|unfold bnd in *; lia]|intros x []|lia].
    + intros s1 H1 _. apply Post_close; [exact H1|discriminate].
  - apply HA; [exact Hf|exact Hty|exact Hfl|unfold bnd in *; lia].
  - apply HS; [discriminate|reflexivity|]. destruct type as [ty|]; [|rewrite parser_string_none; apply only_refl]. destruct (in_nth ty Hty) as [t Ht]. eapply PostM_weak; [exact (string_post ty t (ps_t s) (ps_m s) a p (proj2 Hf) Ety Ht)|]. intros x Hx. apply tgt_ms. exact Hx.
  - apply HS; [discriminate|reflexivity|]. refine (HLit 1 _ _ eq_refl). discriminate.
  - apply HS; [discriminate|reflexivity|]. refine (HLit 0 _ _ eq_refl). discriminate.
  - apply HS; [discriminate|reflexivity|]. refine (HLit 0 _ _ eq_refl). discriminate.
  - apply HS; [discriminate|reflexivity|]. unfold ParserInteger. rewrite (valid_type _ _ Ety) by discriminate. refine (HL _ _ _ eq_refl). discriminate.
  - apply HS; [discriminate|reflexivity|]. destruct type as [ty|]; cbn [hash_of obind]. 2: { unfold ParserDecimal. rewrite (valid_type _ _ Ety) by discriminate. apply only_refl. }
    destruct (in_nth ty Hty) as [t Ht]. unfold get_type. rewrite Ht. cbn [obind]. eapply PostM_weak; [exact (decimal_post ty t (ps_t s) (ps_m s) a p (proj2 Hf) Ety Ht)|]. intros x Hx. apply tgt_ms. exact Hx.
Qed.
Lemma stepE : forall n, okV n -> okE n -> okE (S n).
Proof.
  intros n HV HE1 s it type p P Hf Hel Hb. rewrite PE_S.
  assert (HT : forall s1 it1, fine s1 -> left_ s1 <= left_ s -> elems it1 type p P ->
    Post P s1 0 (if jtype_eqb (jt_type (ps_t s1)) T_COMMA then do s2 <- next F data s1; PE n s2 it1 type p else Ok s1)).
  { intros s1 it1 H1 Hl He. destruct (jtype_eqb (jt_type (ps_t s1)) T_COMMA) eqn:Ec; [|apply Post_ok; exact H1]. apply jtype_eqb_eq in Ec.
    assert (Hv : IsValid (ps_t s1) = true) by (apply (valid_type _ _ Ec); discriminate).
    apply (Post_weak P P s1 (1 + 0) 0); [|auto|lia]. apply Post_bind; [apply Post_next; assumption|]. intros s2 H2 Hl2. apply HE1; [exact H2|exact He|unfold bnd in *; lia]. }
  destruct it as [it|].
  - destruct Hel as [Har [ty [t [base [es [k [i [-> [Ht [Hes [Hk [Hi [-> HP]]]]]]]]]]]]].
    assert (Hu : u64 (u32 k * es) = k * es). { unfold is_u32 in Hk. unfold u32, u64. rewrite (Z.mod_small k) by lia. apply Z.mod_small. nia. }
    unfold array_add_empty, array_get, array_next, assert. cbn [it_pos it_size it_data it_esize]. rewrite Hu. destruct (i * es <? k * es) eqn:El; [|exact Har]. cbn [obind fst snd].
    assert (Hi2 : i < k) by nia. assert (HU : u64 (i * es + es) = (i + 1) * es). { unfold is_u32 in Hk. unfold u64. rewrite Z.mod_small by nia. lia. } rewrite HU.
    assert (HR : Post P s 0 (PV n s (u64 (base + i * es)) (Some ty) p None)).
    { apply (Post_weak (tgt (Some ty) p None (u64 (base + i * es))) P s 0 0); [apply HV; [exact Hf| |exact I|unfold bnd in *; lia]| |lia].
      - cbn [in_types]. apply nth_error_Some. rewrite Ht. discriminate.
      - intros x [Hx|[]]. apply (HP i x); [lia|exact Hx]. }
    destruct (PV n s (u64 (base + i * es)) (Some ty) p None) as [s1| | |]; cbn [obind fst snd]; try exact HR. destruct HR as [R1 [R2 R3]].
    apply (Post_from P s s1 0 0); [apply R3|exact R3|lia|]. apply HT; [exact R1|lia|]. split; [exact Har|]. exists ty, t, base, es, k, (i + 1). rewrite Hu. split; [reflexivity|]. split; [exact Ht|]. split; [exact Hes|]. split; [exact Hk|]. split; [lia|]. split; [reflexivity|exact HP].
  - assert (HR : Post P s 0 (PV n s 0 None p None)). { apply (Post_weak (tgt None p None 0) P s 0 0); [apply HV; [exact Hf|exact I|exact I|unfold bnd in *; lia]|intros x []|lia]. }
    destruct (PV n s 0 None p None) as [s1| | |]; cbn [obind fst snd]; try exact HR. destruct HR as [R1 [R2 R3]].
    apply (Post_from P s s1 0 0); [apply R3|exact R3|lia|]. apply HT; [exact R1|lia|exact I].
Qed.
Lemma stepA : forall n, okE n -> okA (S n).
Proof.
  intros n HE1 s a type p field Hf Hty Hfl Hb. rewrite PA_S. apply Post_expect; [exact Hf|discriminate| |apply Post_ok; apply fail_fine; exact Hf].
  intros s1 _ Hv H1 Hm Hl. cbn [fst snd]. rewrite Hv. cbn [negb]. destruct (jtype_eqb (jt_type (ps_t s1)) T_RBRACKET) eqn:Er.
  { apply jtype_eqb_eq in Er. apply (Post_weak (tgt type p field a) _ s1 1); [|auto|lia]. apply Post_next; [exact H1|]. apply (valid_type _ _ Er). discriminate. }
  apply (Post_weak (tgt type p field a) _ s1 (0 + 0)); [|auto|lia]. apply Post_bind; [|intros s2 H2 _; apply Post_close; [exact H2|discriminate]].
  assert (HB : bnd n s1 3) by (unfold bnd in *; lia).
  assert (HN : forall q, Post (tgt type p field a) s1 0 (PE n s1 None None q)) by (intros q; apply HE1; [exact H1|exact I|exact HB]).
  destruct field as [[nm off fl fty ip cnt]|]; [|apply HN]. destruct cnt as [k|]; [|apply HN].
  destruct Hfl as [Hf1 [Hf2 Hf3]]. cbn [rf_type rf_ptr rf_count] in *. subst type p. destruct (Hf3 k eq_refl) as [Hk Har]. destruct (in_nth fty Hty) as [t Ht].
  unfold array_of. cbn [rf_type rf_ptr]. unfold get_type. rewrite Ht. cbn [obind]. unfold array_init, assert. cbn [af_is_ptr af_size af_count]. destruct (negb (a =? 0)); [|exact Har]. cbn [obind].
  apply HE1; [exact H1| |exact HB]. split; [exact Har|]. pose proof (proj1 Hsz t (nth_error_In _ _ Ht)) as Hs. exists fty, t, a, (if ip then 8 else rt_size t), k, 0.
  split; [reflexivity|]. split; [exact Ht|]. split; [destruct ip; unfold is_u32 in Hs; lia|]. split; [exact Hk|]. split; [unfold is_u32 in Hk; lia|]. split; [reflexivity|].
  intros j x Hj Hx. right. exists k, t, j. cbn [rf_type rf_ptr rf_count]. auto.
Qed.
Lemma stepP : forall n, okV n -> okP (S n).
Proof.
  intros n HV s a type Hf Hty Hb. rewrite PP_S. apply Post_expect; [exact Hf|discriminate| |apply Post_ok; apply fail_fine; exact Hf].
  intros s1 Ht Hv H1 Hm Hl. cbn [fst snd]. rewrite Hv. cbn [negb].
  assert (HP : exists field, pair_field E data tf (ps_t s) type = Ok field /\ match field with None => True | Some f => exists ty name, type = Some ty /\ member_field E tf ty name = Some f end).
  { destruct type as [ty|]; [|exists None; split; [reflexivity|exact I]]. destruct (proj1 (proj2 Hf) Ht) as [nm Hnm]. exists (member_field E tf ty nm). split; [exact (pair_field_ok E HE data Hbytes tf (ps_t s) nm ty (conj Ht Hnm) Hty)|]. destruct (member_field E tf ty nm) as [f|] eqn:Ef; [|exact I]. eauto. }
  destruct HP as [field [HP HF]]. rewrite HP. cbn [obind]. apply (Post_weak (obj type a) _ s1 0); [|auto|lia].
  apply Post_expect; [exact H1|discriminate| |apply Post_ok; apply fail_fine; exact H1].
  intros s2 _ Hv2 H2 Hm2 Hl2. cbn [fst snd]. rewrite Hv2. cbn [negb]. assert (HB : bnd n s2 2) by (unfold bnd in *; lia). destruct field as [f|].
  - destruct HF as [ty [nm [-> HF]]]. apply (Post_weak (tgt (Some (rf_type f)) (rf_ptr f) (Some f) (a + rf_offset f)) _ s2 0); [|intros x Hx; exists nm, f; split; [exact HF|exact Hx]|lia].
    apply HV; [exact H2|exact (member_field_in E HE tf ty nm f HF)|exact (member_fld ty nm f HF)|exact HB].
  - apply (Post_weak (tgt None false None 0) _ s2 0); [|intros x []|lia]. apply HV; [exact H2|exact I|exact I|exact HB].
Qed.
Lemma stepM : forall n, okP n -> okM n -> okM (S n).
Proof.
  intros n HP HM s a type Hf Hty Hb. rewrite PM_S. apply (Post_bind _ s 0 0); [apply HP; [exact Hf|exact Hty|unfold bnd in *; lia]|]. intros s1 H1 Hl.
  destruct (jtype_eqb (jt_type (ps_t s1)) T_COMMA) eqn:Ec; [|apply Post_ok; exact H1]. apply jtype_eqb_eq in Ec.
  assert (Hv : IsValid (ps_t s1) = true) by (apply (valid_type _ _ Ec); discriminate).
  apply (Post_weak (obj type a) _ s1 (1 + 0) 0); [|auto|lia]. apply Post_bind; [apply Post_next; assumption|]. intros s2 H2 Hl2. apply HM; [exact H2|exact Hty|unfold bnd in *; lia].
Qed.
Lemma stepO : forall n, okM n -> okO (S n).
Proof.
  intros n HM s a type Hf Hty Hb. rewrite PO_S. apply Post_expect; [exact Hf|discriminate| |apply Post_ok; apply fail_fine; exact Hf].
  intros s1 _ Hv H1 Hm Hl. cbn [fst snd]. rewrite Hv. cbn [negb]. apply (Post_weak (obj type a) _ s1 0); [|auto|lia].
  destruct (jtype_eqb (jt_type (ps_t s1)) T_RBRACE); [apply Post_ok; exact H1|]. apply HM; [exact H1|exact Hty|unfold bnd in *; lia].
Qed.
Lemma safe_all : forall n, okV n /\ okE n /\ okA n /\ okP n /\ okM n /\ okO n.
Proof.
  induction n as [|n [HV [HE1 [HA [HP [HM HO]]]]]].
  - repeat split; intros s; intros; exfalso; match goal with H : fine s, B : bnd 0 s _ |- _ => pose proof (left_pos s H); unfold bnd in B; lia end.
  - split; [apply stepV; assumption|]. split; [apply stepE; assumption|]. split; [apply stepA; assumption|]. split; [apply stepP; assumption|]. split; [apply stepM; assumption|apply stepO; assumption].
Qed.
End Safe.

Lemma the_lut_entry : forall h, exists e, rd the_lut (GetTypeDispatchIndex h) = Ok e.
Proof.
  intros h. unfold GetTypeDispatchIndex. pose proof (Z.mod_pos_bound h 47 ltac:(lia)) as HB. unfold rd. destruct (znth the_lut (h mod 47)) as [e|] eqn:Ez; [eauto|]. exfalso. unfold znth in Ez. replace (h mod 47 <? 0) with false in Ez by lia. apply nth_error_None in Ez. cbn in Ez. lia.
Qed.
(* everything that can come of a load *)
Lemma load_safe : forall E F data mem object ty tf fuel, wf_types E -> wf_sizes E -> (ty < length E)%nat -> Forall is_byte data -> small data -> (3 * length data + 4 <= fuel)%nat ->
  match LoadJSON fuel E F data mem object ty tf with
  | Ok (_, mem') => only (of_field E the_lut tf ty object) mem mem'
  | Trap => has_arrays E
  | UB => cut_number data \/ wild_decimal F data \/ ~ (forall x, of_field E the_lut tf ty object x -> 0 <= x < zlen mem)
  | Fuel => False
  end.
Proof.
  intros E F data mem object ty tf fuel HE Hsz Hty Hb Hs Hfuel. unfold LoadJSON. rewrite lut_ok. cbn [obind].
  set (s0 := mk_ps no_token (JSONContext 0) mem). assert (Hi : inside data (ps_c s0)). { unfold inside. cbn. pose proof (zlen_nonneg _ data). lia. }
  destruct (next_fine F the_lut data tf Hs the_lut_entry s0 Hi) as [[HU HC]|[s1 [HN [H1 [H2 H3]]]]]; [rewrite HU; left; exact HC|]. rewrite HN. cbn [obind].
  assert (HO : okO E F the_lut data tf fuel) by (apply (safe_all E F the_lut data tf HE Hb Hs Hsz the_lut_entry)).
  assert (HB : bnd data fuel s1 1). { unfold bnd. cbn in H3. unfold zlen in *. lia. }
  specialize (HO s1 object (Some ty) H1 Hty HB). destruct (ParserObject E F the_lut data tf fuel s1 object (Some ty)) as [s2| | |]; cbn [obind Post] in *.
  - destruct HO as [_ [_ HO]]. rewrite H2 in HO. exact HO.
  - exact HO.
  - rewrite H2 in HO. cbn [ps_m] in HO. destruct HO as [[HO|HO]|HO]; [left; exact HO|right; left; exact HO|right; right; exact HO].
  - exact HO.
Qed.
