(* Parameters and addresses: the proofs behind MapFileProps. *)
From Verif Require Import Base BaseProofs Text HashModel HashSpec Maps FileUtilsModel FileUtilsSpec FileUtilsProofs DatabaseModel NamesProofs NamesProps MapFileModel MapFileSpec MapNameProofs.

(* ---- one parameter ---- *)
Lemma letter_not_end : forall c, letter c -> ends_token c = false.
Proof. intros c [_ H]. cbn in H. unfold ends_token. destruct (Z.eqb_spec c 32), (Z.eqb_spec c 44), (Z.eqb_spec c 41), (Z.eqb_spec c 60), (Z.eqb_spec c 62); subst; try reflexivity; exfalso; apply H; auto 10. Qed.
Lemma span_word : forall w c r, Forall letter w -> ends_token c = true -> span_token (w ++ c :: r) = (w, c :: r).
Proof.
  induction w as [|x w IH]; intros c r H E; cbn [app span_token]; [rewrite E; reflexivity|]. inversion H; subst. rewrite letter_not_end by assumption. rewrite IH by assumption. reflexivity.
Qed.
Lemma consume_word : forall w c r, Forall letter w -> ends_token c = true -> zlen w < 1024 -> ConsumeParameterToken (w ++ c :: r) 1024 = Ok (w, c :: r).
Proof. intros w c r H E L. unfold ConsumeParameterToken. rewrite span_word by assumption. replace (1024 <=? zlen w) with false by (symmetry; apply Z.leb_gt; lia). reflexivity. Qed.
Lemma list_eqb_false : forall a b, a <> b -> list_eqb a b = false.
Proof. intros a b N. destruct (list_eqb a b) eqn:E; [apply list_eqb_eq in E; contradiction|reflexivity]. Qed.
Lemma strcat_ok : forall a b, zlen a + zlen b < 1024 -> strcat a b = Ok (a ++ b).
Proof. intros a b H. unfold strcat. replace (1024 <=? zlen a + zlen b) with false by (symmetry; apply Z.leb_gt; lia). reflexivity. Qed.
Lemma word_token : forall w tn q this, is_word w -> zlen tn + zlen w < 1024 -> match_token w tn q this = Ok (tn ++ w, q, this).
Proof.
  intros w tn q this [_ [K [H1 H2]]] L. unfold match_token.
  assert (E : forall k, In k keywords -> list_eqb w k = false) by (intros k Hk; apply list_eqb_false; intros ->; contradiction).
  replace (match w with [] => 0 | c :: _ => c end) with (hd 0 w) by (destruct w; reflexivity).
  rewrite (proj2 (Z.eqb_neq _ _) H1), (proj2 (Z.eqb_neq _ _) H2). rewrite !E by (unfold keywords; cbn [In]; auto 20). cbn [orb].
  assert (X : existsb (list_eqb w) skip_tokens = false) by (unfold skip_tokens; cbn [existsb]; rewrite !E by (unfold keywords; cbn [In]; auto 20); reflexivity).
  rewrite X, strcat_ok by exact L. reflexivity.
Qed.
Lemma nil_word : is_word [].
Proof. unfold is_word. split; [constructor|]. split; [intros X; unfold keywords in X; cbn [In] in X; repeat destruct X as [X|X]; try discriminate; destruct X|]. split; discriminate. Qed.
Lemma brackets_cons : forall w b ws, brackets ((w, b) :: ws) = w ++ b :: brackets ws.
Proof. intros. unfold brackets. cbn [map concat fst snd]. rewrite <- app_assoc. reflexivity. Qed.
Lemma zlen_app3 : forall (a b : list Z), zlen (a ++ b) = zlen a + zlen b. Proof. intros. apply zlen_app. Qed.
(* words up to the comma or parenthesis; the last token is either a word or a lone * or & *)
Lemma words_loop : forall ws fuel w c r stop tn q this, Forall (fun x => is_word (fst x) /\ (snd x = 60 \/ snd x = 62)) ws -> Forall letter w ->
  c = 44 \/ c = 41 -> (stop <= length (c :: r))%nat -> zlen tn + zlen (brackets ws ++ w) < 1024 -> (length ws < fuel)%nat -> (ws <> [] \/ w <> []) ->
  match_loop fuel (brackets ws ++ w ++ c :: r) stop tn q this =
  match match_token w (tn ++ brackets ws) q this with Ok (t, q, this) => Ok (t, q, this, r) | UB => UB | Trap => Trap | Fuel => Fuel end.
Proof.
  induction ws as [|[x b] ws IH]; intros fuel w c r stop tn q this HW Hw Hc Hs L Hf N; (destruct fuel as [|fuel]; [cbn in Hf; lia|]).
  - destruct N as [N|N]; [congruence|]. cbn [brackets map concat app] in *. rewrite app_nil_r. cbn [match_loop].
    replace (stop <? length (w ++ c :: r))%nat with true by (symmetry; apply Nat.ltb_lt; rewrite app_length; destruct w; [congruence|cbn [length] in *; lia]).
    assert (Ec : ends_token c = true) by (destruct Hc as [->| ->]; reflexivity). pose proof (zlen_nonneg _ tn). rewrite consume_word by (assumption || lia). cbn [obind].
    assert (Sk : SkipWhitespace (c :: r) = c :: r) by (destruct Hc as [->| ->]; reflexivity). rewrite Sk. destruct (match_token w tn q this) as [[[t q'] this']| | |]; cbn [obind]; try reflexivity.
    destruct Hc as [->| ->]; reflexivity.
  - inversion HW as [|? ? [Hx Hb] HW']; subst. cbn [fst snd] in *. rewrite brackets_cons in *. rewrite <- app_assoc. cbn [app match_loop]. pose proof (zlen_nonneg _ tn).
    rewrite <- app_assoc, zlen_app3 in L. cbn [app] in L. rewrite zlen_cons, zlen_app3 in L. pose proof (zlen_nonneg _ x). pose proof (zlen_nonneg _ w). pose proof (zlen_nonneg _ (brackets ws)).
    replace (stop <? length (x ++ b :: brackets ws ++ w ++ c :: r))%nat with true by (symmetry; apply Nat.ltb_lt; rewrite app_length; cbn [length] in *; rewrite !app_length; cbn [length]; lia).
    assert (Eb : ends_token b = true) by (destruct Hb as [->| ->]; reflexivity). rewrite consume_word by (apply Hx || assumption || lia). cbn [obind].
    assert (Sk : forall z, SkipWhitespace (b :: z) = b :: z) by (intros; destruct Hb as [->| ->]; reflexivity). rewrite Sk. rewrite word_token by (assumption || lia). cbn [obind].
    replace ((b =? 60) || (b =? 62)) with true by (destruct Hb as [->| ->]; reflexivity). rewrite strcat_ok by (rewrite zlen_app3, zlen_cons, zlen_nil; lia). cbn [obind].
    assert (ET : tn ++ x ++ b :: brackets ws = ((tn ++ x) ++ [b]) ++ brackets ws) by (rewrite <- !app_assoc; reflexivity). rewrite ET.
    destruct ws as [|[y b2] ws].
    + destruct w as [|y w].
      * cbn [brackets map concat app]. rewrite app_nil_r. rewrite word_token; [|exact nil_word|rewrite !zlen_app3, zlen_cons, !zlen_nil; lia].
        rewrite app_nil_r. destruct Hc as [->| ->]; reflexivity.
      * cbn [brackets map concat app] in *. inversion Hw as [|? ? Hy Hw']; subst. assert (Ey : (y =? 44) || (y =? 41) = false) by (pose proof (letter_not_end y Hy) as Q; unfold ends_token in Q; destruct (y =? 44), (y =? 41); try reflexivity; destruct (y =? 32); discriminate).
        rewrite Ey. specialize (IH fuel (y :: w) c r stop ((tn ++ x) ++ [b]) q this (Forall_nil _) Hw Hc Hs). cbn [brackets map concat app] in IH. rewrite IH; [reflexivity| |cbn [length] in *; lia|right; discriminate].
        rewrite !zlen_app3, zlen_cons, zlen_nil. lia.
    + assert (HD : exists z rest, brackets ((y, b2) :: ws) ++ w ++ c :: r = z :: rest /\ (z =? 44) || (z =? 41) = false).
      { inversion HW' as [|? ? [Hy Hb2] _]; subst. cbn [fst snd] in *. rewrite brackets_cons. destruct y as [|z y].
        - exists b2. eexists. split; [reflexivity|]. destruct Hb2 as [->| ->]; reflexivity.
        - exists z. eexists. split; [reflexivity|]. destruct Hy as [Hl _]. inversion Hl as [|? ? Hz _]; subst. pose proof (letter_not_end z Hz) as Q; unfold ends_token in Q; destruct (z =? 44), (z =? 41); try reflexivity; destruct (z =? 32); discriminate. }
      destruct HD as [z [rest [EZ Ez]]]. rewrite EZ, Ez, <- EZ. rewrite IH; [reflexivity|exact HW'|exact Hw|exact Hc|exact Hs| |cbn [length] in *; lia|left; discriminate].
      rewrite !zlen_app3, zlen_cons, zlen_nil. lia.
Qed.
Lemma head_letter : forall ws w, Forall (fun x => is_word (fst x) /\ (snd x = 60 \/ snd x = 62)) ws -> Forall letter w -> hd 0 (brackets ws ++ w) <> 60 -> hd 0 (brackets ws ++ w) <> 62 -> brackets ws ++ w <> [] ->
  exists h rest, brackets ws ++ w = h :: rest /\ letter h.
Proof.
  intros [|[x b] ws] w HW Hw H1 H2 N.
  - destruct w as [|h w]; [cbn in N; congruence|]. exists h, w. split; [reflexivity|]. inversion Hw; assumption.
  - rewrite brackets_cons in *. inversion HW as [|? ? [Hx Hb] _]; subst. cbn [fst snd] in *. destruct x as [|h x].
    + cbn in H1, H2. destruct Hb; contradiction.
    + exists h. eexists. split; [reflexivity|]. destruct Hx as [Hl _]. inversion Hl; assumption.
Qed.
Lemma letter_start : forall h rest, letter h -> SkipWhitespace (h :: rest) = h :: rest /\ (h =? 60) || (h =? 62) = false /\ (h =? 44) || (h =? 41) = false.
Proof.
  intros h rest [_ H]. cbn in H. cbn [SkipWhitespace]. destruct (Z.eqb_spec h 32), (Z.eqb_spec h 9), (Z.eqb_spec h 60), (Z.eqb_spec h 62), (Z.eqb_spec h 44), (Z.eqb_spec h 41); subst; try (exfalso; apply H; auto 10; fail). auto.
Qed.
Lemma blank_step : forall fuel h rest stop tn q this, letter h -> (stop < S (length (h :: rest)))%nat -> zlen tn < 1024 ->
  match_loop (S fuel) (32 :: h :: rest) stop tn q this = match_loop fuel (h :: rest) stop tn q this.
Proof.
  intros fuel h rest stop tn q this Hh Hs L. cbn [match_loop]. change (length (32 :: h :: rest)) with (S (length (h :: rest))). rewrite (proj2 (Nat.ltb_lt _ _) Hs). change (32 :: h :: rest) with ([] ++ 32 :: h :: rest). rewrite consume_word by (constructor || reflexivity || (rewrite zlen_nil; lia)). cbn [obind].
  destruct (letter_start h rest Hh) as [S1 [S2 S3]]. change (SkipWhitespace (32 :: h :: rest)) with (SkipWhitespace (h :: rest)). rewrite S1.
  rewrite word_token by (exact nil_word || (rewrite zlen_nil; lia)). cbn [obind]. rewrite app_nil_r, S2. cbn [obind]. rewrite S3. reflexivity.
Qed.
Lemma sign_step : forall pre fuel h rest stop q this, pre = str "unsigned " \/ pre = str "signed " -> letter h -> (stop < length (pre ++ h :: rest))%nat ->
  match_loop (S fuel) (pre ++ h :: rest) stop [] q this = match_loop fuel (h :: rest) stop pre q this.
Proof.
  intros pre fuel h rest stop q this Hp Hh Hs. cbn [match_loop]. rewrite (proj2 (Nat.ltb_lt _ _) Hs). destruct (letter_start h rest Hh) as [S1 [S2 S3]].
  assert (X : exists w, pre = w ++ [32] /\ (w = str "unsigned" \/ w = str "signed")) by (destruct Hp as [->| ->]; [exists (str "unsigned")|exists (str "signed")]; (split; [reflexivity|auto])).
  destruct X as [w [-> Hw]]. rewrite <- app_assoc. cbn [app].
  assert (Lw : Forall letter w) by (destruct Hw as [->| ->]; unfold letter; vm_compute; repeat (constructor; [split; [split; reflexivity|intros Q; repeat destruct Q as [Q|Q]; try discriminate; destruct Q]|]); constructor).
  rewrite consume_word; [|exact Lw|reflexivity|destruct Hw as [->| ->]; reflexivity]. cbn [obind]. change (SkipWhitespace (32 :: h :: rest)) with (SkipWhitespace (h :: rest)). rewrite S1.
  assert (M : match_token w [] q this = Ok (w ++ [32], q, this)) by (destruct Hw as [->| ->]; reflexivity). rewrite M. cbn [obind]. rewrite S2. cbn [obind]. rewrite S3. reflexivity.
Qed.
Definition op_text (q : qualifier) : list Z := match q_op q with VALUE => [] | POINTER => str "*" | REFERENCE => str "&" end.
Lemma match_param : forall d p lead c r stop, parameter p -> lead = [] \/ lead = [32] -> c = 44 \/ c = 41 -> (stop <= length (c :: r))%nat ->
  exists t q, q_const q = false /\ p = t ++ op_text q /\ type_text p t /\ (q_op q = VALUE -> t <> str "void") /\
    MatchParameter d (lead ++ p ++ c :: r) stop = do y <- db_GetName d t; Ok (mk_field (mk_prim noname noname) (fst y) q (-1) 0, false, r, snd y).
Proof.
  intros d p lead c r stop HP Hlead Hc Hs.
  assert (Gen : forall pre ws w t q, In pre [[]; str "unsigned "; str "signed "] -> Forall (fun x => is_word (fst x) /\ (snd x = 60 \/ snd x = 62)) ws -> Forall letter w ->
            hd 0 (brackets ws ++ w) <> 60 -> hd 0 (brackets ws ++ w) <> 62 -> brackets ws ++ w <> [] -> zlen (pre ++ brackets ws ++ w) < 1024 ->
            match_token w (pre ++ brackets ws) (mk_qual VALUE false) false = Ok (t, q, false) ->
            MatchParameter d (lead ++ (pre ++ brackets ws ++ w) ++ c :: r) stop = do y <- db_GetName d t; Ok (mk_field (mk_prim noname noname) (fst y) q (-1) 0, false, r, snd y)).
  { intros pre ws w t q Hpre HW Hw H1 H2 N L M. unfold MatchParameter.
    destruct (head_letter ws w HW Hw H1 H2 N) as [h [rest [Eh Hh]]].
    assert (N2 : ws <> [] \/ w <> []) by (destruct ws; [right; intros ->; apply N; reflexivity|left; discriminate]).
    assert (LW : (length ws <= length (brackets ws))%nat) by (clear; induction ws as [|[x b] ws IH]; [cbn; lia|]; rewrite brackets_cons, app_length; cbn [length]; lia).
    assert (R : forall fuel, (S (length ws) < fuel)%nat -> match_loop fuel ((pre ++ brackets ws ++ w) ++ c :: r) stop [] (mk_qual VALUE false) false = Ok (t, q, false, r)).
    { intros fuel Hf. assert (W : forall f, (length ws < f)%nat -> match_loop f (brackets ws ++ w ++ c :: r) stop pre (mk_qual VALUE false) false = Ok (t, q, false, r)).
      { intros f Hf2. rewrite words_loop; try assumption; [rewrite M; reflexivity|]. rewrite zlen_app3 in L. exact L. }
      destruct Hpre as [<-|[<-|[<-|[]]]].
      - cbn [app]. rewrite <- app_assoc. apply W. lia.
      - destruct fuel as [|fuel]; [lia|]. rewrite <- app_assoc, Eh. cbn [app]. change (117 :: 110 :: 115 :: 105 :: 103 :: 110 :: 101 :: 100 :: 32 :: h :: rest ++ c :: r) with (str "unsigned " ++ h :: rest ++ c :: r).
        rewrite sign_step; [|left; reflexivity|exact Hh|rewrite !app_length; cbn [length] in *; rewrite app_length; cbn [length]; lia].
        replace (h :: rest ++ c :: r) with (brackets ws ++ w ++ c :: r) by (rewrite app_assoc, Eh; reflexivity). apply W. lia.
      - destruct fuel as [|fuel]; [lia|]. rewrite <- app_assoc, Eh. cbn [app]. change (115 :: 105 :: 103 :: 110 :: 101 :: 100 :: 32 :: h :: rest ++ c :: r) with (str "signed " ++ h :: rest ++ c :: r).
        rewrite sign_step; [|right; reflexivity|exact Hh|rewrite !app_length; cbn [length] in *; rewrite app_length; cbn [length]; lia].
        replace (h :: rest ++ c :: r) with (brackets ws ++ w ++ c :: r) by (rewrite app_assoc, Eh; reflexivity). apply W. lia. }
    assert (Hstart : exists h' rest', (pre ++ brackets ws ++ w) ++ c :: r = h' :: rest' /\ letter h' /\ (length (c :: r) < length (h' :: rest'))%nat).
    { assert (Y : exists h' rest0, pre ++ brackets ws ++ w = h' :: rest0 /\ letter h').
      { destruct Hpre as [<-|[<-|[<-|[]]]]; [exists h, rest; auto| |]; (eexists; eexists; split; [reflexivity|]); (split; [split; reflexivity|intros Q; vm_compute in Q; repeat destruct Q as [Q|Q]; try discriminate; destruct Q]). }
      destruct Y as [h' [rest0 [Ey Hy]]]. rewrite Ey. exists h'. eexists. split; [reflexivity|]. split; [exact Hy|]. cbn [length]. rewrite app_length. cbn [length]. lia. }
    destruct Hstart as [h' [rest' [Es [Hh' Lh']]]].
    destruct Hlead as [->| ->].
    - cbn [app]. rewrite R; [reflexivity|]. rewrite !app_length. cbn [length]. lia.
    - cbn [app]. rewrite Es. rewrite blank_step; [|exact Hh'|cbn [length] in *; lia|rewrite zlen_nil; lia]. rewrite <- Es, R; [reflexivity|]. cbn [length]. rewrite !app_length. cbn [length]. lia. }
  destruct HP as [pre ws w H1 H2 H3 H4 H5 H6 H7 H8|pre ws z H1 H2 H3 H4 H5 H6 H7].
  - exists (pre ++ brackets ws ++ w), (mk_qual VALUE false). split; [reflexivity|]. split; [symmetry; apply app_nil_r|]. split; [left; reflexivity|]. split; [intros _; exact H8|].
    apply Gen; try assumption; [apply H3|]. rewrite word_token; [rewrite <- app_assoc; reflexivity|exact H3|]. rewrite <- zlen_app3, <- app_assoc. exact H7.
  - assert (NB : brackets ws <> []) by (destruct ws as [|[x b] ws]; [congruence|]; rewrite brackets_cons; destruct x; discriminate).
    assert (HH : hd 0 (brackets ws ++ [z]) = hd 0 (brackets ws)) by (destruct (brackets ws); [congruence|reflexivity]).
    exists (pre ++ brackets ws), (mk_qual (if z =? 42 then POINTER else REFERENCE) false). split; [reflexivity|].
    split; [rewrite <- app_assoc; destruct H6 as [->| ->]; reflexivity|]. split; [right; exists z; split; [exact H6|rewrite <- app_assoc; reflexivity]|]. split; [intros X; destruct H6 as [->| ->]; discriminate|].
    apply Gen; try assumption.
    + constructor; [|constructor]. destruct H6 as [->| ->]; (split; [lia|intros Q; cbn in Q; repeat destruct Q as [Q|Q]; try discriminate; destruct Q]).
    + rewrite HH; exact H4.
    + rewrite HH; exact H5.
    + destruct (brackets ws); discriminate.
    + destruct H6 as [->| ->]; reflexivity.
Qed.
Lemma param_text_ok : forall p, parameter p -> text_ok p /\ ~ In 40 p /\ ~ In 41 p /\ p <> [].
Proof.
  assert (LT : forall c, letter c -> 0 < c < 256 /\ c <> 40 /\ c <> 41) by (intros c [H1 H2]; cbn in H2; split; [exact H1|]; split; intros ->; apply H2; auto 10).
  set (okc := fun c => 0 < c < 256 /\ c <> 40 /\ c <> 41).
  assert (B : forall ws, Forall (fun x => is_word (fst x) /\ (snd x = 60 \/ snd x = 62)) ws -> Forall okc (brackets ws)).
  { induction 1 as [|[x b] ws [[Hx _] Hb] _ IH]; [constructor|]. rewrite brackets_cons. cbn [fst snd] in *. apply Forall_app. split; [eapply Forall_impl; [|exact Hx]; exact LT|]. constructor; [unfold okc; lia|exact IH]. }
  assert (P : forall pre, In pre [[]; str "unsigned "; str "signed "] -> Forall okc pre) by (intros pre [<-|[<-|[<-|[]]]]; vm_compute; repeat (constructor; [repeat split; discriminate || reflexivity|]); constructor).
  assert (F : forall p, Forall okc p -> zlen p < 1024 -> text_ok p /\ ~ In 40 p /\ ~ In 41 p).
  { intros p H L. split; [split; [eapply Forall_impl; [|exact H]; intros c Hc; apply Hc|lia]|]. rewrite Forall_forall in H. split; intros X; apply H in X; unfold okc in X; lia. }
  intros p [pre ws w H1 H2 H3 H4 H5 H6 H7 H8|pre ws z H1 H2 H3 H4 H5 H6 H7].
  - assert (Q : Forall okc (pre ++ brackets ws ++ w)) by (apply Forall_app; split; [apply P; exact H1|]; apply Forall_app; split; [apply B; exact H2|]; eapply Forall_impl; [|apply H3]; exact LT).
    destruct (F _ Q H7) as [F1 [F2 F3]]. split; [exact F1|]. split; [exact F2|]. split; [exact F3|]. intros E. apply app_eq_nil in E. apply H6. apply E.
  - assert (Q : Forall okc (pre ++ brackets ws ++ [z])) by (apply Forall_app; split; [apply P; exact H1|]; apply Forall_app; split; [apply B; exact H2|]; constructor; [unfold okc; lia|constructor]).
    destruct (F _ Q H7) as [F1 [F2 F3]]. split; [exact F1|]. split; [exact F2|]. split; [exact F3|]. intros E. apply app_eq_nil in E. destruct E as [_ E]. apply app_eq_nil in E. destruct E. discriminate.
Qed.

(* ---- names ---- *)
Lemma known_name : forall U m t, told_apart U -> names_of U m -> In t U -> exists m', GetName m (Some t) = Ok (mk_name (hash32 t 0) t, m') /\ names_of U m' /\ names_kept m m'.
Proof.
  intros U m t [T1 T2] [S N] Ht. destruct (T1 t Ht) as [C [L Hz]].
  assert (NO : names_ok m). { split; [exact S|]. intros h x F. destruct (N h x F) as [E [Eh Hin]]. split; [rewrite E; cbn; symmetry; exact Eh|]. split; [symmetry; exact Eh|]. rewrite Eh. apply T1. exact Hin. }
  destruct (get_name_cases m t NO (conj C L)) as [[E1 _]|[[E1 [E2 E3]]|[[E1 [[x [E2 E4]] E3]]|[E1 [E2 E3]]]]]; cbn zeta in *.
  - contradiction.
  - exists m. split; [exact E3|]. split; [split; assumption|]. intros h x F. exact F.
  - exfalso. destruct (N _ _ E2) as [_ [Eh Hin]]. apply E4. apply T2; [exact Hin|exact Ht|symmetry; exact Eh].
  - eexists. split; [exact E3|]. split.
    + split; [apply m_set_ssorted; exact S|]. intros h x F. rewrite m_find_set in F by exact S. destruct (Z.eqb_spec (hash32 t 0) h) as [<-|Q].
      * injection F as <-. cbn [n_text]. auto.
      * apply N. exact F.
    + intros h x F. rewrite m_find_set by exact S. destruct (Z.eqb_spec (hash32 t 0) h) as [<-|Q]; [congruence|exact F].
Qed.
Lemma db_known : forall U d t, told_apart U -> names_of U (d_names d) -> In t U ->
  exists m', db_GetName d t = Ok (mk_name (hash32 t 0) t, set_names m' d) /\ names_of U m' /\ names_kept (d_names d) m'.
Proof.
  intros U d t T N H. destruct (known_name U (d_names d) t T N H) as [m' [E [N' K]]]. exists m'. split; [|split; assumption]. unfold db_GetName. rewrite E. reflexivity.
Qed.
Lemma set_names_twice : forall a b d, set_names a (set_names b d) = set_names a d.
Proof. reflexivity. Qed.
Lemma kept_trans : forall a b c, names_kept a b -> names_kept b c -> names_kept a c.
Proof. intros a b c H1 H2 h x F. apply H2, H1, F. Qed.
Lemma kept_refl : forall a, names_kept a a.
Proof. intros a h x F. exact F. Qed.

(* ---- the parameters of a signature ---- *)
Lemma params_loop : forall U ps fuel d lead suf acc, told_apart U -> Forall parameter ps -> (forall p t, In p ps -> type_text p t -> In t U) -> names_of U (d_names d) ->
  ps <> [] -> lead = [] \/ lead = [32] -> (length ps < fuel)%nat ->
  exists fs m', parameters_loop fuel d (lead ++ listed ps ++ 41 :: suf) (length (41 :: suf)) acc = Ok (acc ++ fs, set_names m' d) /\ map spelled fs = ps /\ names_of U m' /\ names_kept (d_names d) m'.
Proof.
  intros U ps. induction ps as [|p ps IH]; intros fuel d lead suf acc T HP HU N NE HL Hf; [congruence|]. inversion HP as [|? ? Hp HP']; subst. destruct fuel as [|fuel]; [cbn in Hf; lia|].
  destruct (param_text_ok p Hp) as [_ [_ [_ Np]]].
  assert (Body : forall c r, c = 44 \/ c = 41 -> (S (length suf) <= length (c :: r))%nat ->
    exists f m1, parameters_loop (S fuel) d (lead ++ p ++ c :: r) (length (41 :: suf)) acc = parameters_loop fuel (set_names m1 d) r (length (41 :: suf)) (acc ++ [f]) /\ spelled f = p /\ names_of U m1 /\ names_kept (d_names d) m1).
  { intros c r Hc Hs. destruct (match_param d p lead c r (length (41 :: suf)) Hp HL Hc Hs) as [t [q [Q1 [Q2 [Q3 [Q4 Q5]]]]]].
    destruct (db_known U d t T N (HU p t (or_introl eq_refl) Q3)) as [m1 [E1 [N1 K1]]]. exists (mk_field (mk_prim noname noname) (mk_name (hash32 t 0) t) q (-1) 0), m1.
    split; [|split; [|split; assumption]].
    - cbn [parameters_loop]; change (length (41 :: suf)) with (S (length suf)). replace (S (length suf) <? length (lead ++ p ++ c :: r))%nat with true by (symmetry; apply Nat.ltb_lt; rewrite !app_length; destruct p; [congruence|cbn [length] in *; lia]).
      change (S (length suf)) with (length (41 :: suf)); rewrite Q5, E1. cbn [obind fst snd].
      replace (IsVoidParameter (mk_field (mk_prim noname noname) (mk_name (hash32 t 0) t) q (-1) 0)) with false; [reflexivity|]. symmetry. unfold IsVoidParameter. cbn [f_qual f_type n_text].
      destruct (q_op q) eqn:Eq; cbn [qop_eqb andb]; try reflexivity. apply list_eqb_false. apply Q4. reflexivity.
    - unfold spelled. cbn [f_qual f_type n_text]. rewrite Q1. cbn [app]. rewrite Q2 at 1. unfold op_text. destruct (q_op q); reflexivity. }
  destruct ps as [|p2 ps].
  - cbn [listed]. destruct (Body 41 suf (or_intror eq_refl) (le_n _)) as [f [m1 [E1 [Sp [N1 K1]]]]]. exists [f], m1. rewrite E1. destruct fuel as [|fuel]; [cbn in Hf; lia|]. cbn [parameters_loop]; change (length (41 :: suf)) with (S (length suf)).
    replace (S (length suf) <? length suf)%nat with false by (symmetry; apply Nat.ltb_ge; cbn [length]; lia). split; [reflexivity|]. split; [cbn; rewrite Sp; reflexivity|]. split; assumption.
  - change (listed (p :: p2 :: ps)) with (p ++ 44 :: 32 :: listed (p2 :: ps)). rewrite <- app_assoc. cbn [app].
    destruct (Body 44 (32 :: listed (p2 :: ps) ++ 41 :: suf) (or_introl eq_refl)) as [f [m1 [E1 [Sp [N1 K1]]]]]; [cbn [length]; rewrite app_length; cbn [length]; lia|]. rewrite E1.
    destruct (IH fuel (set_names m1 d) [32] suf (acc ++ [f]) T HP') as [fs [m2 [E2 [Sp2 [N2 K2]]]]]; [intros a t Ha; apply HU; right; exact Ha|exact N1|discriminate|right; reflexivity|cbn [length] in *; lia|].
    exists (f :: fs), m2. cbn [app] in E2. rewrite E2, set_names_twice, <- app_assoc. split; [reflexivity|]. split; [cbn [map]; rewrite Sp, Sp2; reflexivity|]. split; [exact N2|]. apply (kept_trans _ m1); assumption.
Qed.

(* ---- the function that gets the address ---- *)
Lemma set_address_some : forall h uid a m m', set_address h uid a m = Some m' -> addressed h uid a m m'.
Proof.
  induction m as [|[k f] m IH]; intros m' H; cbn [set_address] in H; [discriminate|]. destruct ((k =? h) && (fn_uid f =? uid)) eqn:E.
  - injection H as <-. apply andb_prop in E. destruct E as [E1 E2]. apply Z.eqb_eq in E1, E2. subst k. exists [], f, m. rewrite E2. cbn. auto.
  - destruct (set_address h uid a m) as [r|] eqn:Q; [|discriminate]. injection H as <-. destruct (IH r eq_refl) as [pre [g [post [-> [G1 [-> G2]]]]]].
    exists ((k, f) :: pre), g, post. split; [reflexivity|]. split; [exact G1|]. split; [reflexivity|]. constructor; [|exact G2]. intros [M1 M2]. cbn [fst snd] in *. rewrite M1, M2, !Z.eqb_refl in E. discriminate.
Qed.
Lemma set_address_none : forall h uid a m, set_address h uid a m = None -> unmatched h uid m.
Proof.
  induction m as [|[k f] m IH]; intros H; cbn [set_address] in H; [constructor|]. destruct ((k =? h) && (fn_uid f =? uid)) eqn:E; [discriminate|].
  destruct (set_address h uid a m) eqn:Q; [discriminate|]. constructor; [|apply IH; exact H]. intros [M1 M2]. cbn [fst snd] in *. rewrite M1, M2, !Z.eqb_refl in E. discriminate.
Qed.
Lemma uid_of : forall fs ts, map spelled fs = ts -> Forall text_ok ts -> CalculateFunctionUniqueID fs = Ok (id_of ts).
Proof.
  intros fs ts E H. rewrite C49_chained_hash.
  - f_equal. unfold id_of. subst ts. clear H. generalize 0 at 2 4 as acc. induction fs as [|f fs IH]; intros acc; [reflexivity|]. cbn [map fold_left]. rewrite IH. reflexivity.
  - subst ts. clear -H. induction fs as [|f fs IH]; [constructor|]. inversion H; subst. constructor; [assumption|apply IH; assumption].
Qed.
Lemma listed_no : forall ps, Forall parameter ps -> ~ In 40 (listed ps) /\ ~ In 41 (listed ps).
Proof.
  induction 1 as [|p ps Hp _ IH]; [split; intros []|]. destruct (param_text_ok p Hp) as [_ [P1 [P2 _]]]. destruct ps as [|q ps]; [split; assumption|].
  change (listed (p :: q :: ps)) with (p ++ 44 :: 32 :: listed (q :: ps)). destruct IH as [I1 I2]. split; intros X; apply in_app_iff in X; cbn [In] in X; intuition lia.
Qed.
Lemma find_prefix : forall a b, string_find (a ++ b) a 0 = Some 0%nat.
Proof.
  intros a b. unfold string_find. cbn [Nat.ltb Nat.leb skipn]. assert (P : is_prefix a (a ++ b) = true) by (apply is_prefix_spec; exists b; reflexivity).
  destruct (a ++ b) eqn:E; cbn [find_from]; rewrite ?P; reflexivity.
Qed.
Lemma rfind_scope : forall c m, ~ In 58 m -> string_rfind (c ++ str "::" ++ m) (str "::") None = Some (length c).
Proof.
  intros c m N. destruct (string_rfind (c ++ str "::" ++ m) (str "::") None) as [p|] eqn:E; unfold string_rfind in E.
  - apply rfind_some in E. destruct E as [a [b [E [J [_ M]]]]]. cbn in J. subst p. f_equal. specialize (M c m eq_refl I).
    destruct (Nat.eq_dec (length a) (length c)) as [Q|Q]; [exact Q|]. exfalso.
    assert (X : nth_error (c ++ str "::" ++ m) (S (length a)) = Some 58) by (rewrite E, nth_error_app2 by lia; replace (S (length a) - length a)%nat with 1%nat by lia; reflexivity).
    rewrite nth_error_app2 in X by lia. destruct (S (length a) - length c)%nat as [|[|q]] eqn:Y; [lia|lia|]. cbn in X. apply nth_error_In in X. contradiction.
  - exfalso. apply (rfind_none _ _ _ _ E c m eq_refl).
Qed.
Section Add.
Variables (U : list (list Z)) (n : list Z) (ps : list (list Z)) (k : bool) (address : Z).
Hypothesis TA : told_apart U.
Hypothesis HP : Forall parameter ps.
Hypothesis HU : forall p t, In p ps -> type_text p t -> In t U.
Hypothesis Hn : text_ok n.
Hypothesis n40 : ~ In 40 n.
Hypothesis Ha : address <> 0.
Definition found (d : mapdb) (uid : Z) (r : outcome (bool * mapdb)) : Prop :=
  exists b m' fns, r = Ok (b, mk_mapdb m' fns (d_fields d) (d_gettype d)) /\ names_of U m' /\ names_kept (d_names d) m' /\
    if b then addressed (hash32 n 0) uid address (d_functions d) fns else fns = d_functions d /\ unmatched (hash32 n 0) uid (d_functions d).
(* behind the optional parameter for the object *)
Lemma add_tail : forall d acc ts, names_of U (d_names d) -> map spelled acc = ts -> Forall text_ok ts ->
  found d (id_of (ts ++ ps)) (
    do x <- parameters_loop (S (length (listed ps ++ 41 :: (if k then str " const" else [])))) d (listed ps ++ 41 :: (if k then str " const" else [])) (S (length (if k then str " const" else []))) acc;
    let '(ps, d) := x in do uid <- CalculateFunctionUniqueID ps; do hash <- HashNameString (n ++ [0]) 0;
    match set_address hash uid address (d_functions d) with Some m => Ok (true, mk_mapdb (d_names d) m (d_fields d) (d_gettype d)) | None => Ok (false, d) end).
Proof.
  intros d acc ts N Sp Ht. set (suf := if k then str " const" else []).
  assert (X : exists fs m', parameters_loop (S (length (listed ps ++ 41 :: suf))) d (listed ps ++ 41 :: suf) (S (length suf)) acc = Ok (acc ++ fs, set_names m' d) /\ map spelled fs = ps /\ names_of U m' /\ names_kept (d_names d) m').
  { destruct ps as [|p qs] eqn:Eps.
    - exists [], (d_names d). cbn [listed app parameters_loop]. change (length (41 :: suf)) with (S (length suf)); rewrite Nat.ltb_irrefl. rewrite app_nil_r.
      split; [destruct d; reflexivity|]. split; [reflexivity|]. split; [exact N|apply kept_refl].
    - rewrite <- Eps in *. assert (LP : (length ps <= length (listed ps))%nat).
      { clear -HP. induction HP as [|q l Hq Hl IH]; [cbn; lia|]. destruct (param_text_ok q Hq) as [_ [_ [_ Nq]]]. destruct l as [|q2 l]; [destruct q; [congruence|cbn; lia]|].
        change (listed (q :: q2 :: l)) with (q ++ 44 :: 32 :: listed (q2 :: l)). rewrite app_length. cbn [length] in *. lia. }
      apply (params_loop U ps (S (length (listed ps ++ 41 :: suf))) d [] suf acc TA HP HU N); [rewrite Eps; discriminate|left; reflexivity|rewrite app_length; cbn [length]; lia]. }
  destruct X as [fs [m' [E [S2 [N2 K2]]]]]. rewrite E. cbn [obind]. rewrite (uid_of (acc ++ fs) (ts ++ ps)).
  - cbn [obind]. destruct (text_hash n Hn) as [Hh _]. rewrite Hh. cbn [obind set_names d_functions d_fields d_gettype d_names]. destruct (set_address (hash32 n 0) (id_of (ts ++ ps)) address (d_functions d)) as [m|] eqn:SA.
    + exists true, m', m. split; [reflexivity|]. split; [exact N2|]. split; [exact K2|]. apply set_address_some. exact SA.
    + exists false, m', (d_functions d). split; [reflexivity|]. split; [exact N2|]. split; [exact K2|]. split; [reflexivity|]. apply set_address_none with (a := address). exact SA.
  - rewrite map_app, Sp, S2. reflexivity.
  - apply Forall_app. split; [exact Ht|]. eapply Forall_impl; [|exact HP]. intros p Hp. apply (param_text_ok p Hp).
Qed.
Lemma sig_find : string_find (signature n ps k) n 0 = Some 0%nat /\ string_find (signature n ps k) (str "(") 0 = Some (length n) /\
  string_find (signature n ps k) (str ")") (length n) = Some (length n + S (length (listed ps)))%nat /\
  skipn (length n + 1) (signature n ps k) = listed ps ++ 41 :: (if k then str " const" else []) /\
  (length (signature n ps k) - (length n + S (length (listed ps))) = S (length (if k then str " const" else [])))%nat.
Proof.
  destruct (listed_no ps HP) as [L1 L2]. unfold signature. split; [apply find_prefix|]. split; [apply (string_find_char 40 [] n); exact n40|].
  split.
  { change (str "(" ++ listed ps ++ str ")" ++ (if k then str " const" else [])) with ((40 :: listed ps) ++ 41 :: (if k then str " const" else [])). rewrite (string_find_char 41 n); [reflexivity|]. intros [X|X]; [discriminate|contradiction]. }
  split.
  { change (str "(" ++ listed ps ++ str ")" ++ (if k then str " const" else [])) with ([40] ++ listed ps ++ 41 :: (if k then str " const" else [])). rewrite app_assoc. replace (length n + 1)%nat with (length (n ++ [40])) by (rewrite app_length; reflexivity). apply skipn_app_exact'. }
  { rewrite !app_length. change (length (str "(")) with 1%nat. change (length (str ")")) with 1%nat. lia. }
Qed.
Lemma add_free : forall d k', names_of U (d_names d) -> found d (id_of ps) (AddFunctionAddress d n (signature n ps k) address false k').
Proof.
  intros d k' N. destruct sig_find as [F1 [F2 [F3 [F4 F5]]]]. unfold AddFunctionAddress. rewrite (proj2 (Z.eqb_neq _ _) Ha), F1, F2, F3. cbn [obind]. rewrite F4, F5. apply (add_tail d [] [] N eq_refl (Forall_nil _)).
Qed.
Lemma add_this : forall d c m, n = c ++ str "::" ++ m -> ~ In 58 m -> zlen c < 1024 -> In c U -> names_of U (d_names d) ->
  found d (id_of (this_text c k :: ps)) (AddFunctionAddress d n (signature n ps k) address true k).
Proof.
  intros d c m En Nm Lc Hc N. destruct sig_find as [F1 [F2 [F3 [F4 F5]]]]. unfold AddFunctionAddress. rewrite (proj2 (Z.eqb_neq _ _) Ha), F1, F2, F3.
  rewrite En at 1. rewrite rfind_scope by exact Nm. replace (1024 <=? Z.of_nat (length c)) with false by (symmetry; apply Z.leb_gt; unfold zlen in Lc; lia).
  rewrite En at 1. rewrite firstn_app_exact' by reflexivity. destruct (db_known U d c TA N Hc) as [m1 [E1 [N1 K1]]]. rewrite E1. cbn [obind fst snd]. rewrite F4, F5.
  set (f := mk_field (mk_prim noname noname) (mk_name (hash32 c 0) c) (mk_qual POINTER k) (-1) 0).
  destruct (add_tail (set_names m1 d) [f] [this_text c k] N1) as [b [m' [fns [E2 [N2 [K2 Fd]]]]]].
  - cbn [map]. f_equal.
  - constructor; [|constructor]. destruct TA as [T1 _]. destruct (T1 c Hc) as [C1 [C2 _]]. split.
    + unfold c_string, this_text. apply Forall_app. split; [destruct k; vm_compute; repeat (constructor; [split; reflexivity|]); constructor|]. apply Forall_app. split; [exact C1|]. constructor; [split; reflexivity|constructor].
    + unfold this_text. rewrite !zlen_app3. change (zlen (str "*")) with 1. destruct k; [change (zlen (str "const ")) with 6|rewrite zlen_nil]; lia.
  - exists b, m', fns. split; [exact E2|]. split; [exact N2|]. split; [apply (kept_trans _ m1); assumption|exact Fd].
Qed.
End Add.

Lemma ends_const : forall s k, (forall a, s = a ++ str "const" -> k = true) -> (k = true -> exists a, s = a ++ str "const") -> (5 <= length s)%nat -> zlen s < 2 ^ 32 ->
  ((match string_rfind s (str "const") None with Some p => Z.of_nat p | None => 2 ^ 64 - 1 end) =? u64 (zlen s - 5)) = k.
Proof.
  intros s k H1 H2 L5 L. unfold u64. rewrite Z.mod_small by (unfold zlen in *; lia). destruct (string_rfind s (str "const") None) as [p|] eqn:E; unfold string_rfind in E.
  - apply rfind_some in E. destruct E as [a [b [E [J [_ M]]]]]. cbn in J. subst p. destruct (Z.eqb_spec (Z.of_nat (length a)) (zlen s - 5)) as [Q|Q].
    + symmetry. apply (H1 a). assert (Lb : length b = 0%nat) by (unfold zlen in Q; rewrite E, !app_length in Q; cbn [length str] in Q; change (length (str "const")) with 5%nat in Q; lia).
      destruct b; [|discriminate]. rewrite app_nil_r in E. exact E.
    + destruct k; [|reflexivity]. exfalso. destruct (H2 eq_refl) as [a2 E2]. specialize (M a2 [] ltac:(rewrite app_nil_r; exact E2) I). apply Q. unfold zlen.
      assert (Y : length s = (length a2 + 5)%nat) by (rewrite E2, app_length; reflexivity). assert (Y2 : length s = (length a + 5 + length b)%nat) by (rewrite E, !app_length; change (length (str "const")) with 5%nat; lia). lia.
  - replace (2 ^ 64 - 1 =? zlen s - 5) with false by (symmetry; apply Z.eqb_neq; lia). destruct k; [|reflexivity]. exfalso. destruct (H2 eq_refl) as [a2 E2]. apply (rfind_none _ _ _ _ E a2 []). rewrite app_nil_r. exact E2.
Qed.
Lemma sig_const : forall n ps k, (5 <= length (signature n ps k))%nat -> zlen (signature n ps k) < 2 ^ 32 ->
  ((match string_rfind (signature n ps k) (str "const") None with Some p => Z.of_nat p | None => 2 ^ 64 - 1 end) =? u64 (zlen (signature n ps k) - 5)) = k.
Proof.
  intros n ps k L5 L. apply ends_const; [| |exact L5|exact L].
  - intros z E. destruct k; [reflexivity|]. exfalso. assert (X : exists y, signature n ps false = y ++ [41]) by (exists (n ++ str "(" ++ listed ps); unfold signature; rewrite <- !app_assoc; cbn [app]; rewrite app_nil_r || idtac; reflexivity).
    destruct X as [y X]. rewrite X in E. change (str "const") with ([99; 111; 110; 115] ++ [116]) in E. rewrite app_assoc in E. apply app_inj_tail in E. destruct E. discriminate.
  - intros ->. exists (n ++ str "(" ++ listed ps ++ str ") "). unfold signature. rewrite <- !app_assoc. reflexivity.
Qed.
Definition callable (rnd : nat -> Z) (U : list (list Z)) (n : list Z) (ps : list (list Z)) (k : bool) : Prop :=
  (forall j, 0 <= rnd j < 10) /\
  closers_ok (signature n ps k) /\ zlen (signature n ps k) < 3 * 10 ^ 8 /\ ~ occurs (str "anonymous namespace") (signature n ps k) /\
  Forall (fun c => 0 < c < 256) n /\ n <> [] /\ ~ In 40 n /\ ~ In 60 n /\ ~ In 32 n /\ (forall r, n <> r ++ [38]) /\
  (forall r, n <> str "clcppConstructObject" ++ r) /\ (forall r, n <> str "clcppDestructObject" ++ r) /\
  Forall parameter ps /\ told_apart U /\ (forall p t, In p ps -> type_text p t -> In t U).
Lemma startswith_false : forall n p, (forall r, n <> p ++ r) -> startswith n p = false.
Proof.
  intros n p N. unfold startswith. destruct (string_find n p 0) as [[|q]|] eqn:E; try reflexivity. exfalso. apply string_find_some in E. destruct E as [a [b [E [La _]]]]. destruct a; [|discriminate]. apply (N b E).
Qed.
Lemma process_start : forall rnd U d n ps k address, callable rnd U n ps k ->
  ProcessFunctionItem rnd d (signature n ps k) address =
  match m_find (hash32 n 0) (d_functions d) with
  | None => Ok d
  | Some _ =>
      let is_const := (match string_rfind (signature n ps k) (str "const") None with Some p => Z.of_nat p | None => 2 ^ 64 - 1 end) =? u64 (zlen (signature n ps k) - 5) in
      do x <- AddFunctionAddress d n (signature n ps k) address true is_const;
      if fst x then Ok (snd x) else do y <- AddFunctionAddress (snd x) n (signature n ps k) address false is_const; Ok (snd y)
  end.
Proof.
  intros rnd U d n ps k address [C1 [C2 [C3 [C4 [C5 [C6 [C7 [C8 [C9 [C10 [C11 [C12 [C13 _]]]]]]]]]]]]]. unfold ProcessFunctionItem.
  destruct (listed_no ps C13) as [L1 L2].
  assert (P : ParseFunctionName rnd (signature n ps k) = Ok n).
  { unfold signature. apply (parse_plain rnd [] n (listed ps ++ str ")" ++ (if k then str " const" else [])) C1 C2 C3); try assumption.
    - left; reflexivity.
    - intros r E. destruct r; discriminate.
    - intros r E. assert (X : In 40 (listed ps ++ str ")" ++ (if k then str " const" else []))) by (rewrite E; right; right; left; reflexivity).
      apply in_app_iff in X. destruct X as [X|X]; [contradiction|]. destruct k; cbn in X; repeat destruct X as [X|X]; try discriminate; destruct X.
    - intros r E. apply C4. exists (n ++ str "("), (str ")" ++ r). unfold signature. rewrite E, <- !app_assoc. reflexivity. }
  rewrite P. cbn [obind]. replace (zlen n =? 0) with false by (symmetry; apply Z.eqb_neq; destruct n; [congruence|rewrite zlen_cons; pose proof (zlen_nonneg _ n); lia]).
  assert (G1 : forall r, n <> str "clcpp::GetType<" ++ r) by (intros r ->; apply C8; apply in_or_app; left; vm_compute; auto 20).
  assert (G2 : forall r, n <> str "clcpp::GetTypeNameHash<" ++ r) by (intros r ->; apply C8; apply in_or_app; left; vm_compute; auto 30).
  unfold IsConstructFunction, IsDestructFunction, IsGetTypeFunction, IsGetTypeNameHashFunction. rewrite !startswith_false by assumption.
  assert (TN : text_ok n). { split; [exact C5|]. unfold signature in C3. rewrite zlen_app3 in C3. pose proof (zlen_nonneg _ (str "(" ++ listed ps ++ str ")" ++ (if k then str " const" else []))). lia. }
  destruct (text_hash n TN) as [Hh _]. rewrite Hh. cbn [obind]. reflexivity.
Qed.
Lemma no_key_unmatched : forall h uid m, m_find h m = None -> unmatched h uid m.
Proof.
  intros h uid m H. apply m_find_none in H. apply Forall_forall. intros [k f] Hin [M1 _]. cbn in M1. subst k. apply H. apply keys_In. exists f. exact Hin.
Qed.
Lemma callable_add : forall rnd U n ps k, callable rnd U n ps k -> told_apart U /\ Forall parameter ps /\ (forall p t, In p ps -> type_text p t -> In t U) /\ text_ok n /\ ~ In 40 n.
Proof.
  intros rnd U n ps k [C1 [C2 [C3 [C4 [C5 [C6 [C7 [C8 [C9 [C10 [C11 [C12 [C13 [C14 C15]]]]]]]]]]]]]]. split; [exact C14|]. split; [exact C13|]. split; [exact C15|]. split; [|exact C7].
  split; [exact C5|]. unfold signature in C3. rewrite zlen_app3 in C3. pose proof (zlen_nonneg _ (str "(" ++ listed ps ++ str ")" ++ (if k then str " const" else []))). lia.
Qed.
Lemma process_free : forall rnd U d n ps k address, callable rnd U n ps k -> address <> 0 -> names_of U (d_names d) -> (forall a b, n <> a ++ str "::" ++ b) ->
  exists m' fns, ProcessFunctionItem rnd d (signature n ps k) address = Ok (mk_mapdb m' fns (d_fields d) (d_gettype d)) /\ names_of U m' /\ names_kept (d_names d) m' /\
    (addressed (hash32 n 0) (id_of ps) address (d_functions d) fns \/ unmatched (hash32 n 0) (id_of ps) (d_functions d) /\ fns = d_functions d).
Proof.
  intros rnd U d n ps k address C Ha N NS. rewrite (process_start rnd U) by exact C. destruct (callable_add _ _ _ _ _ C) as [A1 [A2 [A3 [A4 A5]]]].
  destruct (m_find (hash32 n 0) (d_functions d)) as [f|] eqn:F.
  - cbn zeta. set (kc := _ =? _). assert (T : AddFunctionAddress d n (signature n ps k) address true kc = Ok (false, d)).
    { destruct (sig_find U n ps k A2 A3 A5) as [F1 [F2 [F3 _]]]. unfold AddFunctionAddress. rewrite (proj2 (Z.eqb_neq _ _) Ha), F1, F2, F3.
      destruct (string_rfind n (str "::") None) as [p|] eqn:R; [|reflexivity]. exfalso. unfold string_rfind in R. apply rfind_some in R. destruct R as [a [b [R _]]]. apply (NS a b R). }
    rewrite T. cbn [obind fst snd]. destruct (add_free U n ps k address A1 A2 A3 A4 A5 Ha d kc N) as [b [m' [fns [E [N' [K Fd]]]]]]. rewrite E. cbn [obind snd]. exists m', fns. split; [reflexivity|]. split; [exact N'|]. split; [exact K|].
    destruct b; [left; exact Fd|right; destruct Fd; auto].
  - exists (d_names d), (d_functions d). split; [destruct d; reflexivity|]. split; [exact N|]. split; [apply kept_refl|]. right. split; [apply no_key_unmatched; exact F|reflexivity].
Qed.
Lemma process_member : forall rnd U d c m ps k address, let n := c ++ str "::" ++ m in callable rnd U n ps k -> address <> 0 -> names_of U (d_names d) ->
  c <> [] -> ~ In 58 m -> zlen c < 1024 -> In c U ->
  exists m' fns, ProcessFunctionItem rnd d (signature n ps k) address = Ok (mk_mapdb m' fns (d_fields d) (d_gettype d)) /\ names_of U m' /\ names_kept (d_names d) m' /\
    (addressed (hash32 n 0) (id_of (this_text c k :: ps)) address (d_functions d) fns \/
     unmatched (hash32 n 0) (id_of (this_text c k :: ps)) (d_functions d) /\
     (addressed (hash32 n 0) (id_of ps) address (d_functions d) fns \/ unmatched (hash32 n 0) (id_of ps) (d_functions d) /\ fns = d_functions d)).
Proof.
  intros rnd U d c m ps k address n C Ha N Nc Nm Lc Hc. rewrite (process_start rnd U) by exact C. destruct (callable_add _ _ _ _ _ C) as [A1 [A2 [A3 [A4 A5]]]].
  destruct (m_find (hash32 n 0) (d_functions d)) as [f|] eqn:F.
  - cbn zeta. rewrite sig_const.
    + destruct (add_this U n ps k address A1 A2 A3 A4 A5 Ha d c m eq_refl Nm Lc Hc N) as [b [m1 [fns [E [N1 [K1 Fd]]]]]]. rewrite E. cbn [obind fst snd]. destruct b.
      * exists m1, fns. auto.
      * destruct Fd as [-> Un]. set (d1 := mk_mapdb m1 (d_functions d) (d_fields d) (d_gettype d)).
        destruct (add_free U n ps k address A1 A2 A3 A4 A5 Ha d1 k N1) as [b [m2 [fns [E2 [N2 [K2 Fd2]]]]]]. rewrite E2. cbn [obind snd]. exists m2, fns. split; [reflexivity|]. split; [exact N2|]. split; [apply (kept_trans _ m1); assumption|].
        right. split; [exact Un|]. destruct b; [left; exact Fd2|right; destruct Fd2; auto].
    + unfold signature, n. rewrite !app_length. change (length (str "::")) with 2%nat. change (length (str "(")) with 1%nat. change (length (str ")")) with 1%nat. destruct c; [congruence|cbn [length]; lia].
    + destruct C as [_ [_ [C3 _]]]. lia.
  - exists (d_names d), (d_functions d). split; [destruct d; reflexivity|]. split; [exact N|]. split; [apply kept_refl|]. right. split; [apply no_key_unmatched; exact F|]. right. split; [apply no_key_unmatched; exact F|reflexivity].
Qed.
