(* Reading one symbol neither overruns a buffer nor goes on for ever: the proofs behind MapFileProps. *)
From Verif Require Import Base BaseProofs Text HashModel HashSpec Maps FileUtilsModel FileUtilsProofs DatabaseModel NamesProofs NamesProps MapFileModel MapFileSpec MapNameProofs MapParamProofs MapTableProofs.

Lemma bind_defined : forall A B (m : outcome A) (f : A -> outcome B), defined m -> (forall x, m = Ok x -> defined (f x)) -> defined (obind m f).
Proof. intros A B [x| | |] f H K; cbn [obind]; [apply K; reflexivity|split; discriminate|destruct H; congruence|destruct H; congruence]. Qed.
Lemma span_ok : forall text, let '(t, u) := span_token text in text = t ++ u /\ match u with [] => True | c :: _ => ends_token c = true end.
Proof.
  induction text as [|c r IH]; [split; auto|]. cbn [span_token]. destruct (ends_token c) eqn:E; [split; [reflexivity|exact E]|]. destruct (span_token r) as [t u]. destruct IH as [-> H]. split; [reflexivity|exact H].
Qed.
Lemma c_app : forall a b, c_string (a ++ b) <-> c_string a /\ c_string b.
Proof. intros a b. apply Forall_app. Qed.
Lemma token_ok : forall token tn q this, c_string token -> c_string tn -> 7 * zlen tn + 9 * zlen token < 7 * 1024 ->
  exists tn' q' this', match_token token tn q this = Ok (tn', q', this') /\ c_string tn' /\ 7 * zlen tn' <= 7 * zlen tn + 9 * zlen token.
Proof.
  intros token tn q this C1 C2 L. unfold match_token. pose proof (zlen_nonneg _ token) as Z1. pose proof (zlen_nonneg _ tn) as Z2.
  destruct (_ =? 38); [repeat eexists; [exact C2|lia]|]. destruct (_ =? 42); [repeat eexists; [exact C2|lia]|]. destruct (list_eqb token (str "const")); [repeat eexists; [exact C2|lia]|]. destruct (list_eqb token (str "__thiscall")); [repeat eexists; [exact C2|lia]|].
  destruct (list_eqb token (str "unsigned") || list_eqb token (str "signed")) eqn:E.
  - assert (Lt : 6 <= zlen token) by (apply orb_true_iff in E; destruct E as [E|E]; apply list_eqb_eq in E; subst token; vm_compute; discriminate).
    rewrite strcat_ok by lia. cbn [obind]. assert (Z3 : zlen (tn ++ token) = zlen tn + zlen token) by apply zlen_app. rewrite strcat_ok by (rewrite Z3; change (zlen (str " ")) with 1; lia). cbn [obind].
    repeat eexists; [apply c_app; split; [apply c_app; split; assumption|constructor; [split; reflexivity|constructor]]|]. rewrite zlen_app, Z3. change (zlen (str " ")) with 1. lia.
  - destruct (list_eqb token (str "__int64")) eqn:E2.
    + apply list_eqb_eq in E2. subst token. change (zlen (str "__int64")) with 7 in *. rewrite strcat_ok by (change (zlen (str "long long")) with 9; lia). cbn [obind]. repeat eexists; [apply c_app; split; [exact C2|vm_compute; repeat (constructor; [split; reflexivity|]); constructor]|].
      rewrite zlen_app. change (zlen (str "long long")) with 9. lia.
    + destruct (existsb (list_eqb token) skip_tokens); [repeat eexists; [exact C2|lia]|]. rewrite strcat_ok by lia. cbn [obind]. repeat eexists; [apply c_app; split; assumption|]. rewrite zlen_app. lia.
Qed.
Definition loop_post (text : list Z) (stop : nat) (o : outcome (list Z * qualifier * bool * list Z)) : Prop :=
  match o with
  | Ok (t, _, _, r) => c_string t /\ zlen t < 1024 /\ c_string r /\ (length r <= length text)%nat /\ ((stop < length text)%nat -> (length r < length text)%nat)
  | Trap => True
  | _ => False
  end.
Lemma loop_ok : forall fuel text stop tn q this, (length text < fuel)%nat -> c_string text -> c_string tn -> 7 * zlen tn + 9 * zlen text < 7 * 1024 -> loop_post text stop (match_loop fuel text stop tn q this).
Proof.
  induction fuel as [|fuel IH]; intros text stop tn q this F C Ct L; [lia|]. cbn [match_loop]. pose proof (zlen_nonneg _ text) as Zt. pose proof (zlen_nonneg _ tn) as Zn.
  destruct (Nat.ltb_spec stop (length text)) as [S|S]; [|cbn [loop_post]; split; [exact Ct|]; split; [lia|]; split; [exact C|]; split; lia].
  unfold ConsumeParameterToken. pose proof (span_ok text) as SP. destruct (span_token text) as [token u]. destruct SP as [E Hu]. assert (Ez : zlen text = zlen token + zlen u) by (subst text; apply zlen_app). pose proof (zlen_nonneg _ token) as Zk. pose proof (zlen_nonneg _ u) as Zu.
  destruct (Z.leb_spec 1024 (zlen token)) as [X|_]; [lia|]. cbn [obind]. pose proof C as C0. rewrite E in C0. apply c_app in C0. destruct C0 as [Ck Cu].
  destruct (token_ok token tn q this Ck Ct) as [tn1 [q1 [this1 [E1 [Ct1 L1]]]]]; [lia|]. rewrite E1. cbn [obind].
  destruct (skip_ok u) as [bl [Eu [Hb Hh]]]. set (rest := SkipWhitespace u) in *. assert (Cr : c_string rest) by (rewrite Eu in Cu; apply c_app in Cu; tauto). assert (Zr : zlen u = zlen bl + zlen rest) by (rewrite Eu at 1; apply zlen_app). pose proof (zlen_nonneg _ bl) as Zb. pose proof (zlen_nonneg _ rest) as Zr0.
  assert (Ln : length text = (length token + (length bl + length rest))%nat) by (rewrite E, app_length; rewrite Eu at 1; rewrite app_length; reflexivity).
  (* no progress: the text starts with a bracket, a comma or a closing bracket *)
  assert (P : (length rest < length text)%nat \/ exists c r, rest = c :: r /\ (c = 44 \/ c = 41 \/ c = 60 \/ c = 62)).
  { destruct token as [|k token]; [|left; cbn [length] in Ln; lia]. destruct bl as [|b bl]; [|left; cbn [length] in Ln; lia]. cbn [app] in E, Eu. right. destruct rest as [|c r] eqn:Er; [exfalso; subst u text; cbn in S; lia|].
    rewrite Eu in Hu. exists c, r. split; [reflexivity|]. destruct (Hh c r eq_refl) as [H1 H2]. unfold ends_token in Hu. lia. }
  assert (K : forall tn2 r2, c_string tn2 -> c_string r2 -> (length r2 < length text)%nat \/ (exists c r, r2 = c :: r /\ (c = 44 \/ c = 41) /\ (length r2 <= length text)%nat) -> 7 * zlen tn2 + 9 * zlen r2 < 7 * 1024 ->
    loop_post text stop (match r2 with c :: r => if (c =? 44) || (c =? 41) then Ok (tn2, q1, this1, r) else match_loop fuel r2 stop tn2 q1 this1 | [] => match_loop fuel r2 stop tn2 q1 this1 end)).
  { intros tn2 r2 Q1 Q2 Q3 Q4. pose proof (zlen_nonneg _ r2) as Zr2. assert (R : (length r2 < length text)%nat -> loop_post text stop (match_loop fuel r2 stop tn2 q1 this1)).
    { intros X. pose proof (IH r2 stop tn2 q1 this1 ltac:(lia) Q2 Q1 Q4) as Y. destruct (match_loop fuel r2 stop tn2 q1 this1) as [[[[t3 q3] th3] r3]| | |]; cbn [loop_post] in *; try exact Y. destruct Y as [Y1 [Y2 [Y3 [Y4 Y5]]]]. split; [exact Y1|]. split; [exact Y2|]. split; [exact Y3|]. split; lia. }
    destruct r2 as [|c r2].
    - apply R. destruct Q3 as [Q3|[c [r [Q3 _]]]]; [exact Q3|discriminate].
    - destruct ((c =? 44) || (c =? 41)) eqn:D; [|apply R; destruct Q3 as [Q3|[c1 [r1 [Q3 [Q5 _]]]]]; [exact Q3|injection Q3 as <- <-; lia]].
      cbn [loop_post]. split; [exact Q1|]. split; [lia|]. split; [inversion Q2; assumption|]. assert (length (c :: r2) <= length text)%nat by (destruct Q3 as [Q3|[c1 [r1 [Q3 [_ Q6]]]]]; [lia|exact Q6]). cbn [length] in *. split; lia. }
  destruct rest as [|c r] eqn:Er.
  - cbn [obind]. apply (K tn1 []); [exact Ct1|constructor| |lia]. left. destruct P as [P|[c [r [P _]]]]; [exact P|discriminate].
  - destruct ((c =? 60) || (c =? 62)) eqn:D.
    + assert (Zc : zlen (c :: r) = 1 + zlen r) by (unfold zlen; cbn [length]; lia). pose proof (zlen_nonneg _ r) as Zr3. change (zlen (c :: r)) with (zlen (c :: r)) in Zr. rewrite strcat_ok by (change (zlen [c]) with 1; lia). cbn [obind].
      inversion Cr as [|? ? Hc Cr2]; subst. apply (K (tn1 ++ [c]) r); [apply c_app; split; [exact Ct1|constructor; [exact Hc|constructor]]|exact Cr2|left; cbn [length] in Ln; lia|]. rewrite zlen_app. change (zlen [c]) with 1. lia.
    + cbn [obind]. apply (K tn1 (c :: r)); [exact Ct1|exact Cr| |lia]. destruct P as [P|[c1 [r1 [P1 P2]]]]; [left; exact P|]. injection P1 as <- <-. right. exists c, r. split; [reflexivity|]. split; [lia|]. lia.
Qed.
Lemma name_defined : forall d t, text_ok t -> defined (db_GetName d t) /\ forall x, db_GetName d t = Ok x -> zlen (n_text (fst x)) <= zlen t /\ c_string (n_text (fst x)).
Proof.
  intros d t Ht. unfold db_GetName, GetName. destruct (text_hash t Ht) as [Hh _]. rewrite Hh. cbn [obind]. pose proof (zlen_nonneg _ t).
  destruct (hash32 t 0 =? 0); cbn [obind]; [split; [split; discriminate|]; intros x [= <-]; split; [exact H|constructor]|].
  destruct (m_find (hash32 t 0) (d_names d)) as [nm|]; cbn [obind]; [|split; [split; discriminate|]; intros x [= <-]; cbn [fst n_text]; split; [lia|apply Ht]].
  destruct (list_eqb (n_text nm) t) eqn:E; cbn [assert obind]; [|split; [split; discriminate|discriminate]]. split; [split; discriminate|]. intros x [= <-]. cbn [fst]. apply list_eqb_eq in E. rewrite E. split; [lia|apply Ht].
Qed.
Definition small (f : field) : Prop := c_string (n_text (f_type f)) /\ zlen (n_text (f_type f)) < 1024.
Lemma small_ok : forall f, small f -> field_ok f.
Proof.
  intros f [H1 H2]. unfold field_ok, spelled, text_ok. rewrite !c_app, !zlen_app. split.
  - split; [destruct (q_const _); vm_compute; repeat (constructor; [split; reflexivity|]); constructor|]. split; [exact H1|]. destruct (q_op _); vm_compute; repeat (constructor; [split; reflexivity|]); constructor.
  - assert (zlen (if q_const (f_qual f) then str "const " else []) <= 6) by (destruct (q_const _); vm_compute; discriminate). assert (zlen (match q_op (f_qual f) with POINTER => str "*" | REFERENCE => str "&" | VALUE => [] end) <= 1) by (destruct (q_op _); vm_compute; discriminate). lia.
Qed.
Lemma params_defined : forall fuel d text stop acc, (length text < fuel)%nat -> c_string text -> 9 * zlen text < 7 * 1024 -> Forall small acc ->
  defined (parameters_loop fuel d text stop acc) /\ forall x, parameters_loop fuel d text stop acc = Ok x -> Forall small (fst x).
Proof.
  induction fuel as [|fuel IH]; intros d text stop acc F C L HA; [lia|]. cbn [parameters_loop]. destruct (Nat.ltb_spec stop (length text)) as [S|S]; [|split; [split; discriminate|]; intros x [= <-]; exact HA].
  unfold MatchParameter. pose proof (loop_ok (Datatypes.S (length text)) text stop [] (mk_qual VALUE false) false (Nat.lt_succ_diag_r _) C (Forall_nil _)) as P. change (zlen []) with 0 in P. specialize (P ltac:(lia)).
  destruct (match_loop _ _ _ _ _ _) as [[[[t q] th] r]| | |]; cbn [loop_post] in P; try contradiction; [|cbn [obind]; split; [split; discriminate|discriminate]]. cbn [obind]. destruct P as [P1 [P2 [P3 [P4 P5]]]].
  destruct (name_defined d t) as [N1 N2]; [split; [exact P1|lia]|]. destruct (db_GetName d t) as [[x dn]| | |] eqn:G; cbn [obind]; [|split; [split; discriminate|discriminate]|destruct N1; congruence|destruct N1; congruence].
  specialize (N2 _ eq_refl). cbn [fst] in N2. assert (zlen r <= zlen text) by (unfold zlen; lia). apply IH; [lia|exact P3|lia|]. destruct (IsVoidParameter _); [exact HA|]. apply Forall_app. split; [exact HA|]. constructor; [|constructor]. split; cbn [f_type]; [tauto|cbn [fst]; destruct N2; lia].
Qed.
Lemma c_firstn : forall n s, c_string s -> c_string (firstn n s).
Proof. induction n as [|n IH]; intros [|c s] H; cbn [firstn]; try constructor; inversion H; subst; [assumption|apply IH; assumption]. Qed.
Lemma c_skipn : forall n s, c_string s -> c_string (skipn n s).
Proof. induction n as [|n IH]; intros [|c s] H; cbn [skipn]; try assumption. apply IH. inversion H; assumption. Qed.
Lemma part_len : forall n m (s : list Z), zlen (firstn n (skipn m s)) <= zlen s.
Proof. intros. unfold zlen. rewrite firstn_length, skipn_length. lia. Qed.
Lemma add_defined : forall d n s a this k, c_string s -> zlen s < 790 -> c_string n -> zlen n <= zlen s -> defined (AddFunctionAddress d n s a this k).
Proof.
  intros d n s a this k C L Cn Ln. pose proof (zlen_nonneg _ n) as Zn. unfold AddFunctionAddress. destruct (a =? 0); [split; discriminate|]. destruct (string_find s n 0) as [fp|]; [|split; discriminate]. destruct (string_find s (str "(") fp) as [lp|]; [|split; discriminate]. destruct (string_find s (str ")") lp) as [rp|]; [|split; discriminate].
  apply bind_defined.
  - destruct this; [|split; discriminate]. destruct (string_rfind n (str "::") None) as [p|] eqn:E; [|split; discriminate]. apply rfind_some in E. destruct E as [u [v [E1 [E2 _]]]]. assert (Zu : zlen n = zlen u + zlen (str "::" ++ v)) by (rewrite E1; apply zlen_app). pose proof (zlen_nonneg _ (str "::" ++ v)). assert (Zp : zlen u = Z.of_nat p) by (rewrite E2; reflexivity). destruct (Z.leb_spec 1024 (Z.of_nat p)); [lia|].
    apply bind_defined; [|intros x _; split; discriminate]. apply name_defined. split; [apply c_firstn; exact Cn|]. unfold zlen. rewrite firstn_length. unfold zlen in Zn, Ln, L. lia.
  - intros [[ps d1]|] E; [|split; discriminate].
    assert (HA : Forall small ps).
    { destruct this; [|injection E as <- <-; constructor]. destruct (string_rfind n (str "::") None) as [p|]; [|discriminate]. destruct (1024 <=? Z.of_nat p); [discriminate|]. destruct (name_defined d (firstn p n)) as [_ N2]; [split; [apply c_firstn; exact Cn|unfold zlen; rewrite firstn_length; unfold zlen in *; lia]|].
      destruct (db_GetName d (firstn p n)) as [[x dn]| | |] eqn:G; cbn [obind] in E; try discriminate. injection E as <- _. specialize (N2 _ eq_refl). cbn [fst] in N2. constructor; [|constructor]. split; cbn [f_type]; [tauto|]. unfold zlen in N2 at 2. rewrite firstn_length in N2. unfold zlen in *. lia. }
    assert (Cs : c_string (skipn (lp + 1) s)) by (apply c_skipn; exact C). assert (Zs : zlen (skipn (lp + 1) s) <= zlen s) by (unfold zlen; rewrite skipn_length; lia).
    destruct (params_defined (S (length (skipn (lp + 1) s))) d1 (skipn (lp + 1) s) (length s - rp) ps (Nat.lt_succ_diag_r _) Cs ltac:(lia) HA) as [D1 D2].
    apply bind_defined; [exact D1|]. intros [qs d2] E2. specialize (D2 _ E2). cbn [fst] in D2. destruct (C49_defined qs) as [uid [U _]]; [eapply Forall_impl; [apply small_ok|exact D2]|]. rewrite U. cbn [obind].
    destruct (text_hash n) as [Hh _]; [split; [exact Cn|lia]|]. rewrite Hh. cbn [obind]. destruct (set_address _ _ _ _); split; discriminate.
Qed.
Lemma type_defined : forall d n a b, c_string n -> zlen n < 2 ^ 31 -> defined (AddGetTypeAddress d n a b).
Proof.
  intros d n a b C L. unfold AddGetTypeAddress. destruct (a =? 0); [split; discriminate|]. destruct (string_find n (str "<") 0) as [p|]; [|split; discriminate]. cbn zeta. destruct (string_find n (str ">") _) as [e|]; [|split; discriminate].
  apply bind_defined; [apply name_defined; split; [apply c_firstn, c_skipn; exact C|]; pose proof (part_len (e - SkipTypePrefix n (p + 1)) (SkipTypePrefix n (p + 1)) n); lia|]. intros [x d1] _. destruct (n_hash x =? 0); split; discriminate.
Qed.
Lemma back_defined : forall s q p, nth_error s q = Some 40 -> (q <= p)%nat -> exists e, back_up s p = Ok e.
Proof.
  intros s q p H. induction p as [|p IH]; intros L.
  - assert (q = 0)%nat by lia. subst q. cbn [back_up]. rewrite H. eexists. reflexivity.
  - cbn [back_up]. destruct (nth_error s (S p)) as [c|] eqn:E; [|eexists; reflexivity]. destruct ((c =? 32) || (c =? 42)) eqn:F; [|eexists; reflexivity]. apply IH. destruct (Nat.eq_dec q (S p)) as [->|N]; [rewrite H in E; injection E as <-; discriminate|lia].
Qed.
Lemma prefix_ge : forall s p, (p <= SkipTypePrefix s p)%nat.
Proof. intros s p. unfold SkipTypePrefix. repeat match goal with |- context [if ?b then _ else _] => destruct b end; lia. Qed.
Lemma class_defined : forall d s a c, c_string s -> zlen s < 2 ^ 30 -> defined (AddClassImplFunction d s a c).
Proof.
  intros d s a c C L. unfold AddClassImplFunction. destruct (a =? 0); [split; discriminate|]. destruct (string_find s (str "(") 0) as [p|] eqn:E1; [|split; discriminate]. cbn zeta. destruct (string_find s (str "*") _) as [q|] eqn:E2; [|split; discriminate].
  apply string_find_some in E1, E2. destruct E1 as [u [v [E1 [E3 _]]]]. destruct E2 as [u2 [v2 [_ [_ [E4 _]]]]]. pose proof (prefix_ge s (p + 1)) as PG.
  destruct (back_defined s p q) as [e He]; [rewrite E1, E3, nth_error_app2 by lia; rewrite Nat.sub_diag; reflexivity|lia|]. rewrite He. cbn [obind]. set (t := firstn _ _).
  assert (Ct : c_string t) by (apply c_firstn, c_skipn; exact C). assert (Lt : zlen t < 2 ^ 30) by (pose proof (part_len (S e - SkipTypePrefix s (p + 1)) (SkipTypePrefix s (p + 1)) s); unfold t; lia).
  destruct (name_defined d t) as [N1 N2]; [split; [exact Ct|lia]|]. apply bind_defined; [exact N1|]. intros [x1 d1] G1.
  apply bind_defined; [apply name_defined; split; [vm_compute; repeat (constructor; [split; reflexivity|]); constructor|vm_compute; reflexivity]|]. intros [x2 d2] _.
  apply bind_defined; [apply name_defined; split; [apply c_app; split; [exact Ct|destruct c; vm_compute; repeat (constructor; [split; reflexivity|]); constructor]|]; rewrite zlen_app; assert (zlen (str "::" ++ (if c then str "ConstructObject" else str "DestructObject")) <= 17) by (destruct c; vm_compute; discriminate); lia|]. intros [x3 d3] _.
  specialize (N2 _ G1). cbn [fst] in N2. destruct (C49_defined [mk_field (mk_prim x2 x3) x1 (mk_qual POINTER false) 0 0]) as [uid [U _]].
  { constructor; [|constructor]. unfold field_ok, spelled. cbn [f_qual q_const q_op f_type app]. split; [apply c_app; split; [tauto|constructor; [split; reflexivity|constructor]]|]. rewrite zlen_app. change (zlen (str "*")) with 1. lia. }
  rewrite U. cbn [obind]. unfold db_add. apply bind_defined; [apply bind_defined; [destruct (negb _); split; discriminate|intros; split; discriminate]|]. intros fs _. apply bind_defined; [apply bind_defined; [destruct (negb _); split; discriminate|intros; split; discriminate]|]. intros fn _. split; discriminate.
Qed.
Lemma process_defined : forall rnd d s a, (forall k, 0 <= rnd k < 10) -> closers_ok s -> c_string s -> zlen s < 790 -> defined (ProcessFunctionItem rnd d s a).
Proof.
  intros rnd d s a Hr K C L. unfold ProcessFunctionItem. destruct (parse_ok rnd s Hr K) as [u [n [v [P [E _]]]]]; [lia|]. rewrite P. cbn [obind].
  assert (Cn : c_string n) by (pose proof C as X; rewrite E in X; apply c_app in X; destruct X as [_ X]; apply c_app in X; tauto).
  assert (Ln : zlen n <= zlen s) by (rewrite E, !zlen_app; pose proof (zlen_nonneg _ u); pose proof (zlen_nonneg _ v); lia).
  destruct (zlen n =? 0); [split; discriminate|]. destruct (IsConstructFunction n); [apply class_defined; [exact C|lia]|]. destruct (IsDestructFunction n); [apply class_defined; [exact C|lia]|].
  destruct (IsGetTypeFunction n); [apply type_defined; [exact Cn|lia]|]. destruct (IsGetTypeNameHashFunction n); [apply type_defined; [exact Cn|lia]|].
  destruct (text_hash n) as [Hh _]; [split; [exact Cn|lia]|]. rewrite Hh. cbn [obind]. destruct (m_find _ _); [|split; discriminate]. cbn zeta.
  apply bind_defined; [apply add_defined; assumption|]. intros [[|] d1] _; cbn [fst snd]; [split; discriminate|]. apply bind_defined; [apply add_defined; assumption|]. intros y _. split; discriminate.
Qed.
Lemma lines_defined : forall scan_symbol scan_text demangle rnd ls n d b, (forall i j, 0 <= rnd i j < 10) ->
  (forall l a symbol, In l ls -> scan_symbol l = Some (a, symbol) -> zlen symbol < 1024 /\ (forall s, demangle symbol = Some s -> closers_ok s /\ c_string s /\ zlen s < 790)) ->
  defined (linux_lines scan_symbol scan_text demangle rnd n ls true d b).
Proof.
  intros ss st dm rnd. induction ls as [|l ls IH]; intros n d b Hr H; cbn [linux_lines]; [split; discriminate|]. apply bind_defined; [|intros d1 _; apply IH; [exact Hr|intros l2 a symbol Hl; apply (H l2 a symbol); right; exact Hl]].
  unfold symbol_line. destruct (ss l) as [[a symbol]|] eqn:E; [|split; discriminate]. destruct (H l a symbol (or_introl eq_refl) E) as [H1 H2]. destruct (Z.leb_spec 1024 (zlen symbol)); [lia|]. destruct symbol as [|c symbol]; [split; discriminate|]. destruct (c =? 95); [|split; discriminate].
  destruct (dm (c :: symbol)) as [s|]; [|split; discriminate]. destruct (has s (str " for ")); [split; discriminate|]. destruct (H2 s eq_refl) as [H3 [H4 H5]]. apply process_defined; auto.
Qed.
