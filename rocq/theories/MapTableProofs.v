(* What one symbol does to the tables, generated class functions, GetType, whole maps: the proofs behind MapFileProps. *)
From Verif Require Import Base BaseProofs Text HashModel HashSpec Maps FileUtilsModel FileUtilsSpec FileUtilsProofs DatabaseModel NamesProofs NamesProps MapFileModel MapFileSpec MapNameProofs MapNestProofs MapParamProofs.

(* ---- frame ---- *)
Definition same_tables (d d' : mapdb) : Prop := d_functions d' = d_functions d /\ d_fields d' = d_fields d /\ d_gettype d' = d_gettype d.
Inductive touched (a : Z) (d d' : mapdb) : Prop :=
| touched_not : same_tables d d' -> touched a d d'
| touched_address : forall h uid, a <> 0 -> addressed h uid a (d_functions d) (d_functions d') -> d_fields d' = d_fields d -> d_gettype d' = d_gettype d -> touched a d d'
| touched_type : forall h e, a <> 0 -> d_functions d' = d_functions d -> d_fields d' = d_fields d -> d_gettype d' = m_set h e (d_gettype d) ->
    (let old := match m_find h (d_gettype d) with Some x => x | None => (0, 0) end in e = (fst old, u32 a) \/ e = (u32 a, snd old)) -> touched a d d'
| touched_class : forall h f h2 p, a <> 0 -> fn_address f = a -> added (h, f) (d_functions d) (d_functions d') -> added (h2, p) (d_fields d) (d_fields d') -> d_gettype d' = d_gettype d -> touched a d d'.
Lemma same_trans : forall a b c, same_tables a b -> same_tables b c -> same_tables a c.
Proof. intros a b c [H1 [H2 H3]] [K1 [K2 K3]]. unfold same_tables. rewrite K1, K2, K3, H1, H2, H3. auto. Qed.
Lemma same_refl : forall a, same_tables a a. Proof. intros a. unfold same_tables. auto. Qed.
Lemma get_name_same : forall d t x, db_GetName d t = Ok x -> same_tables d (snd x).
Proof. intros d t x H. unfold db_GetName in H. destruct (GetName (d_names d) (Some t)) as [y| | |]; try discriminate. cbn [obind] in H. injection H as <-. unfold same_tables; cbn; auto. Qed.
Lemma touched_same : forall a d d1 d', same_tables d d1 -> touched a d1 d' -> touched a d d'.
Proof.
  intros a d d1 d' [S1 [S2 S3]] H. destruct H as [[T1 [T2 T3]]|h uid Ha H1 H2 H3|h e Ha H1 H2 H3 H4|h f h2 p Ha H0 H1 H2 H3]; rewrite ?S1, ?S2, ?S3 in *.
  - apply touched_not. unfold same_tables. auto.
  - apply (touched_address a d d' h uid); assumption.
  - apply (touched_type a d d' h e); assumption.
  - apply (touched_class a d d' h f h2 p); assumption.
Qed.
Lemma params_same : forall fuel d text stop acc x, parameters_loop fuel d text stop acc = Ok x -> same_tables d (snd x).
Proof.
  induction fuel as [|fuel IH]; intros d text stop acc x H; cbn [parameters_loop] in H; [discriminate|]. destruct (stop <? length text)%nat; [|injection H as <-; apply same_refl].
  destruct (MatchParameter d text stop) as [[[[p b] rest] d1]| | |] eqn:E; try discriminate. cbn [obind] in H. apply IH in H. apply (same_trans _ d1); [|exact H].
  unfold MatchParameter in E. destruct (match_loop _ _ _ _ _ _) as [[[[t q] th] r]| | |]; try discriminate. cbn [obind] in E. destruct (db_GetName d t) as [y| | |] eqn:G; try discriminate. cbn [obind] in E. injection E as _ _ _ <-. apply (get_name_same _ _ _ G).
Qed.
Lemma add_touched : forall d n s a this k x, AddFunctionAddress d n s a this k = Ok x -> if fst x then touched a d (snd x) else same_tables d (snd x).
Proof.
  intros d n s a this k x H. unfold AddFunctionAddress in H. destruct (Z.eqb_spec a 0) as [->|Ha]; [injection H as <-; apply same_refl|].
  destruct (string_find s n 0); [|injection H as <-; apply same_refl]. destruct (string_find s (str "(") n0); [|injection H as <-; apply same_refl]. destruct (string_find s (str ")") n1); [|injection H as <-; apply same_refl].
  match type of H with obind ?T _ = _ => destruct T as [[[ps d1]|]| | |] eqn:ET end; cbn [obind] in H; try discriminate; [|injection H as <-; apply same_refl].
  assert (S1 : same_tables d d1).
  { destruct this; [|injection ET as <- <-; apply same_refl]. destruct (string_rfind n (str "::") None); [|discriminate]. destruct (1024 <=? Z.of_nat n3); [discriminate|].
    destruct (db_GetName d (firstn n3 n)) as [y| | |] eqn:G; try discriminate. cbn [obind] in ET. injection ET as _ <-. apply (get_name_same _ _ _ G). }
  match type of H with obind ?T _ = _ => destruct T as [[qs d2]| | |] eqn:EP end; cbn [obind] in H; try discriminate. apply params_same in EP. cbn [snd] in EP.
  destruct (CalculateFunctionUniqueID qs) as [uid| | |]; cbn [obind] in H; try discriminate. destruct (HashNameString (n ++ [0]) 0) as [hash| | |]; cbn [obind] in H; try discriminate.
  destruct (set_address hash uid a (d_functions d2)) as [m|] eqn:SA; injection H as <-; cbn [fst snd].
  - apply (touched_same a d d2); [apply (same_trans _ d1); assumption|]. apply (touched_address a d2 _ hash uid); try reflexivity; [exact Ha|]. apply set_address_some. exact SA.
  - apply (same_trans _ d1); assumption.
Qed.
Lemma mm_added : forall T k (v : T) m, added (k, v) m (mm_insert k v m).
Proof.
  induction m as [|[k2 v2] m IH]; cbn [mm_insert]; [exists [], []; auto|]. destruct (k2 <=? k); [|exists [], ((k2, v2) :: m); auto].
  destruct IH as [pre [post [E1 E2]]]. exists ((k2, v2) :: pre), post. rewrite E1 at 1. rewrite E2. auto.
Qed.
Lemma class_touched : forall d s a c d', AddClassImplFunction d s a c = Ok d' -> touched a d d'.
Proof.
  intros d s a c d' H. unfold AddClassImplFunction in H. destruct (Z.eqb_spec a 0) as [->|Ha]; [injection H as <-; apply touched_not, same_refl|].
  destruct (string_find s (str "(") 0) as [p|]; [|injection H as <-; apply touched_not, same_refl]. destruct (string_find s (str "*") _) as [q|]; [|injection H as <-; apply touched_not, same_refl].
  destruct (back_up s q) as [e| | |]; cbn [obind] in H; try discriminate.
  destruct (db_GetName d _) as [[x1 d1]| | |] eqn:G1; cbn [obind] in H; try discriminate. destruct (db_GetName d1 _) as [[x2 d2]| | |] eqn:G2; cbn [obind] in H; try discriminate. destruct (db_GetName d2 _) as [[x3 d3]| | |] eqn:G3; cbn [obind] in H; try discriminate.
  destruct (CalculateFunctionUniqueID _) as [uid| | |]; cbn [obind] in H; try discriminate. unfold db_add in H. destruct (negb (n_hash x2 =? 0)); cbn [assert obind] in H; try discriminate. destruct (negb (n_hash x3 =? 0)); cbn [assert obind] in H; try discriminate. injection H as <-.
  apply get_name_same in G1, G2, G3. cbn [snd] in *. apply (touched_same a d d3); [apply (same_trans _ d2); [apply (same_trans _ d1)|]; assumption|].
  eapply touched_class; [exact Ha| | | |]; [|apply mm_added|apply mm_added|reflexivity]. reflexivity.
Qed.
Lemma type_touched : forall d n a b d', AddGetTypeAddress d n a b = Ok d' -> touched a d d'.
Proof.
  intros d n a b d' H. unfold AddGetTypeAddress in H. destruct (Z.eqb_spec a 0) as [->|Ha]; [injection H as <-; apply touched_not, same_refl|].
  destruct (string_find n (str "<") 0) as [p|]; [|injection H as <-; apply touched_not, same_refl]. destruct (string_find n (str ">") _) as [q|]; [|injection H as <-; apply touched_not, same_refl].
  destruct (db_GetName d _) as [[x1 d1]| | |] eqn:G1; cbn [obind] in H; try discriminate. apply get_name_same in G1. cbn [snd] in G1. destruct (n_hash x1 =? 0); injection H as <-; [apply touched_not; exact G1|].
  apply (touched_same a d d1 _ G1). eapply touched_type; [exact Ha|reflexivity|reflexivity|reflexivity|]. cbn zeta. destruct b; [left|right]; reflexivity.
Qed.
Lemma process_touched : forall rnd d s a d', ProcessFunctionItem rnd d s a = Ok d' -> touched a d d'.
Proof.
  intros rnd d s a d' H. unfold ProcessFunctionItem in H. destruct (ParseFunctionName rnd s) as [n| | |]; cbn [obind] in H; try discriminate.
  destruct (zlen n =? 0); [injection H as <-; apply touched_not, same_refl|]. destruct (IsConstructFunction n); [apply class_touched in H; exact H|]. destruct (IsDestructFunction n); [apply class_touched in H; exact H|].
  destruct (IsGetTypeFunction n); [apply type_touched in H; exact H|]. destruct (IsGetTypeNameHashFunction n); [apply type_touched in H; exact H|].
  destruct (HashNameString (n ++ [0]) 0) as [h| | |]; cbn [obind] in H; try discriminate. destruct (m_find h (d_functions d)); [|injection H as <-; apply touched_not, same_refl]. cbn zeta in H.
  destruct (AddFunctionAddress d n s a true _) as [[b1 d1]| | |] eqn:E1; cbn [obind fst snd] in H; try discriminate. apply add_touched in E1. cbn [fst snd] in E1. destruct b1; [injection H as <-; exact E1|].
  destruct (AddFunctionAddress d1 n s a false _) as [[b2 d2]| | |] eqn:E2; cbn [obind fst snd] in H; try discriminate. injection H as <-. apply add_touched in E2. cbn [fst snd] in E2. apply (touched_same a d d1 _ E1). destruct b2; [exact E2|apply touched_not; exact E2].
Qed.

(* ---- generated constructors and destructors ---- *)
Lemma skip_prefix_none : forall u t, (forall r, t <> str "struct " ++ r) -> (forall r, t <> str "class " ++ r) -> (forall r, t <> str "enum " ++ r) -> SkipTypePrefix (u ++ t) (length u) = length u.
Proof.
  intros u t H1 H2 H3. assert (P : forall p, (forall r, t <> p ++ r) -> is_prefix p t = false) by (intros p H; destruct (is_prefix p t) eqn:E; [apply is_prefix_spec in E; destruct E as [r E]; exfalso; apply (H r E)|reflexivity]).
  unfold SkipTypePrefix. rewrite skipn_app_exact', (P _ H1), skipn_app_exact', (P _ H2), skipn_app_exact', (P _ H3). reflexivity.
Qed.
Lemma prefix_longer : forall (t p rest r : list Z) c, t ++ c :: rest = p ++ r -> ~ In c p -> exists r', t = p ++ r'.
Proof. intros t p rest r c E N. destruct (prefix_cut p t c rest r E N) as [a' [E2 _]]. exists a'. exact E2. Qed.
Lemma back_up_stop : forall s t u rest, s = u ++ t ++ 42 :: rest -> t <> [] -> last t 0 <> 32 -> last t 0 <> 42 -> back_up s (length u + length t) = Ok (length u + length t - 1)%nat.
Proof.
  intros s t u rest E N L1 L2. destruct (exists_last N) as [t' [z ->]]. rewrite last_last in *. rewrite app_length. cbn [length]. replace (length u + (length t' + 1))%nat with (S (length u + length t')) by lia.
  assert (X1 : nth_error s (S (length u + length t')) = Some 42).
  { rewrite E. rewrite nth_error_app2 by lia. replace (S (length u + length t') - length u)%nat with (length (t' ++ [z])) by (rewrite app_length; cbn [length]; lia). rewrite nth_error_app2 by lia. rewrite Nat.sub_diag. reflexivity. }
  assert (X2 : nth_error s (length u + length t') = Some z).
  { rewrite E. rewrite nth_error_app2 by lia. replace (length u + length t' - length u)%nat with (length t') by lia. rewrite <- app_assoc. rewrite nth_error_app2 by lia. rewrite Nat.sub_diag. reflexivity. }
  replace (S (length u + length t') - 1)%nat with (length u + length t')%nat by lia.
  cbn [back_up]. rewrite X1. cbn [Z.eqb orb Pos.eqb]. assert (Y : forall p, nth_error s p = Some z -> back_up s p = Ok p).
  { intros p Hp. destruct p; cbn [back_up]; rewrite Hp, (proj2 (Z.eqb_neq _ _) L1), (proj2 (Z.eqb_neq _ _) L2); reflexivity. }
  apply Y. exact X2.
Qed.
Lemma process_class : forall rnd U d x t rest address (dtor : bool), (forall j, 0 <= rnd j < 10) ->
  let n := (if dtor then str "clcppDestructObject" else str "clcppConstructObject") ++ x in
  let s := n ++ str "(" ++ t ++ str "*" ++ rest in
  let f := t ++ str "::" ++ (if dtor then str "DestructObject" else str "ConstructObject") in
  closers_ok s -> zlen s < 3 * 10 ^ 8 -> ~ In 40 x -> ~ In 60 x -> ~ In 32 x -> (forall r, x <> r ++ [38]) -> pointee t -> address <> 0 ->
  told_apart U -> In t U -> In (str "this") U -> In f U -> names_of U (d_names d) ->
  let name_of := fun u => mk_name (hash32 u 0) u in
  exists m' fns fds, ProcessFunctionItem rnd d s address = Ok (mk_mapdb m' fns fds (d_gettype d)) /\ names_of U m' /\ names_kept (d_names d) m' /\
    added (hash32 f 0, mk_func (mk_prim (name_of f) (name_of t)) (id_of [this_text t false]) address) (d_functions d) fns /\
    added (hash32 (str "this") 0, mk_field (mk_prim (name_of (str "this")) (name_of f)) (name_of t) (mk_qual POINTER false) 0 (id_of [this_text t false])) (d_fields d) fds.
Proof.
  intros rnd U d x t rest address dtor Hr n s f C L X40 X60 X32 X38 [T0 [T42 [T41 [T40 [Th [Tl [TS [TC TE]]]]]]]] Ha TA Ut Uth Uf N name_of.
  assert (Nn : forall c, In c n -> In c x \/ (c <> 40 /\ c <> 60 /\ c <> 32)).
  { intros c Hc. unfold n in Hc. apply in_app_iff in Hc. destruct Hc as [Hc|Hc]; [right|left; exact Hc]. destruct dtor; vm_compute in Hc; repeat destruct Hc as [<-|Hc]; try (repeat split; discriminate); destruct Hc. }
  assert (N40 : ~ In 40 n) by (intros Q; apply Nn in Q; tauto).
  assert (P : ParseFunctionName rnd s = Ok n).
  { apply (parse_plain rnd [] n (t ++ str "*" ++ rest) Hr C L); cbn [app].
    - left; reflexivity.
    - intros r E. destruct r; discriminate.
    - exact N40.
    - intros Q; apply Nn in Q; tauto.
    - intros Q; apply Nn in Q; tauto.
    - intros r E. destruct x as [|z x'] using rev_ind.
      + unfold n in E. rewrite app_nil_r in E. destruct dtor.
        * change (str "clcppDestructObject") with (str "clcppDestructObjec" ++ [116]) in E. apply app_inj_tail in E. destruct E. discriminate.
        * change (str "clcppConstructObject") with (str "clcppConstructObjec" ++ [116]) in E. apply app_inj_tail in E. destruct E. discriminate.
      + clear IHx'. unfold n in E. rewrite app_assoc in E. apply app_inj_tail in E. destruct E as [_ E]. subst z. apply (X38 x'). reflexivity.
    - intros r E. destruct t as [|z t]; [congruence|]. apply (f_equal (hd 0)) in E. cbn in E. apply T42. left. exact E.
    - intros r E. destruct (prefix_longer t (str "anonymous namespace)") rest r 42 E) as [r' E2]; [vm_compute; intuition discriminate|]. apply T41. rewrite E2. apply in_or_app. left. vm_compute. auto 30. }
  assert (D : ProcessFunctionItem rnd d s address = AddClassImplFunction d s address (negb dtor)).
  { unfold ProcessFunctionItem. rewrite P. cbn [obind]. replace (zlen n =? 0) with false by (symmetry; apply Z.eqb_neq; unfold n; rewrite zlen_app3; pose proof (zlen_nonneg _ x); destruct dtor; [change (zlen (str "clcppDestructObject")) with 19|change (zlen (str "clcppConstructObject")) with 20]; lia).
    unfold n. destruct dtor; cbn [negb].
    - unfold IsConstructFunction. rewrite startswith_false by (intros r E; discriminate). unfold IsDestructFunction, startswith. rewrite find_prefix. reflexivity.
    - unfold IsConstructFunction, startswith. rewrite find_prefix. reflexivity. }
  rewrite D. clear D. set (u := n ++ [40]).
  assert (Es : s = u ++ t ++ 42 :: rest) by (unfold s, u; rewrite <- app_assoc; reflexivity).
  assert (F1 : string_find s (str "(") 0 = Some (length n)) by (unfold s; apply (string_find_char 40 [] n); exact N40).
  assert (F2 : SkipTypePrefix s (length n + 1) = length u).
  { rewrite Es. replace (length n + 1)%nat with (length u) by (unfold u; rewrite app_length; reflexivity).
    assert (G : forall p, ~ In 42 p -> (forall r, t <> p ++ r) -> forall r, t ++ 42 :: rest <> p ++ r) by (intros p Np Hp r E; destruct (prefix_longer t p rest r 42 E Np) as [r' E2]; apply (Hp r' E2)).
    apply skip_prefix_none; apply G; try assumption; vm_compute; intuition discriminate. }
  assert (F3 : string_find s (str "*") (length u) = Some (length u + length t)%nat) by (rewrite Es; apply (string_find_char 42 u t rest); exact T42).
  assert (Lt : last t 0 <> 42) by (destruct (exists_last T0) as [t' [z ->]]; rewrite last_last; intros ->; apply T42; apply in_or_app; right; left; reflexivity).
  unfold AddClassImplFunction. rewrite (proj2 (Z.eqb_neq _ _) Ha), F1. cbn zeta. rewrite F2, F3, (back_up_stop s t u rest Es T0 Tl Lt). cbn [obind].
  assert (F4 : firstn (S (length u + length t - 1) - length u) (skipn (length u) s) = t) by (rewrite Es, skipn_app_exact'; apply firstn_app_exact'; destruct t; [congruence|cbn [length]; lia]).
  rewrite F4. destruct (db_known U d t TA N Ut) as [m1 [E1 [N1 K1]]]. rewrite E1. cbn [obind].
  destruct (db_known U (set_names m1 d) (str "this") TA N1 Uth) as [m2 [E2 [N2 K2]]]. rewrite E2. cbn [obind].
  assert (Ef : t ++ str "::" ++ (if negb dtor then str "ConstructObject" else str "DestructObject") = f) by (unfold f; destruct dtor; reflexivity). rewrite Ef.
  destruct (db_known U (set_names m2 (set_names m1 d)) f TA N2 Uf) as [m3 [E3 [N3 K3]]]. rewrite E3. cbn [obind].
  assert (TT : text_ok (this_text t false)).
  { destruct TA as [T1 _]; destruct (T1 t Ut) as [C1 [C2 _]]; destruct (T1 f Uf) as [_ [C3 _]]; split; [unfold c_string, this_text; cbn [app]; apply Forall_app; split; [exact C1|constructor; [split; reflexivity|constructor]]|].
    unfold this_text; cbn [app]; rewrite zlen_app3; change (zlen (str "*")) with 1; unfold f in C3; rewrite !zlen_app3 in C3; change (zlen (str "::")) with 2 in C3; pose proof (zlen_nonneg _ (if dtor then str "DestructObject" else str "ConstructObject")); lia. }
  rewrite (uid_of _ [this_text t false]); [|reflexivity|constructor; [exact TT|constructor]]. cbn [obind].
  unfold db_add. cbn [n_hash]. destruct TA as [T1 T2]. destruct (T1 _ Uth) as [_ [_ Z1]]. destruct (T1 _ Uf) as [_ [_ Z2]]. rewrite (proj2 (Z.eqb_neq _ _) Z1), (proj2 (Z.eqb_neq _ _) Z2). cbn [negb assert obind].
  eexists. eexists. eexists. split; [reflexivity|]. split; [exact N3|]. split; [apply (kept_trans _ m1); [exact K1|apply (kept_trans _ m2); assumption]|]. split; apply mm_added.
Qed.

(* ---- GetType and GetTypeNameHash ---- *)
Lemma process_type : forall rnd U d ret t R address (by_name : bool), (forall j, 0 <= rnd j < 10) ->
  let n := (if by_name then str "clcpp::GetTypeNameHash" else str "clcpp::GetType") ++ str "<" ++ t ++ str ">" in
  let s := ret ++ n ++ str "(" ++ R in
  closers_ok s -> zlen s < 3 * 10 ^ 8 -> ret = [] \/ (exists r, ret = r ++ [32]) -> (forall r, ret <> r ++ str "operator ") -> flat ret -> flat t ->
  (forall r, t <> str "struct " ++ r) -> (forall r, t <> str "class " ++ r) -> (forall r, t <> str "enum " ++ r) ->
  ~ In 60 R -> ~ In 40 R -> (forall r, R <> str "anonymous namespace)" ++ r) -> address <> 0 ->
  told_apart U -> In t U -> names_of U (d_names d) -> ssorted (keys (d_gettype d)) ->
  exists m' ts, ProcessFunctionItem rnd d s address = Ok (mk_mapdb m' (d_functions d) (d_fields d) ts) /\ names_of U m' /\ names_kept (d_names d) m' /\
    (let old := match m_find (hash32 t 0) (d_gettype d) with Some e => e | None => (0, 0) end in
     m_find (hash32 t 0) ts = Some (if by_name then (u32 address, snd old) else (fst old, u32 address))) /\
    (forall h, h <> hash32 t 0 -> m_find h ts = m_find h (d_gettype d)).
Proof.
  intros rnd U d ret t R address by_name Hr n s C L HR NO Fr Ft TS TC TE R60 R40 RA Ha TA Ut N SG.
  set (na := if by_name then str "clcpp::GetTypeNameHash" else str "clcpp::GetType") in *.
  assert (Fa : flat na /\ ~ In 32 na) by (unfold na, flat; destruct by_name; vm_compute; intuition discriminate).
  assert (P : ParseFunctionName rnd s = Ok n).
  { unfold s, n. apply (parse_nested rnd ret na t [] R Hr); try assumption; try apply Fa.
    - apply nested_flat. exact Ft.
    - unfold flat. cbn. auto.
    - intros [].
    - intros r E. destruct r; discriminate. }
  assert (D : ProcessFunctionItem rnd d s address = AddGetTypeAddress d n address (negb by_name)).
  { unfold ProcessFunctionItem. rewrite P. cbn [obind]. assert (Zn : zlen n <> 0) by (unfold n; rewrite (zlen_app3 na), (zlen_app3 (str "<")); change (zlen (str "<")) with 1; pose proof (zlen_nonneg _ na); pose proof (zlen_nonneg _ (t ++ str ">")); lia).
    rewrite (proj2 (Z.eqb_neq _ _) Zn).
    unfold IsConstructFunction, IsDestructFunction. rewrite !startswith_false by (intros r E; unfold n, na in E; destruct by_name; discriminate).
    unfold n, na. destruct by_name; cbn [negb].
    - unfold IsGetTypeFunction. rewrite startswith_false by (intros r E; discriminate). unfold IsGetTypeNameHashFunction, startswith.
      change (str "clcpp::GetTypeNameHash" ++ str "<" ++ t ++ str ">") with (str "clcpp::GetTypeNameHash<" ++ t ++ str ">"). rewrite find_prefix. reflexivity.
    - unfold IsGetTypeFunction, startswith. change (str "clcpp::GetType" ++ str "<" ++ t ++ str ">") with (str "clcpp::GetType<" ++ t ++ str ">"). rewrite find_prefix. reflexivity. }
  rewrite D. clear D. unfold AddGetTypeAddress. rewrite (proj2 (Z.eqb_neq _ _) Ha).
  assert (F1 : string_find n (str "<") 0 = Some (length na)) by (apply (string_find_char 60 [] na); apply Fa). rewrite F1. cbn zeta. set (u := na ++ [60]).
  assert (En : n = u ++ t ++ [62]) by (unfold n, u; rewrite <- app_assoc; reflexivity).
  assert (F2 : SkipTypePrefix n (length na + 1) = length u).
  { rewrite En. replace (length na + 1)%nat with (length u) by (unfold u; rewrite app_length; reflexivity).
    assert (G : forall p, ~ In 62 p -> (forall r, t <> p ++ r) -> forall r, t ++ [62] <> p ++ r) by (intros p Np Hp r E; destruct (prefix_longer t p [] r 62 E Np) as [r' E2]; apply (Hp r' E2)).
    apply skip_prefix_none; apply G; try assumption; vm_compute; intuition discriminate. }
  assert (F3 : string_find n (str ">") (length u) = Some (length u + length t)%nat) by (rewrite En; apply (string_find_char 62 u t []); apply Ft). rewrite F2, F3.
  assert (F4 : firstn (length u + length t - length u) (skipn (length u) n) = t) by (rewrite En, skipn_app_exact'; apply firstn_app_exact'; lia). rewrite F4.
  destruct (db_known U d t TA N Ut) as [m1 [E1 [N1 K1]]]. rewrite E1. cbn [obind n_hash]. destruct TA as [T1 _]. destruct (T1 t Ut) as [_ [_ Z1]]. rewrite (proj2 (Z.eqb_neq _ _) Z1).
  cbn [set_names d_gettype d_functions d_fields d_names]. eexists. eexists. split; [reflexivity|]. split; [exact N1|]. split; [exact K1|]. split.
  - rewrite m_find_set by exact SG. rewrite Z.eqb_refl. destruct by_name; reflexivity.
  - intros h Hh. rewrite m_find_set by exact SG. destruct (Z.eqb_spec (hash32 t 0) h) as [Q|Q]; [congruence|reflexivity].
Qed.

(* ---- whole maps ---- *)
Section Lines.
Variables (scan_symbol : list Z -> option (Z * list Z)) (scan_text : list Z -> option Z) (demangle : list Z -> option (list Z)).
Variable rnd : nat -> nat -> Z.
Definition section_line (l : list Z) : Prop := (exists r, l = str ".text" ++ r) /\ scan_text l <> None.
Lemma startswith_true : forall n p, startswith n p = true <-> exists r, n = p ++ r.
Proof.
  intros n p. split.
  - unfold startswith. intros H. destruct (string_find n p 0) as [[|q]|] eqn:E; try discriminate. apply string_find_some in E. destruct E as [a [b [E [La _]]]]. destruct a; [|discriminate]. exists b. exact E.
  - intros [r ->]. unfold startswith. rewrite find_prefix. reflexivity.
Qed.
Lemma section_dec : forall l, section_line l \/ ~ section_line l.
Proof.
  intros l. destruct (startswith l (str ".text")) eqn:E.
  - apply startswith_true in E. destruct (scan_text l) eqn:F; [left; split; [exact E|congruence]|right; intros [_ X]; congruence].
  - right. intros [X _]. apply startswith_true in X. congruence.
Qed.
Lemma before_section : forall before n d b rest, Forall (fun l => ~ section_line l) before -> linux_lines scan_symbol scan_text demangle rnd n (before ++ rest) false d b = linux_lines scan_symbol scan_text demangle rnd (n + length before) rest false d b.
Proof.
  induction before as [|l before IH]; intros n d b rest H; cbn [app length]; [rewrite Nat.add_0_r; reflexivity|]. inversion H; subst. cbn [linux_lines]. rewrite Nat.add_succ_r, <- Nat.add_succ_l.
  destruct (startswith l (str ".text")) eqn:E; [|apply IH; assumption]. destruct (scan_text l) as [x|] eqn:F; [|apply IH; assumption]. exfalso. apply H2. split; [apply startswith_true; exact E|congruence].
Qed.
(* one line behind the section's: what it does, and where the address comes from *)
Inductive line_read (d : mapdb) (l : list Z) (d' : mapdb) : Prop :=
| line_ignored : d' = d -> line_read d l d'
| line_symbol : forall a symbol s r, scan_symbol l = Some (a, symbol) -> demangle symbol = Some s -> ProcessFunctionItem r d s a = Ok d' -> line_read d l d'.
Inductive lines_read : mapdb -> list (list Z) -> mapdb -> Prop :=
| lines_none : forall d, lines_read d [] d
| lines_more : forall d l d1 ls d', line_read d l d1 -> lines_read d1 ls d' -> lines_read d (l :: ls) d'.
Lemma symbol_read : forall r d l d', symbol_line scan_symbol demangle r d l = Ok d' -> line_read d l d'.
Proof.
  intros r d l d' H. unfold symbol_line in H. destruct (scan_symbol l) as [[a symbol]|] eqn:E; [|injection H as <-; apply line_ignored; reflexivity]. destruct (1024 <=? zlen symbol); [discriminate|].
  destruct symbol as [|c symbol]; [injection H as <-; apply line_ignored; reflexivity|]. destruct (c =? 95); [|injection H as <-; apply line_ignored; reflexivity].
  destruct (demangle (c :: symbol)) as [s|] eqn:D; [|injection H as <-; apply line_ignored; reflexivity]. destruct (has s (str " for ")); [injection H as <-; apply line_ignored; reflexivity|].
  apply (line_symbol d l d' a (c :: symbol) s r E D H).
Qed.
Lemma after_section : forall ls n d b x, linux_lines scan_symbol scan_text demangle rnd n ls true d b = Ok x -> snd x = b /\ lines_read d ls (fst x).
Proof.
  induction ls as [|l ls IH]; intros n d b x H; cbn [linux_lines] in H; [injection H as <-; split; [reflexivity|constructor]|].
  destruct (symbol_line scan_symbol demangle (rnd n) d l) as [d1| | |] eqn:E; cbn [obind] in H; try discriminate. apply symbol_read in E. apply IH in H. destruct H as [H1 H2]. split; [exact H1|]. apply (lines_more d l d1); assumption.
Qed.
Lemma lines_length : forall f ls, lines f ls -> (length ls <= length f)%nat.
Proof. induction 1 as [|l r ls N H IH]; [cbn; lia|]. rewrite app_length. cbn [length]. lia. Qed.
Lemma find_section : forall ls, Forall (fun l => ~ section_line l) ls \/ exists before t after, ls = before ++ t :: after /\ Forall (fun l => ~ section_line l) before /\ section_line t.
Proof.
  induction ls as [|l ls IH]; [left; constructor|]. destruct (section_dec l) as [S|S]; [right; exists [], l, ls; split; [reflexivity|split; [constructor|exact S]]|].
  destruct IH as [IH|[before [t [after [-> [F St]]]]]]; [left; constructor; assumption|]. right. exists (l :: before), t, after. split; [reflexivity|]. split; [constructor; assumption|exact St].
Qed.
Lemma map_read : forall file first ls d, lines file (first :: ls) -> (exists r, firstn 4095 first = str "Archive member included because of file (symbol)" ++ r) ->
  (Forall (fun l => ~ section_line l) (map (firstn 4095) ls) -> ParseGCCMapFile scan_symbol scan_text demangle rnd file d = Ok (d, 0)) /\
  (forall before t after base, map (firstn 4095) ls = before ++ t :: after -> Forall (fun l => ~ section_line l) before -> (exists r, t = str ".text" ++ r) -> scan_text t = Some base ->
     forall x, ParseGCCMapFile scan_symbol scan_text demangle rnd file d = Ok x -> snd x = base /\ lines_read d after (fst x)).
Proof.
  intros file first ls d HL HF. remember (first :: ls) as fl eqn:Efl. destruct HL as [|l rest ls' N1 HL]; [discriminate|]. injection Efl as -> ->.
  assert (E : ParseGCCMapFile scan_symbol scan_text demangle rnd (first ++ 10 :: rest) d = linux_lines scan_symbol scan_text demangle rnd 0 (map (firstn 4095) ls) false d 0).
  { unfold ParseGCCMapFile, ReadLine. rewrite read_line_ok by exact N1. cbn [rev app length]. rewrite Nat.sub_0_r. apply startswith_true in HF. rewrite HF. pose proof (lines_length _ _ HL). rewrite (ReadLines_ok _ _ HL) by lia. reflexivity. }
  rewrite E. split.
  - intros F. rewrite <- (app_nil_r (map (firstn 4095) ls)), before_section by exact F. reflexivity.
  - intros before t after base EL F HT Hb x H. rewrite EL, before_section in H by exact F. cbn [linux_lines] in H. apply startswith_true in HT. rewrite HT, Hb in H. apply after_section in H. exact H.
Qed.
(* where addresses come from *)
Lemma added_In : forall T (e : T) l l' x, added e l l' -> (In x l' <-> x = e \/ In x l).
Proof. intros T e l l' x [pre [post [-> ->]]]. rewrite !in_app_iff. cbn [In]. intuition congruence. Qed.
Lemma addressed_In : forall h uid a l l', addressed h uid a l l' -> (forall k f, In (k, f) l' -> In (k, f) l \/ fn_address f = a) /\ (forall k f, In (k, f) l -> exists b, In (k, mk_func (fn_prim f) (fn_uid f) b) l').
Proof.
  intros h uid a l l' [pre [f [post [-> [Hu [-> _]]]]]]. split; intros k g H.
  - apply in_app_iff in H. cbn [In] in H. destruct H as [H|[H|H]]; [left; apply in_app_iff; auto|injection H as <- <-; right; reflexivity|left; apply in_app_iff; right; right; exact H].
  - apply in_app_iff in H. cbn [In] in H. destruct H as [H|[H|H]].
    + exists (fn_address g). apply in_app_iff. left. destruct g; exact H.
    + injection H as <- <-. exists a. apply in_app_iff. right. left. rewrite Hu. reflexivity.
    + exists (fn_address g). apply in_app_iff. right. right. destruct g; exact H.
Qed.
Lemma touched_functions : forall a d d', touched a d d' -> (forall k f, In (k, f) (d_functions d') -> In (k, f) (d_functions d) \/ fn_address f = a /\ a <> 0) /\ (forall k f, In (k, f) (d_functions d) -> exists b, In (k, mk_func (fn_prim f) (fn_uid f) b) (d_functions d')).
Proof.
  assert (Keep : forall (l : list (Z * function)) k f, In (k, f) l -> exists b, In (k, mk_func (fn_prim f) (fn_uid f) b) l) by (intros l k f H; exists (fn_address f); destruct f; exact H).
  intros a d d' [[S _]|h uid Ha H _ _|h e Ha H _ _ _|h f h2 p Ha Hf H _ _]; try rewrite S; try rewrite H.
  - split; [auto|apply Keep].
  - destruct (addressed_In _ _ _ _ _ H) as [A B]. split; [|exact B]. intros k f Hk. destruct (A k f Hk); auto.
  - split; [auto|apply Keep].
  - split; intros k g Hk.
    + apply (added_In _ _ _ _ _ H) in Hk. destruct Hk as [Hk|Hk]; [injection Hk as -> ->; auto|auto].
    + apply (Keep (d_functions d')). apply (added_In _ _ _ _ _ H). auto.
Qed.
Lemma lines_functions : forall d ls d', lines_read d ls d' ->
  (forall k f, In (k, f) (d_functions d') -> In (k, f) (d_functions d) \/ fn_address f <> 0 /\ exists l symbol, In l ls /\ scan_symbol l = Some (fn_address f, symbol)) /\
  (forall k f, In (k, f) (d_functions d) -> exists b, In (k, mk_func (fn_prim f) (fn_uid f) b) (d_functions d')).
Proof.
  induction 1 as [d|d l d1 ls d' HL HR [IH1 IH2]].
  - split; [auto|]. intros k f H. exists (fn_address f). destruct f; exact H.
  - destruct HL as [->|a symbol s r E1 E2 E3].
    + split; [|exact IH2]. intros k f H. destruct (IH1 k f H) as [Q|[Q [l2 [sy [Q2 Q3]]]]]; [auto|]. right. split; [exact Q|]. exists l2, sy. split; [right; exact Q2|exact Q3].
    + apply process_touched, touched_functions in E3. destruct E3 as [T1 T2]. split.
      * intros k f H. destruct (IH1 k f H) as [Q|[Q [l2 [sy [Q2 Q3]]]]]; [|right; split; [exact Q|exists l2, sy; split; [right; exact Q2|exact Q3]]].
        destruct (T1 k f Q) as [Y|[Y Y2]]; [auto|]. right. split; [congruence|]. exists l, symbol. split; [left; reflexivity|congruence].
      * intros k f H. destruct (T2 k f H) as [b Hb]. destruct (IH2 k _ Hb) as [b2 Hb2]. exists b2. exact Hb2.
Qed.
(* what symbols of plain functions do, one line after the other *)
Inductive plain_lines (U : list (list Z)) : list (list Z) -> list (Z * list Z * Z) -> Prop :=
| plain_end : plain_lines U [] []
| plain_skip : forall l ls es, scan_symbol l = None -> plain_lines U ls es -> plain_lines U (l :: ls) es
| plain_other : forall l ls es a symbol, scan_symbol l = Some (a, symbol) -> zlen symbol < 1024 -> hd 0 symbol <> 95 \/ demangle symbol = None -> plain_lines U ls es -> plain_lines U (l :: ls) es
| plain_symbol : forall l ls es a symbol n ps k us, scan_symbol l = Some (a, symbol) -> zlen symbol < 1024 -> hd 0 symbol = 95 -> demangle symbol = Some (signature n ps k) ->
    (forall x y, signature n ps k <> x ++ str " for " ++ y) -> a <> 0 -> plain_function U n ps k -> possible_ids U ps k n us -> plain_lines U ls es -> plain_lines U (l :: ls) ((hash32 n 0, us, a) :: es).
Lemma plain_process : forall digits U d n ps k us a, (forall j, 0 <= digits j < 10) -> told_apart U -> plain_function U n ps k -> possible_ids U ps k n us -> a <> 0 -> names_of U (d_names d) ->
  exists m' fns, ProcessFunctionItem digits d (signature n ps k) a = Ok (mk_mapdb m' fns (d_fields d) (d_gettype d)) /\ names_of U m' /\ names_kept (d_names d) m' /\ given (hash32 n 0) a us (d_functions d) fns.
Proof.
  intros digits U d n ps k us a Hd TA HP HI Ha N.
  assert (CA : callable digits U n ps k).
  { destruct HP as [A1 [A2 [A3 [A4 [A5 [A6 [A7 [A8 [A9 [A10 [A11 [A12 A13]]]]]]]]]]]]. unfold callable. repeat (split; try assumption).
    - intros [x [y E]]. apply (A3 x y E).
    - intros r E. apply A9. rewrite E, last_last. reflexivity. }
  destruct HI as [n NS|c m C0 C1 C2 C3].
  - destruct (process_free digits U d n ps k a CA Ha N NS) as [m' [fns [E [N1 [N2 H]]]]]. exists m', fns. split; [exact E|]. split; [exact N1|]. split; [exact N2|].
    destruct H as [H|[H ->]]; [apply given_hit; exact H|apply given_next; [exact H|constructor]].
  - destruct (process_member digits U d c m ps k a CA Ha N C0 C1 C2 C3) as [m' [fns [E [N1 [N2 H]]]]]. exists m', fns. split; [exact E|]. split; [exact N1|]. split; [exact N2|].
    destruct H as [H|[H [K|[K ->]]]]; [apply given_hit; exact H|apply given_next; [exact H|apply given_hit; exact K]|apply given_next; [exact H|apply given_next; [exact K|constructor]]].
Qed.
Lemma plain_read : forall U ls es, (forall i j, 0 <= rnd i j < 10) -> told_apart U -> plain_lines U ls es -> forall n d b, names_of U (d_names d) ->
  exists m' fns, linux_lines scan_symbol scan_text demangle rnd n ls true d b = Ok (mk_mapdb m' fns (d_fields d) (d_gettype d), b) /\ names_kept (d_names d) m' /\ all_given es (d_functions d) fns.
Proof.
  intros U ls es Hr TA HP. induction HP as [|l ls es E HP IH|l ls es a symbol E Lz HD HP IH|l ls es a symbol nm ps k us E Lz HD HM NF Ha HF HI HP IH]; intros n d b N; cbn [linux_lines].
  - exists (d_names d), (d_functions d). split; [destruct d; reflexivity|]. split; [intros h x H; exact H|constructor].
  - unfold symbol_line. rewrite E. cbn [obind]. apply IH. exact N.
  - assert (X : symbol_line scan_symbol demangle (rnd n) d l = Ok d).
    { unfold symbol_line. rewrite E. destruct (Z.leb_spec 1024 (zlen symbol)) as [Q|_]; [lia|]. destruct symbol as [|c symbol]; [reflexivity|]. cbn [hd] in HD. destruct (Z.eqb_spec c 95) as [Q|Q]; [|reflexivity]. destruct HD as [HD|HD]; [congruence|]. rewrite HD. reflexivity. }
    rewrite X. cbn [obind]. apply IH. exact N.
  - destruct (plain_process (rnd n) U d nm ps k us a (Hr n) TA HF HI Ha N) as [m1 [f1 [E1 [N1 [K1 G1]]]]].
    assert (X : symbol_line scan_symbol demangle (rnd n) d l = Ok (mk_mapdb m1 f1 (d_fields d) (d_gettype d))).
    { unfold symbol_line. rewrite E. destruct (Z.leb_spec 1024 (zlen symbol)) as [Q|_]; [lia|]. destruct symbol as [|c symbol]; [discriminate HD|]. cbn [hd] in HD. subst c. cbn [Z.eqb Pos.eqb]. rewrite HM. unfold has.
      destruct (string_find (signature nm ps k) (str " for ") 0) as [q|] eqn:F; [|exact E1]. apply string_find_some in F. destruct F as [x [y [F _]]]. exfalso. apply (NF x y F). }
    rewrite X. cbn [obind]. destruct (IH (S n) (mk_mapdb m1 f1 (d_fields d) (d_gettype d)) b N1) as [m' [fns [E2 [K2 G2]]]]. cbn [d_fields d_gettype d_names d_functions] in *. exists m', fns. split; [exact E2|]. split; [intros h x H; apply K2, K1; exact H|]. apply (all_more _ us a es _ f1); assumption.
Qed.
(* a function with an id of its own has the last address given to it *)
Lemma given_other : forall h a us l l' k f, given h a us l l' -> In (k, f) l -> k <> h \/ ~ In (fn_uid f) us -> In (k, f) l'.
Proof.
  intros h a us l l' k f G. induction G as [l|u us l l' H|u us l l' H G IH]; intros Hi Hn; [exact Hi| |apply IH; [exact Hi|destruct Hn as [Hn|Hn]; [left; exact Hn|right; intros Q; apply Hn; right; exact Q]]].
  destruct H as [pre [g [post [-> [Hu [-> _]]]]]]. apply in_app_iff in Hi. cbn [In] in Hi. apply in_app_iff. cbn [In]. destruct Hi as [Hi|[Hi|Hi]]; [auto| |auto]. exfalso. injection Hi as <- <-. destruct Hn as [Hn|Hn]; [congruence|apply Hn; left; symmetry; exact Hu].
Qed.
Lemma given_kept : forall h a us l l', given h a us l l' -> map (fun e => (fst e, fn_uid (snd e))) l' = map (fun e => (fst e, fn_uid (snd e))) l.
Proof.
  intros h a us l l' G. induction G as [l|u us l l' H|u us l l' H G IH]; [reflexivity| |exact IH]. destruct H as [pre [g [post [-> [Hu [-> _]]]]]]. rewrite !map_app. cbn [map fst snd fn_uid]. rewrite Hu. reflexivity.
Qed.
Definition key (e : Z * function) : Z * Z := (fst e, fn_uid (snd e)).
Lemma given_this : forall h a us1 u us2 l l' f, given h a (us1 ++ u :: us2) l l' -> NoDup (map key l) -> In (h, f) l -> fn_uid f = u -> (forall g, In (h, g) l -> ~ In (fn_uid g) us1) -> In (h, mk_func (fn_prim f) u a) l'.
Proof.
  induction us1 as [|v us1 IH]; intros u us2 l l' f G ND Hi Hu Hn; cbn [app] in G.
  - remember (u :: us2) as us eqn:Eu. destruct G as [l|u' us l l' H|u' us l l' H G]; [discriminate| |]; injection Eu as -> ->.
    + destruct H as [pre [g [post [-> [Hg [-> F]]]]]]. apply in_app_iff in Hi. cbn [In] in Hi. destruct Hi as [Hi|[Hi|Hi]].
      * exfalso. rewrite Forall_forall in F. apply (F _ Hi). split; [reflexivity|exact Hu].
      * injection Hi as ->. apply in_app_iff. right. left. reflexivity.
      * exfalso. rewrite map_app in ND. cbn [map] in ND. apply NoDup_remove_2 in ND. apply ND. apply in_app_iff. right. apply in_map_iff. exists (h, f). split; [unfold key; cbn [fst snd]; rewrite Hu, Hg; reflexivity|exact Hi].
    + exfalso. unfold unmatched in H. rewrite Forall_forall in H. apply (H _ Hi). split; [reflexivity|exact Hu].
  - remember (v :: us1 ++ u :: us2) as us eqn:Eu. destruct G as [l|u' us l l' H|u' us l l' H G]; [discriminate| |]; injection Eu as -> ->.
    + exfalso. destruct H as [pre [g [post [-> [Hg _]]]]]. apply (Hn g); [apply in_app_iff; right; left; reflexivity|left; symmetry; exact Hg].
    + apply (IH u us2 l l' f G ND Hi Hu). intros g Q1 Q2. apply (Hn g Q1). right. exact Q2.
Qed.
Lemma all_given_other : forall es l l' k f, all_given es l l' -> In (k, f) l -> (forall us a, In (k, us, a) es -> ~ In (fn_uid f) us) -> In (k, f) l'.
Proof.
  intros es l l' k f G. induction G as [l|h us a r l l1 l' H G IH]; intros Hi Hn; [exact Hi|]. apply IH; [|intros us2 a2 Q; apply (Hn us2 a2); right; exact Q]. apply (given_other h a us l l1 k f H Hi). destruct (Z.eq_dec k h) as [->|N]; [right; apply (Hn us a); left; reflexivity|left; exact N].
Qed.
Lemma key_kept : forall h a us l l', given h a us l l' -> map key l' = map key l.
Proof. exact given_kept. Qed.
Lemma all_given_this : forall es1 h us1 u us2 a es2 l l' f, all_given (es1 ++ (h, us1 ++ u :: us2, a) :: es2) l l' -> NoDup (map key l) -> In (h, f) l -> fn_uid f = u ->
  (forall g, In (h, g) l -> ~ In (fn_uid g) us1) -> (forall us b, In (h, us, b) (es1 ++ es2) -> ~ In u us) -> In (h, mk_func (fn_prim f) u a) l'.
Proof.
  induction es1 as [|[[h0 us0] a0] es1 IH]; intros h us1 u us2 a es2 l l' f G ND Hi Hu Hn Ho; cbn [app] in G.
  - remember ((h, us1 ++ u :: us2, a) :: es2) as es eqn:Ee. destruct G as [|h' us' a' r l l1 l' H G]; [discriminate|]. injection Ee as -> -> -> ->. apply (all_given_other es2 l1 l' h _ G); [apply (given_this h a us1 u us2 l l1 f H ND Hi Hu Hn)|]. cbn [fn_uid]. intros us b Q. apply (Ho us b). exact Q.
  - remember ((h0, us0, a0) :: es1 ++ (h, us1 ++ u :: us2, a) :: es2) as es eqn:Ee. destruct G as [|h' us' a' r l l1 l' H G]; [discriminate|]. injection Ee as -> -> -> ->. apply (IH h us1 u us2 a es2 l1 l' f G); [rewrite (key_kept _ _ _ _ _ H); exact ND| |exact Hu| |].
    + apply (given_other h0 a0 us0 l l1 h f H Hi). destruct (Z.eq_dec h h0) as [->|N]; [right; rewrite Hu; apply (Ho us0 a0); left; reflexivity|left; exact N].
    + intros g Q1 Q2. pose proof (in_map key _ _ Q1) as Q3. rewrite (key_kept _ _ _ _ _ H) in Q3. apply in_map_iff in Q3. destruct Q3 as [[k g2] [Q3 Q4]]. unfold key in Q3. cbn [fst snd] in Q3. injection Q3 as -> Q3. apply (Hn g2 Q4). rewrite Q3. exact Q2.
    + intros us b Q. apply (Ho us b). right. exact Q.
Qed.
Lemma map_lines : forall file first ls d, lines file (first :: ls) -> (exists r, firstn 4095 first = str "Archive member included because of file (symbol)" ++ r) ->
  ParseGCCMapFile scan_symbol scan_text demangle rnd file d = linux_lines scan_symbol scan_text demangle rnd 0 (map (firstn 4095) ls) false d 0.
Proof.
  intros file first ls d HL HF. remember (first :: ls) as fl eqn:Efl. destruct HL as [|l rest ls' N1 HL]; [discriminate|]. injection Efl as -> ->.
  unfold ParseGCCMapFile, ReadLine. rewrite read_line_ok by exact N1. cbn [rev app length]. rewrite Nat.sub_0_r. apply startswith_true in HF. rewrite HF. pose proof (lines_length _ _ HL). rewrite (ReadLines_ok _ _ HL) by lia. reflexivity.
Qed.
Lemma map_section : forall file first ls d before t after base, lines file (first :: ls) -> (exists r, firstn 4095 first = str "Archive member included because of file (symbol)" ++ r) ->
  map (firstn 4095) ls = before ++ t :: after -> Forall (fun l => ~ section_line l) before -> (exists r, t = str ".text" ++ r) -> scan_text t = Some base ->
  exists n, ParseGCCMapFile scan_symbol scan_text demangle rnd file d = linux_lines scan_symbol scan_text demangle rnd n after true d base.
Proof.
  intros file first ls d before t after base HL HF HM HB HT Hb. rewrite (map_lines file first ls d HL HF), HM, before_section by exact HB. cbn [linux_lines]. apply startswith_true in HT. rewrite HT, Hb. eexists. reflexivity.
Qed.
End Lines.
