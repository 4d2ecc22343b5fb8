From Verif Require Import Base BaseProofs Text HashModel Maps DatabaseModel FileUtilsModel FileUtilsSpec FileUtilsProofs BinarySpec BinaryProofs TextDbModel TextDbSpec.

(* ---- tokens ---- *)
Definition plain (c : Z) : Prop := c <> 9 /\ c <> 10 /\ c <> 0.
Definition token (s : list Z) : Prop := s <> [] /\ Forall plain s.
Lemma take_token_app : forall d s r, Forall (fun c => c <> d) s -> take_token d (s ++ d :: r) = (s, r).
Proof.
  intros d s r. induction s as [|c s IH]; intros H; cbn [app take_token].
  - rewrite Z.eqb_refl. reflexivity.
  - inversion H; subst. replace (c =? d) with false by lia. rewrite IH by assumption. reflexivity.
Qed.
Lemma take_token_all : forall d s, Forall (fun c => c <> d) s -> take_token d s = (s, []).
Proof.
  intros d s. induction s as [|c s IH]; intros H; cbn [take_token]; [reflexivity|].
  inversion H; subst. replace (c =? d) with false by lia. rewrite IH by assumption. reflexivity.
Qed.
Lemma tok_get_gen_app : forall d s r, s <> [] -> Forall (fun c => c <> d) s -> tok_get d (s ++ d :: r) = (Some s, r).
Proof.
  intros d s r Hn H. unfold tok_get. destruct s as [|c s]; [contradiction|]. cbn [app skip_delim].
  pose proof H as H'. inversion H' as [|? ? Hc Hs]; subst. replace (c =? d) with false by lia.
  change (c :: s ++ d :: r) with ((c :: s) ++ d :: r). rewrite take_token_app by exact H. reflexivity.
Qed.
Lemma tok_get_gen_all : forall d s, s <> [] -> Forall (fun c => c <> d) s -> tok_get d s = (Some s, []).
Proof.
  intros d s Hn H. unfold tok_get. destruct s as [|c s]; [contradiction|]. cbn [skip_delim].
  pose proof H as H'. inversion H' as [|? ? Hc Hs]; subst. replace (c =? d) with false by lia.
  rewrite take_token_all by exact H. reflexivity.
Qed.
Lemma token_no9 : forall s, token s -> s <> [] /\ Forall (fun c => c <> 9) s.
Proof. intros s [H1 H2]. split; [exact H1|]. eapply Forall_impl; [|exact H2]. intros c [H _]. exact H. Qed.
Lemma tok_get_app : forall s r, token s -> tok_get 9 (s ++ tab ++ r) = (Some s, r).
Proof. intros s r H. apply token_no9 in H. destruct H. apply (tok_get_gen_app 9); assumption. Qed.
Lemma tok_get_all : forall s, token s -> tok_get 9 s = (Some s, []).
Proof. intros s H. apply token_no9 in H. destruct H. apply tok_get_gen_all; assumption. Qed.
Lemma tok_get_tab : forall t, tok_get 9 (tab ++ t) = tok_get 9 t.
Proof. reflexivity. Qed.
Lemma tok_hex_app : forall s r, token s -> tok_hex (s ++ tab ++ r) = (hextoi s, r).
Proof. intros s r H. unfold tok_hex. rewrite tok_get_app by exact H. reflexivity. Qed.
Lemma tok_hex_all : forall s, token s -> tok_hex s = (hextoi s, []).
Proof. intros s H. unfold tok_hex. rewrite tok_get_all by exact H. reflexivity. Qed.
Lemma tok_hex_tab : forall t, tok_hex (tab ++ t) = tok_hex t.
Proof. reflexivity. Qed.
Lemma tok_int_app : forall s r, token s -> tok_int 9 (s ++ tab ++ r) = do v <- atoi s; Ok (v, r).
Proof. intros s r H. unfold tok_int. rewrite tok_get_app by exact H. reflexivity. Qed.
Lemma tok_int_all : forall s, token s -> tok_int 9 s = do v <- atoi s; Ok (v, []).
Proof. intros s H. unfold tok_int. rewrite tok_get_all by exact H. reflexivity. Qed.
Lemma tok_int_tab : forall t, tok_int 9 (tab ++ t) = tok_int 9 t.
Proof. reflexivity. Qed.

(* ---- hexadecimal columns ---- *)
Definition hexcol (v : Z) (s : list Z) : Prop :=
  token s /\ hextoi s = text_u32 v /\ length s = 8%nat /\ (exists c r, s = c :: r /\ c <> 45).
Lemma lower_hex_plain : forall c, lower_hex c -> plain c /\ c <> 45.
Proof. intros c H. unfold lower_hex in H. unfold plain. lia. Qed.
Lemma hex_ok : forall v, exists s, hex v = Ok s /\ hexcol v s.
Proof.
  intros v. unfold hex. assert (Hu : is_u32 (u32 v)) by (unfold is_u32, u32; apply Z.mod_pos_bound; lia).
  destruct (itohex_ok (repeat 0 9) (u32 v) eq_refl Hu) as [s [H1 [H2 [H3 H4]]]]. exists s. split; [exact H1|].
  split; [split; [intros ->; discriminate|]|split; [|split; [exact H2|]]].
  - eapply Forall_impl; [|exact H3]. intros c Hc. apply lower_hex_plain; exact Hc.
  - rewrite (hextoi_ok s _ H4). unfold text_u32, u32. apply Z.mod_mod. lia.
  - destruct s as [|c r]; [discriminate|]. exists c, r. split; [reflexivity|]. inversion H3; subst. apply lower_hex_plain; assumption.
Qed.
Lemma text_u32_id : forall v, is_u32 v -> text_u32 v = v.
Proof. intros v H. apply Z.mod_small. exact H. Qed.
Lemma known_u32 : forall N n, (forall h x, In (h, x) N -> n_hash x = h /\ h <> 0 /\ is_u32 h /\ column_text 4086 (n_text x)) -> known N n -> is_u32 (n_hash n) /\ GetNameH N (n_hash n) = n.
Proof.
  intros N n HN [->|H].
  - split; [unfold is_u32; cbn; lia|]. unfold GetNameH. change (n_hash noname) with 0. destruct (m_find 0 N) as [x|] eqn:E; [|reflexivity].
    apply m_find_In in E. destruct (HN _ _ E) as [_ [Hz _]]. contradiction.
  - unfold GetNameH. rewrite H. split; [|reflexivity]. apply m_find_In in H. apply HN in H. tauto.
Qed.

(* ---- decimal columns ---- *)
Lemma atoi_digits_ok : forall s acc v, number dec_digit 10 s acc = Some v -> atoi_digits s acc = v.
Proof.
  induction s as [|c s IH]; intros acc v H; cbn [number atoi_digits] in *; [congruence|].
  unfold dec_digit in H. destruct ((48 <=? c) && (c <=? 57)); [|discriminate]. apply IH. exact H.
Qed.
Lemma atoi_start : forall c r, 48 <= c <= 57 -> atoi (c :: r) =
  let v := atoi_digits (c :: r) 0 in if (-2147483648 <=? v) && (v <? 2147483648) then Ok v else UB.
Proof.
  intros c r H. unfold atoi. cbn [skip_space]. replace (is_space c) with false by (unfold is_space; lia).
  assert (E : match c :: r with 45 :: r0 => - atoi_digits r0 0 | 43 :: r0 => atoi_digits r0 0 | r0 => atoi_digits r0 0 end = atoi_digits (c :: r) 0).
  { assert (Hc : c <> 43 /\ c <> 45) by lia. clear H. destruct Hc as [Ha Hb].
    destruct c as [|p|p]; try reflexivity. destruct p as [p|p|]; try reflexivity.
    - destruct p as [p|p|]; try reflexivity; destruct p as [p|p|]; try reflexivity; destruct p as [p|p|]; try reflexivity; destruct p as [p|p|]; try reflexivity; destruct p as [p|p|]; try reflexivity; exfalso; lia. }
  rewrite E. reflexivity.
Qed.
Lemma atoi_dec : forall s v, s <> [] -> Forall (fun c => 48 <= c <= 57) s -> dec_number s = Some v -> 0 <= v < 2147483648 -> atoi s = Ok v.
Proof.
  intros s v Hn Hf Hd Hv. destruct s as [|c r]; [contradiction|]. inversion Hf; subst. rewrite atoi_start by assumption.
  cbn zeta. rewrite (atoi_digits_ok _ _ _ Hd). replace ((-2147483648 <=? v) && (v <? 2147483648)) with true by lia. reflexivity.
Qed.
Lemma Forall_firstn_ : forall A (P : A -> Prop) n l, Forall P l -> Forall P (firstn n l).
Proof. intros A P n l H. rewrite <- (firstn_skipn n l) in H. apply Forall_app in H. tauto. Qed.
Lemma dec_ok : forall v, token (dec v) /\ atoi (dec v) = Ok (text_int v) /\ (length (dec v) <= 9)%nat.
Proof.
  intros v. unfold dec. assert (Hu : 0 <= u32 v < 2 ^ 32) by (unfold u32; apply Z.mod_pos_bound; lia).
  destruct (fmt_u_ok (u32 v) ltac:(lia)) as [_ [Hf [_ [_ Hl]]]].
  assert (Hd : Forall (fun c => 48 <= c <= 57) (itoa (u32 v))) by (apply Forall_firstn_; exact Hf).
  assert (Hne : itoa (u32 v) <> []) by (unfold itoa; destruct (fmt_u (u32 v)); [cbn in Hl; lia|discriminate]).
  assert (Hn : dec_number (itoa (u32 v)) = Some (text_int v)).
  { unfold text_int. change (v mod 2 ^ 32) with (u32 v). cbn zeta. destruct (Z.ltb_spec (u32 v) (10 ^ 9)).
    - apply itoa_ok. lia.
    - apply itoa_wrong. lia. }
  split; [split; [exact Hne|eapply Forall_impl; [|exact Hd]; intros c Hc; cbv beta in Hc; unfold plain; lia]|]. split; [|unfold itoa; rewrite firstn_length; lia].
  apply atoi_dec; try assumption. unfold text_int. change (v mod 2 ^ 32) with (u32 v). cbn zeta. destruct (Z.ltb_spec (u32 v) (10 ^ 9)); [lia|].
  split; [apply Z.div_pos; lia|]. apply Z.div_lt_upper_bound; lia.
Qed.
Lemma flag_token : forall b, token (flag b).
Proof. intros []; (split; [discriminate|]); repeat constructor; discriminate. Qed.
Lemma atoi_flag : forall b, atoi (flag b) = Ok (if b then 1 else 0).
Proof. intros []; reflexivity. Qed.

Lemma c_cut_id : forall s, ~ In 0 s -> c_cut s = s.
Proof.
  induction s as [|c s IH]; intros H; [reflexivity|]. cbn [c_cut]. replace (c =? 0) with false by (destruct (Z.eqb_spec c 0); [subst; exfalso; apply H; left; reflexivity|reflexivity]).
  rewrite IH; [reflexivity|]. intros Hi. apply H. right. exact Hi.
Qed.
Lemma column_token : forall n s, column_text n s -> token s /\ zlen s <= n /\ c_cut s = s.
Proof.
  intros n s [H1 [H2 [H3 [H4 H5]]]]. split; [|split; [exact H2|apply c_cut_id; exact H5]]. split; [exact H1|]. apply Forall_forall. intros c Hc.
  unfold plain. repeat split; intros ->; contradiction.
Qed.

Lemma ReadLine_ok : forall l r, ~ In 10 l -> zlen l <= 4095 -> ReadLine (l ++ 10 :: r) = (Some l, r).
Proof. intros l r H Hl. unfold ReadLine. rewrite read_line_ok by exact H. cbn [rev app]. rewrite firstn_all2; [reflexivity|]. unfold zlen in Hl. cbn [length]. lia. Qed.
Lemma ReadLine_any : forall l r, ~ In 10 l -> exists l', ReadLine (l ++ 10 :: r) = (Some l', r).
Proof. intros l r H. unfold ReadLine. rewrite read_line_ok by exact H. eauto. Qed.
(* ---- rows ---- *)
(* what the text of a row must satisfy to be seen as one row *)
Definition row_text (row : list Z) : Prop :=
  zlen row <= 4095 /\ ~ In 10 row /\ ~ In 0 row /\ (exists c r, row = c :: r /\ c <> 45).
Definition linechar (c : Z) : Prop := c <> 10 /\ c <> 0.
Lemma row_text_intro : forall row c r, row = c :: r -> c <> 45 -> Forall linechar row -> zlen row <= 4095 -> row_text row.
Proof.
  intros row c r E Hc Hf Hl. rewrite Forall_forall in Hf. split; [exact Hl|]. split; [intros H; apply Hf in H; unfold linechar in H; lia|].
  split; [intros H; apply Hf in H; unfold linechar in H; lia|eauto].
Qed.
Lemma token_line : forall s, token s -> Forall linechar s.
Proof. intros s [_ H]. eapply Forall_impl; [|exact H]. unfold plain, linechar. intros c Hc. lia. Qed.
Lemma tab_line : Forall linechar tab.
Proof. repeat constructor; discriminate. Qed.

Section table.
Variables (T : Type) (print : T -> outcome (list Z)) (parse : list Z -> database -> outcome database)
  (get : database -> zmap T) (set : database -> zmap T -> database) (ins : T -> zmap T -> zmap T) (N : database -> Prop).
Hypothesis get_set : forall d m, get (set d m) = m.
Hypothesis set_set : forall d m m', set (set d m) m' = set d m'.
Hypothesis set_get : forall d, set d (get d) = d.
Hypothesis N_set : forall d m, N d -> N (set d m).
Definition row_ok (v : T) : Prop :=
  exists row, print v = Ok row /\ row_text row /\ forall d, N d -> parse row d = Ok (set d (ins v (get d))).

Lemma rows_ok : forall rows, Forall row_ok rows ->
  exists b, write_rows print rows = Ok b /\ (length rows <= length b)%nat /\
    forall fuel d line rest, N d -> (length rows < fuel)%nat ->
      parse_rows fuel parse (b ++ WriteRuler ++ rest) line d = Ok (rest, str "-------------------------------------------------------------------------", set d (fold_left (fun m v => ins v m) rows (get d))).
Proof.
  induction rows as [|v rows IH]; intros H.
  - exists []. split; [reflexivity|]. split; [cbn; lia|]. intros fuel d line rest _ Hf. destruct fuel as [|fuel]; [cbn in Hf; lia|]. cbn [app fold_left].
    rewrite set_get. unfold WriteRuler, nl. rewrite <- app_assoc. cbn [app].
    cbn [parse_rows]. rewrite ReadLine_ok by (first [intros Hi; vm_compute in Hi; intuition discriminate | vm_compute; discriminate]). reflexivity.
  - inversion H as [|? ? Hv Hr]; subst. destruct Hv as [row [Hp [Hrow Hparse]]]. destruct (IH Hr) as [b [Hb [Hlen Hrows]]].
    exists (row ++ nl ++ b). cbn [write_rows]. rewrite Hp. cbn [obind]. rewrite Hb. cbn [obind]. split; [reflexivity|]. split; [rewrite !app_length; cbn [length nl]; lia|].
    intros fuel d line rest HN Hf. destruct fuel as [|fuel]; [cbn in Hf; lia|]. cbn [parse_rows]. unfold nl. rewrite <- !app_assoc. cbn [app].
    destruct Hrow as [Hl [H10 [H0 [c [r [E Hc]]]]]]. rewrite ReadLine_ok by assumption. rewrite (c_cut_id row H0).
    replace (startswith row (str "----")) with false.
    2:{ symmetry. destruct (startswith row (str "----")) eqn:Es; [|reflexivity]. apply startswith_ok in Es. destruct Es as [r' Es]. rewrite E in Es. cbn in Es. injection Es as Es _. contradiction. }
    rewrite Hparse by exact HN. cbn [obind]. rewrite Hrows; [|apply N_set; exact HN|cbn [length] in Hf; lia]. rewrite get_set, set_set. reflexivity.
Qed.
End table.

(* ---- the tables of a file ---- *)
Definition title_of (t : list Z) : list Z := str "---- " ++ t ++ str " ".
Definition rule : list Z := str "-------------------------------------------------------------------------".
Definition no_table (line : list Z) (ps : list (list Z * (list Z -> database -> outcome database))) : Prop :=
  forallb (fun x => negb (startswith line (title_of (fst x)))) ps = true.
Lemma try_skip : forall ps fuel f line d, no_table line ps -> try_tables fuel ps f line d = Ok (f, line, d).
Proof.
  induction ps as [|[t p] ps IH]; intros fuel f line d H; [reflexivity|]. unfold no_table in H. cbn [forallb fst] in H. apply andb_true_iff in H. destruct H as [H1 H2].
  cbn [try_tables]. unfold ParseTable. fold (title_of t). destruct (startswith line (title_of t)); [discriminate|]. cbn [obind fst snd]. apply IH. exact H2.
Qed.
Lemma try_app : forall a b fuel f line d, try_tables fuel (a ++ b) f line d =
  do x <- try_tables fuel a f line d; try_tables fuel b (fst (fst x)) (snd (fst x)) (snd x).
Proof.
  induction a as [|[t p] a IH]; intros b fuel f line d; [reflexivity|]. cbn [app try_tables]. destruct (ParseTable fuel t p f line d) as [x| | |]; cbn [obind]; try reflexivity. apply IH.
Qed.
(* a line that is no table title *)
Lemma read_blank : forall sf line rest fuel d, ~ In 10 line -> ~ In 0 line -> zlen line <= 4095 -> no_table line (parsers sf) ->
  (length (line ++ nl ++ rest) < fuel)%nat ->
  exists fuel', (length rest < fuel')%nat /\ read_tables fuel sf (line ++ nl ++ rest) d = read_tables fuel' sf rest d.
Proof.
  intros sf line rest fuel d H10 H0 Hl Hn Hf. destruct fuel as [|fuel]; [lia|]. exists fuel. split; [rewrite !app_length in Hf; cbn [nl length] in Hf; lia|].
  remember (S fuel) as fu eqn:Efu. cbn [read_tables]. rewrite Efu. cbn [read_tables]. unfold nl. cbn [app]. rewrite ReadLine_ok by assumption. rewrite (c_cut_id line H0). rewrite try_skip by exact Hn. reflexivity.
Qed.

Lemma read_table : forall T (print : T -> outcome (list Z)) get set ins (N : database -> Prop) sf t p headers line pre post (m : zmap T),
  (forall d m, get (set d m) = m) -> (forall d m m', set (set d m) m' = set d m') -> (forall d, set d (get d) = d) -> (forall d m, N d -> N (set d m)) ->
  parsers sf = pre ++ (t, p) :: post -> WriteNamedRuler t = Ok (line ++ nl) ->
  ~ In 10 line -> ~ In 0 line -> zlen line <= 4095 -> ~ In 10 headers ->
  startswith line (title_of t) = true -> no_table line pre -> no_table rule post -> no_table [] (parsers sf) ->
  Forall (row_ok T print p get set ins N) (map snd m) ->
  exists b, WriteTable print m t headers = Ok b /\
    forall rest fuel d, N d -> (length (b ++ rest) < fuel)%nat ->
    exists fuel', (length rest < fuel')%nat /\
      read_tables fuel sf (b ++ rest) d = read_tables fuel' sf rest (set d (fold_left (fun m v => ins v m) (map snd m) (get d))).
Proof.
  intros T print get set ins N sf t p headers line pre post m G1 G2 G3 G4 Hps Hw H10 H0 Hl Hh Hst Hpre Hpost Hnil Hrows.
  destruct (rows_ok T print p get set ins N G1 G2 G3 G4 _ Hrows) as [b [Hb [Hlen Hparse]]].
  eexists. split; [unfold WriteTable, WriteTableHeader; rewrite Hw; cbn [obind]; rewrite Hb; cbn [obind]; reflexivity|].
  intros rest fuel d HN Hf.
  assert (E : ((line ++ nl) ++ headers ++ nl ++ WriteRuler) ++ b ++ WriteTableFooter = line ++ nl ++ headers ++ nl ++ rule ++ nl ++ b ++ WriteRuler ++ nl ++ nl).
  { unfold WriteTableFooter. replace WriteRuler with (rule ++ nl) by reflexivity. rewrite <- !app_assoc. reflexivity. }
  rewrite E in Hf |- *. clear E.
  replace ((line ++ nl ++ headers ++ nl ++ rule ++ nl ++ b ++ WriteRuler ++ nl ++ nl) ++ rest) with (line ++ nl ++ headers ++ nl ++ rule ++ nl ++ b ++ WriteRuler ++ nl ++ nl ++ rest) in * by (rewrite <- !app_assoc; reflexivity).
  destruct fuel as [|fuel]; [lia|].
  assert (Hf' : (length (nl ++ nl ++ rest) < fuel)%nat /\ (length (map snd m) < S fuel)%nat).
  { rewrite !app_length in Hf. rewrite !app_length. cbn [nl length] in *. lia. }
  destruct Hf' as [Hf1 Hf2]. clear Hf.
  assert (Hstep : read_tables (S fuel) sf (line ++ nl ++ headers ++ nl ++ rule ++ nl ++ b ++ WriteRuler ++ nl ++ nl ++ rest) d =
    read_tables fuel sf (nl ++ nl ++ rest) (set d (fold_left (fun m v => ins v m) (map snd m) (get d)))).
  { remember (S fuel) as fu eqn:Efu. rewrite Efu at 1. cbn [read_tables]. rewrite <- Efu. unfold nl at 1 2 3. cbn [app]. rewrite ReadLine_ok by assumption. rewrite (c_cut_id line H0). rewrite Hps, try_app, try_skip by exact Hpre. cbn [obind fst snd].
    cbn [try_tables]. unfold ParseTable at 1. fold (title_of t). rewrite Hst. destruct (ReadLine_any headers (rule ++ 10 :: b ++ WriteRuler ++ nl ++ nl ++ rest) Hh) as [h' Eh']. rewrite Eh'. cbv beta iota.
    rewrite ReadLine_ok by (first [intros Hi; vm_compute in Hi; intuition discriminate | vm_compute; discriminate]). cbv beta iota.
    rewrite Hparse by (try assumption; lia). cbn [obind fst snd]. rewrite try_skip by exact Hpost. reflexivity. }
  rewrite Hstep. destruct (read_blank sf [] (nl ++ rest) fuel (set d (fold_left (fun m v => ins v m) (map snd m) (get d)))) as [f1 [Hf3 E1]]; try solve [intros []]; [vm_compute; discriminate|exact Hnil|exact Hf1|].
  change ([] ++ nl ++ nl ++ rest) with (nl ++ nl ++ rest) in E1. rewrite E1.
  destruct (read_blank sf [] rest f1 (set d (fold_left (fun m v => ins v m) (map snd m) (get d)))) as [f2 [Hf4 E2]]; try solve [intros []]; [vm_compute; discriminate|exact Hnil|exact Hf3|].
  change ([] ++ nl ++ rest) with (nl ++ rest) in E2. rewrite E2. exists f2. auto.
Qed.

(* ---- the content of the tables ---- *)
Lemma fold_multi : forall T (nm : T -> name) (norm : T -> T) l (m : zmap T), sorted (keys m ++ keys l) ->
  (forall k v, In (k, v) l -> k = n_hash (nm v)) ->
  fold_left (fun m v => mm_insert (n_hash (nm v)) (norm v) m) (map snd l) m = m ++ mapped norm l.
Proof.
  intros T nm norm l. induction l as [|[k v] l IH]; intros m Hs Hk; [cbn; rewrite app_nil_r; reflexivity|].
  cbn [map snd fold_left mapped]. pose proof (Hk k v (or_introl eq_refl)) as E. subst k.
  rewrite mm_insert_last by (intros k' Hk'; change (keys ((n_hash (nm v), v) :: l)) with (n_hash (nm v) :: keys l) in Hs; exact (sorted_app_le _ _ _ Hs k' Hk')).
  rewrite IH.
  - rewrite <- app_assoc. reflexivity.
  - rewrite keys_app, <- app_assoc. exact Hs.
  - intros k v' H. apply Hk. right. exact H.
Qed.
Lemma m_find_none : forall T k (m : zmap T), ~ In k (keys m) -> m_find k m = None.
Proof.
  induction m as [|[k' v] m IH]; intros H; [reflexivity|]. cbn [m_find]. destruct (Z.eqb_spec k' k) as [->|].
  - exfalso. apply H. left. reflexivity.
  - apply IH. intros Hi. apply H. right. exact Hi.
Qed.
Lemma fold_unique : forall T (nm : T -> name) (norm : T -> T) l (m : zmap T), ssorted (keys m ++ keys l) ->
  (forall k v, In (k, v) l -> k = n_hash (nm v)) ->
  fold_left (fun m v => m_insert (n_hash (nm v)) (norm v) m) (map snd l) m = m ++ mapped norm l.
Proof.
  intros T nm norm l. induction l as [|[k v] l IH]; intros m Hs Hk; [cbn; rewrite app_nil_r; reflexivity|].
  cbn [map snd fold_left mapped]. pose proof (Hk k v (or_introl eq_refl)) as E. subst k.
  assert (Hlt : forall k', In k' (keys m) -> k' < n_hash (nm v)) by (intros k' Hk'; change (keys ((n_hash (nm v), v) :: l)) with (n_hash (nm v) :: keys l) in Hs; exact (ssorted_app_lt _ _ _ Hs k' Hk')).
  unfold m_insert at 2. rewrite m_find_none by (intros Hi; apply Hlt in Hi; lia). rewrite m_set_last by exact Hlt.
  rewrite IH.
  - rewrite <- app_assoc. reflexivity.
  - rewrite keys_app, <- app_assoc. exact Hs.
  - intros k v' H. apply Hk. right. exact H.
Qed.
Lemma fold_names : forall l (m : zmap name), ssorted (keys m ++ keys l) -> (forall k v, In (k, v) l -> k = n_hash v) ->
  fold_left (fun m v => m_set (n_hash v) v m) (map snd l) m = m ++ l.
Proof.
  intros l. induction l as [|[k v] l IH]; intros m Hs Hk; [cbn; rewrite app_nil_r; reflexivity|].
  cbn [map snd fold_left]. pose proof (Hk k v (or_introl eq_refl)) as E. subst k.
  assert (Hlt : forall k', In k' (keys m) -> k' < n_hash v) by (intros k' Hk'; change (keys ((n_hash v, v) :: l)) with (n_hash v :: keys l) in Hs; exact (ssorted_app_lt _ _ _ Hs k' Hk')).
  rewrite m_set_last by exact Hlt. rewrite IH.
  - rewrite <- app_assoc. reflexivity.
  - rewrite keys_app, <- app_assoc. exact Hs.
  - intros k v' H. apply Hk. right. exact H.
Qed.
Lemma mapped_id : forall T (m : zmap T), mapped (fun v => v) m = m.
Proof. intros T m. unfold mapped. induction m as [|[k v] m IH]; [reflexivity|]. cbn [map fst snd]. rewrite IH. reflexivity. Qed.

(* ---- the rows of each table ---- *)
Lemma firstn_pad : forall A (x : A) l, (length l <= 4)%nat -> firstn 4 (l ++ repeat x 4) = l ++ repeat x (4 - length l).
Proof.
  intros A x l H. rewrite firstn_app, (firstn_all2 l) by exact H. f_equal.
  assert (G : forall n m, (n <= m)%nat -> firstn n (repeat x m) = repeat x n).
  { induction n as [|n IH]; intros [|m] Hm; try reflexivity; [lia|]. cbn. rewrite IH by lia. reflexivity. }
  apply G. lia.
Qed.
Section rows.
Variable NM : zmap name.
Hypothesis HNM : forall h n, In (h, n) NM -> n_hash n = h /\ h <> 0 /\ is_u32 h /\ column_text 4086 (n_text n).
Definition has_names (d : database) : Prop := m_names d = NM.

Lemma gn_known : forall d n, has_names d -> known NM n -> gn d (text_u32 (n_hash n)) = n.
Proof. intros d n Hd Hn. destruct (known_u32 _ _ HNM Hn) as [H1 H2]. rewrite text_u32_id by exact H1. unfold gn. rewrite Hd. exact H2. Qed.
Lemma prim_ok : forall p, known_prim NM p ->
  exists s, WritePrimitive p = Ok s /\ length s = 17%nat /\ Forall linechar s /\ (exists c r, s = c :: r /\ c <> 45) /\
    forall d, has_names d -> (forall r, tok_prim d (s ++ tab ++ r) = (p, r)) /\ tok_prim d s = (p, []).
Proof.
  intros [n p] [Hn Hp]. cbn [p_name p_parent] in *. destruct (hex_ok (n_hash n)) as [a [Ha [Ta [Va [La Sa]]]]]. destruct (hex_ok (n_hash p)) as [b [Hb [Tb [Vb [Lb Sb]]]]].
  exists (a ++ tab ++ b). unfold WritePrimitive. cbn [p_name p_parent]. rewrite Ha. cbn [obind]. rewrite Hb. cbn [obind]. split; [reflexivity|].
  split; [rewrite !app_length; cbn [length tab]; lia|]. split; [repeat (apply Forall_app; split); auto using token_line, tab_line|].
  split; [destruct Sa as [c [r [-> Hc]]]; exists c, (r ++ tab ++ b); split; [reflexivity|exact Hc]|].
  intros d Hd. split; [intros r|]; unfold tok_prim; cbn zeta; rewrite <- ?app_assoc, tok_hex_app by exact Ta; cbn [fst snd].
  - rewrite tok_hex_app by exact Tb. cbn [fst snd]. rewrite Va, Vb, !gn_known by assumption. reflexivity.
  - rewrite tok_hex_all by exact Tb. cbn [fst snd]. rewrite Va, Vb, !gn_known by assumption. reflexivity.
Qed.
Lemma db_add_ok : forall T nm (v : T) m, n_hash nm <> 0 -> db_add nm v m = Ok (mm_insert (n_hash nm) v m).
Proof. intros T nm v m H. unfold db_add. replace (n_hash nm =? 0) with false by lia. reflexivity. Qed.
Lemma db_add_unique_ok : forall T nm (v : T) m, n_hash nm <> 0 -> db_add_unique nm v m = Ok (m_insert (n_hash nm) v m).
Proof. intros T nm v m H. unfold db_add_unique. replace (n_hash nm =? 0) with false by lia. reflexivity. Qed.
Lemma scoped_token : forall k, 0 <= k <= 2 -> token (WriteEnumScoped k) /\ length (WriteEnumScoped k) = 1%nat /\ ParseEnumScoped (WriteEnumScoped k) = Ok k.
Proof.
  intros k H. assert (Hk : k = 0 \/ k = 1 \/ k = 2) by lia. destruct Hk as [->|[->| ->]]; (split; [split; [discriminate|]; repeat constructor; discriminate|]; split; reflexivity).
Qed.
Lemma qual_ok : forall q, Forall linechar (WriteQualifier q) /\ length (WriteQualifier q) = 3%nat /\ forall r, ParseQualifier (WriteQualifier q ++ tab ++ r) = Ok (q, r).
Proof.
  intros [o c]. split; [destruct o, c; repeat constructor; discriminate|]. split; [destruct o, c; reflexivity|].
  intros r. destruct o, c; reflexivity.
Qed.

Ltac lines := repeat first [assumption | apply Forall_app; split]; auto using token_line, tab_line.
Ltac starts H := let c := fresh in let r := fresh in let E := fresh in destruct H as [c [r [E H]]].
Ltac hexes := repeat match goal with |- context [hex ?v] =>
  let s := fresh "s" in let H := fresh "Hx" in let T := fresh "T" in let V := fresh "V" in let L := fresh "L" in
  destruct (hex_ok v) as [s [H [T [V [L _]]]]]; rewrite H; cbn [obind] end.
Ltac primrow Hk := let s := fresh "ps" in let H := fresh "Hp" in let L := fresh "Lp" in let F := fresh "Fp" in let c := fresh "c0" in let r := fresh "r0" in let E := fresh "Ep" in let Hc := fresh "Hc0" in let HT := fresh "HT" in
  destruct (prim_ok _ Hk) as [s [H [L [F [[c [r [E Hc]]] HT]]]]]; rewrite H; cbn [obind].
Ltac rowtext E Hc := eapply row_text_intro; [rewrite E; cbn [app]; reflexivity|exact Hc| |].
Ltac usenames := repeat match goal with V : hextoi ?s = text_u32 ?v |- _ => rewrite V; clear V end; rewrite ?gn_known by assumption.

Lemma name_row : forall v, In (n_hash v, v) NM -> row_ok name WriteName ParseName m_names with_names (fun v m => m_set (n_hash v) v m) (fun _ => True) v.
Proof.
  intros v Hv. destruct (HNM _ _ Hv) as [_ [Hz [Hu Ht]]]. destruct (column_token _ _ Ht) as [Tt [Lt Ct]]. unfold row_ok, WriteName.
  destruct (hex_ok (n_hash v)) as [s [Hx [T [V [L [c [r [E Hc]]]]]]]]. rewrite Hx. cbn [obind]. rewrite Ct. eexists. split; [reflexivity|]. split.
  - rowtext E Hc; [lines|unfold zlen in *; rewrite !app_length; cbn [length tab]; lia].
  - intros d _. unfold ParseName. cbn zeta. rewrite tok_hex_app by exact T. cbn [fst snd]. rewrite tok_get_all by exact Tt. rewrite V, text_u32_id by exact Hu.
    replace (n_hash v =? 0) with false by lia. destruct v; reflexivity.
Qed.
Definition prim_ins (v : prim) (m : zmap prim) := mm_insert (n_hash (p_name v)) v m.
Lemma namespace_row : forall v, known_prim NM v -> n_hash (p_name v) <> 0 -> row_ok prim WritePrimitive ParseNamespace m_namespaces with_namespaces prim_ins has_names v.
Proof.
  intros v Hk Hz. unfold row_ok. primrow Hk. eexists. split; [reflexivity|]. split; [rowtext Ep Hc0; [exact Fp|unfold zlen; lia]|].
  intros d Hd. destruct (HT d Hd) as [_ H2]. unfold ParseNamespace. rewrite H2. cbn [fst snd]. cbv zeta. rewrite db_add_ok by exact Hz. reflexivity.
Qed.
Lemma template_row : forall v, known_prim NM v -> n_hash (p_name v) <> 0 -> row_ok prim WritePrimitive ParseTemplate m_templates with_templates prim_ins has_names v.
Proof.
  intros v Hk Hz. unfold row_ok. primrow Hk. eexists. split; [reflexivity|]. split; [rowtext Ep Hc0; [exact Fp|unfold zlen; lia]|].
  intros d Hd. destruct (HT d Hd) as [_ H2]. unfold ParseTemplate. rewrite H2. cbn [fst snd]. cbv zeta. rewrite db_add_ok by exact Hz. reflexivity.
Qed.
Lemma flag_row : forall v, known_prim NM v -> n_hash (p_name v) <> 0 -> row_ok prim WritePrimitive ParseFlagAttribute m_flag_attrs with_flag_attrs prim_ins has_names v.
Proof.
  intros v Hk Hz. unfold row_ok. primrow Hk. eexists. split; [reflexivity|]. split; [rowtext Ep Hc0; [exact Fp|unfold zlen; lia]|].
  intros d Hd. destruct (HT d Hd) as [_ H2]. unfold ParseFlagAttribute. rewrite H2. cbn [fst snd]. cbv zeta. rewrite db_add_ok by exact Hz. reflexivity.
Qed.
Lemma type_row : forall v, known_prim NM (t_prim v) -> n_hash (p_name (t_prim v)) <> 0 ->
  row_ok type_ WriteType ParseType m_types with_types (fun v m => mm_insert (n_hash (p_name (t_prim v))) (mk_type (t_prim v) (text_u32 (t_size v))) m) has_names v.
Proof.
  intros v Hk Hz. unfold row_ok, WriteType, write_type. primrow Hk. hexes. eexists. split; [reflexivity|]. split; [rowtext Ep Hc0; [lines|unfold zlen in *; rewrite !app_length; cbn [length tab]; lia]|].
  intros d Hd. destruct (HT d Hd) as [H1 _]. unfold ParseType. rewrite H1. cbv zeta. cbn [fst snd]. rewrite tok_hex_all by assumption. cbn [fst snd]. usenames. rewrite db_add_ok by exact Hz. reflexivity.
Qed.
Lemma econst_row : forall v, known_prim NM (ec_prim v) -> n_hash (p_name (ec_prim v)) <> 0 ->
  row_ok enum_const WriteEnumConstant ParseEnumConstant m_enum_consts with_enum_consts (fun v m => mm_insert (n_hash (p_name (ec_prim v))) (mk_econst (ec_prim v) (text_int (ec_value v))) m) has_names v.
Proof.
  intros v Hk Hz. unfold row_ok, WriteEnumConstant. primrow Hk. destruct (dec_ok (ec_value v)) as [Td [Ad Ld]]. eexists. split; [reflexivity|]. split; [rowtext Ep Hc0; [lines|unfold zlen in *; rewrite !app_length; cbn [length tab]; lia]|].
  intros d Hd. destruct (HT d Hd) as [H1 _]. unfold ParseEnumConstant. rewrite H1. cbv zeta. cbn [fst snd]. rewrite tok_int_all by assumption. rewrite Ad. cbn [obind fst snd]. rewrite db_add_ok by exact Hz. reflexivity.
Qed.
Lemma enum_row : forall v, known_prim NM (e_prim v) -> 0 <= e_scoped v <= 2 -> n_hash (p_name (e_prim v)) <> 0 ->
  row_ok enum WriteEnum ParseEnum m_enums with_enums (fun v m => mm_insert (n_hash (p_name (e_prim v))) (mk_enum (e_prim v) 4 (e_scoped v)) m) has_names v.
Proof.
  intros v Hk Hs Hz. unfold row_ok, WriteEnum, write_type. primrow Hk. hexes. destruct (scoped_token _ Hs) as [Ts [Ls Ps]]. eexists. split; [reflexivity|].
  split; [rowtext Ep Hc0; [lines|unfold zlen in *; rewrite !app_length; cbn [length tab]; lia]|].
  intros d Hd. destruct (HT d Hd) as [H1 _]. unfold ParseEnum. rewrite <- !app_assoc, H1. cbv zeta. cbn [fst snd]. rewrite tok_hex_app by assumption. cbn [fst snd]. rewrite Ps. cbn [obind]. rewrite db_add_ok by exact Hz. reflexivity.
Qed.
Lemma field_row : forall v, known_prim NM (f_prim v) -> known NM (f_type v) -> n_hash (p_name (f_prim v)) <> 0 ->
  row_ok field WriteField ParseField m_fields with_fields
    (fun f m => mm_insert (n_hash (p_name (f_prim f))) (mk_field (f_prim f) (f_type f) (f_qual f) (text_int (f_offset f)) (text_u32 (f_parent_uid f))) m) has_names v.
Proof.
  intros v Hk Ht Hz. unfold row_ok, WriteField. primrow Hk. hexes. destruct (qual_ok (f_qual v)) as [Fq [Lq Pq]]. destruct (dec_ok (f_offset v)) as [Td [Ad Ld]]. eexists. split; [reflexivity|].
  split; [rowtext Ep Hc0; [lines|unfold zlen in *; rewrite !app_length; cbn [length tab]; lia]|].
  intros d Hd. destruct (HT d Hd) as [H1 _]. unfold ParseField. rewrite H1. cbv zeta. cbn [fst snd]. rewrite tok_hex_app by assumption. cbn [fst snd]. rewrite Pq. cbn [obind fst snd].
  rewrite tok_int_app by assumption. rewrite Ad. cbn [obind fst snd]. rewrite tok_hex_tab, tok_hex_all by assumption. cbn [fst snd]. usenames. rewrite db_add_ok by exact Hz. reflexivity.
Qed.
Lemma function_row : forall v, known_prim NM (fn_prim v) -> n_hash (p_name (fn_prim v)) <> 0 ->
  row_ok function WriteFunction ParseFunction m_functions with_functions (fun f m => mm_insert (n_hash (p_name (fn_prim f))) (mk_func (fn_prim f) (text_u32 (fn_uid f)) 0) m) has_names v.
Proof.
  intros v Hk Hz. unfold row_ok, WriteFunction. primrow Hk. hexes. eexists. split; [reflexivity|]. split; [rowtext Ep Hc0; [lines|unfold zlen in *; rewrite !app_length; cbn [length tab]; lia]|].
  intros d Hd. destruct (HT d Hd) as [H1 _]. unfold ParseFunction. rewrite H1. cbv zeta. cbn [fst snd]. rewrite tok_hex_all by assumption. cbn [fst snd]. usenames. rewrite db_add_ok by exact Hz. reflexivity.
Qed.
Lemma class_row : forall v, known_prim NM (c_prim v) -> n_hash (p_name (c_prim v)) <> 0 ->
  row_ok class WriteClass ParseClass m_classes with_classes (fun c m => mm_insert (n_hash (p_name (c_prim c))) (mk_class (c_prim c) (text_u32 (c_size c)) (c_is_class c)) m) has_names v.
Proof.
  intros v Hk Hz. unfold row_ok, WriteClass, write_type. primrow Hk. hexes. pose proof (flag_token (c_is_class v)) as Tf. eexists. split; [reflexivity|].
  split; [rowtext Ep Hc0; [lines|unfold zlen in *; rewrite !app_length; cbn [length tab]; destruct (c_is_class v); cbn [flag str length]; cbn; lia]|].
  intros d Hd. destruct (HT d Hd) as [H1 _]. unfold ParseClass. rewrite <- !app_assoc, H1. cbv zeta. cbn [fst snd]. rewrite tok_hex_app by assumption. cbn [fst snd].
  rewrite tok_int_tab, tok_int_all, atoi_flag by assumption. cbn [obind fst snd]. usenames. rewrite db_add_ok by exact Hz. destruct (c_is_class v); reflexivity.
Qed.
Lemma int_row : forall v, known_prim NM (ia_prim v) -> n_hash (p_name (ia_prim v)) <> 0 ->
  row_ok int_attr WriteIntAttribute ParseIntAttribute m_int_attrs with_int_attrs (fun v m => mm_insert (n_hash (p_name (ia_prim v))) (mk_int (ia_prim v) (text_int (ia_value v))) m) has_names v.
Proof.
  intros v Hk Hz. unfold row_ok, WriteIntAttribute. primrow Hk. destruct (dec_ok (ia_value v)) as [Td [Ad Ld]]. eexists. split; [reflexivity|]. split; [rowtext Ep Hc0; [lines|unfold zlen in *; rewrite !app_length; cbn [length tab]; lia]|].
  intros d Hd. destruct (HT d Hd) as [H1 _]. unfold ParseIntAttribute. rewrite H1. cbv zeta. cbn [fst snd]. rewrite tok_int_all by assumption. rewrite Ad. cbn [obind fst snd]. rewrite db_add_ok by exact Hz. reflexivity.
Qed.
Lemma float_row : forall (pf : Z -> list Z) (sf : list Z -> Z) v, known_prim NM (fa_prim v) -> column_text 4000 (pf (fa_value v)) -> n_hash (p_name (fa_prim v)) <> 0 ->
  row_ok float_attr (WriteFloatAttribute pf) (ParseFloatAttribute sf) m_float_attrs with_float_attrs (fun v m => mm_insert (n_hash (p_name (fa_prim v))) (mk_float (fa_prim v) (sf (pf (fa_value v)))) m) has_names v.
Proof.
  intros pf sf v Hk Hf Hz. unfold row_ok, WriteFloatAttribute. primrow Hk. destruct (column_token _ _ Hf) as [Td [Ld _]]. eexists. split; [reflexivity|]. split; [rowtext Ep Hc0; [lines|unfold zlen in *; rewrite !app_length; cbn [length tab]; lia]|].
  intros d Hd. destruct (HT d Hd) as [H1 _]. unfold ParseFloatAttribute. rewrite H1. cbv zeta. cbn [fst snd]. rewrite tok_get_all by assumption. rewrite db_add_ok by exact Hz. reflexivity.
Qed.
Lemma pattr_row : forall v, known_prim NM (pa_prim v) -> known NM (pa_value v) -> n_hash (p_name (pa_prim v)) <> 0 ->
  row_ok prim_attr WritePrimitiveAttribute ParsePrimitiveAttribute m_prim_attrs with_prim_attrs (fun v m => mm_insert (n_hash (p_name (pa_prim v))) v m) has_names v.
Proof.
  intros v Hk Hv Hz. unfold row_ok, WritePrimitiveAttribute. primrow Hk. hexes. eexists. split; [reflexivity|]. split; [rowtext Ep Hc0; [lines|unfold zlen in *; rewrite !app_length; cbn [length tab]; lia]|].
  intros d Hd. destruct (HT d Hd) as [H1 _]. unfold ParsePrimitiveAttribute. rewrite H1. cbv zeta. cbn [fst snd]. rewrite tok_hex_all by assumption. cbn [fst snd]. usenames. rewrite db_add_ok by exact Hz. destruct v; reflexivity.
Qed.
Lemma text_row : forall v, known_prim NM (ta_prim v) -> column_text 4077 (ta_value v) -> n_hash (p_name (ta_prim v)) <> 0 ->
  row_ok text_attr WriteTextAttribute ParseTextAttribute m_text_attrs with_text_attrs (fun v m => mm_insert (n_hash (p_name (ta_prim v))) v m) has_names v.
Proof.
  intros v Hk Hf Hz. unfold row_ok, WriteTextAttribute. primrow Hk. destruct (column_token _ _ Hf) as [Td [Ld Cd]]. rewrite Cd. eexists. split; [reflexivity|]. split; [rowtext Ep Hc0; [lines|unfold zlen in *; rewrite !app_length; cbn [length tab]; lia]|].
  intros d Hd. destruct (HT d Hd) as [H1 _]. unfold ParseTextAttribute. rewrite H1. cbv zeta. cbn [fst snd]. rewrite tok_get_all by assumption. rewrite db_add_ok by exact Hz. destruct v; reflexivity.
Qed.
Lemma container_row : forall v, known NM (ci_name v) -> known NM (ci_read v) -> known NM (ci_write v) -> n_hash (ci_name v) <> 0 ->
  row_ok container_info WriteContainerInfo ParseContainerInfo m_containers with_containers
    (fun c m => m_insert (n_hash (ci_name c)) (mk_cinfo (ci_name c) (ci_read c) (ci_write c) (text_u32 (ci_flags c)) (text_u32 (ci_count c))) m) has_names v.
Proof.
  intros v H1 H2 H3 Hz. unfold row_ok, WriteContainerInfo. destruct (hex_ok (n_hash (ci_name v))) as [s [Hx [T [V [L [c [r [E Hc]]]]]]]]. rewrite Hx. cbn [obind]. hexes.
  eexists. split; [reflexivity|]. split; [rowtext E Hc; [lines|unfold zlen in *; rewrite !app_length; cbn [length tab]; lia]|].
  intros d Hd. unfold ParseContainerInfo. cbv zeta. repeat (rewrite tok_hex_app by assumption; cbn [fst snd]). rewrite tok_hex_all by assumption. cbn [fst snd]. usenames. cbn [ci_name]. rewrite db_add_unique_ok by exact Hz. reflexivity.
Qed.
Lemma inherit_row : forall v, known NM (ti_name v) -> known NM (ti_derived v) -> known NM (ti_base v) -> n_hash (ti_name v) <> 0 ->
  row_ok type_inheritance WriteTypeInheritance ParseInheritance m_inherits with_inherits (fun c m => m_insert (n_hash (ti_name c)) c m) has_names v.
Proof.
  intros v H1 H2 H3 Hz. unfold row_ok, WriteTypeInheritance. destruct (hex_ok (n_hash (ti_name v))) as [s [Hx [T [V [L [c [r [E Hc]]]]]]]]. rewrite Hx. cbn [obind]. hexes.
  eexists. split; [reflexivity|]. split; [rowtext E Hc; [lines|unfold zlen in *; rewrite !app_length; cbn [length tab]; lia]|].
  intros d Hd. unfold ParseInheritance. cbv zeta. repeat (rewrite tok_hex_app by assumption; cbn [fst snd]). rewrite tok_hex_all by assumption. cbn [fst snd]. usenames. cbn [ti_name]. rewrite db_add_unique_ok by exact Hz. destruct v; reflexivity.
Qed.

Inductive params_text : list (name * bool) -> list Z -> Prop :=
| pt_nil : params_text [] []
| pt_cons : forall t p h l r, hexcol (n_hash t) h -> n_hash t <> 0 -> params_text l r -> params_text ((t, p) :: l) (h ++ tab ++ flag p ++ tab ++ r).
Lemma write_params_ok : forall ts ps, length ts = length ps ->
  exists b, write_params ts ps = Ok b /\ params_text (filter given (combine ts ps)) b /\ Forall linechar b /\ (length b <= 11 * length ts)%nat.
Proof.
  induction ts as [|t ts IH]; intros [|p ps] Hl; try discriminate.
  - exists []. split; [reflexivity|]. split; [constructor|]. split; [constructor|cbn; lia].
  - injection Hl as Hl. destruct (IH ps Hl) as [b [H1 [H2 [H3 H4]]]]. cbn [write_params combine filter given fst]. rewrite H1. cbn [obind].
    unfold given at 1. cbn [fst]. destruct (Z.eqb_spec (n_hash t) 0) as [E|E]; cbn [negb].
    + exists b. split; [reflexivity|]. split; [exact H2|]. split; [exact H3|]. cbn [length]. lia.
    + destruct (hex_ok (n_hash t)) as [h [Hx Hc]]. rewrite Hx. cbn [obind]. eexists. split; [reflexivity|]. split; [constructor; assumption|]. pose proof (flag_token p) as Tf. destruct Hc as [Th [Vh [Lh _]]].
      split; [lines|]. rewrite !app_length, Lh. cbn [length tab]. assert (length (flag p) = 1%nat) by (destruct p; reflexivity). lia.
Qed.
Lemma parse_params_ok : forall d, has_names d -> forall l b, params_text l b -> Forall (fun x => known NM (fst x)) l ->
  forall n ts ps, (length l <= n)%nat -> zlen ts = zlen ps ->
  parse_params d n (zlen ts) b (ts ++ repeat noname n) (ps ++ repeat false n) =
  Ok (ts ++ map fst l ++ repeat noname (n - length l), ps ++ map snd l ++ repeat false (n - length l)).
Proof.
  intros d Hd l b H. induction H as [|t p h l r Hh Hz H IH]; intros Hk n ts ps Hn Hl.
  - destruct n; reflexivity.
  - destruct n as [|n]; [cbn in Hn; lia|]. inversion Hk as [|? ? Hk1 Hk2]; subst. cbn [fst] in Hk1. destruct Hh as [Th [Vh [Lh _]]]. cbn [parse_params]. cbv zeta.
    rewrite tok_hex_app by exact Th. cbn [fst snd]. rewrite Vh. destruct (known_u32 _ _ HNM Hk1) as [Hu _]. rewrite (text_u32_id (n_hash t)) by exact Hu. replace (n_hash t =? 0) with false by lia.
    rewrite <- (text_u32_id (n_hash t)) by exact Hu. rewrite gn_known by assumption. cbn [repeat]. rewrite wr_mid. cbn [obind]. rewrite tok_int_app, atoi_flag by apply flag_token. cbn [obind fst snd].
    rewrite Hl, wr_mid. cbn [obind]. replace (negb ((if p then 1 else 0) =? 0)) with p by (destruct p; reflexivity).
    replace (ts ++ t :: repeat noname n) with ((ts ++ [t]) ++ repeat noname n) by (rewrite <- app_assoc; reflexivity).
    replace (ps ++ p :: repeat false n) with ((ps ++ [p]) ++ repeat false n) by (rewrite <- app_assoc; reflexivity).
    replace (zlen ps + 1) with (zlen (ts ++ [t])) by (rewrite zlen_app, zlen_cons, zlen_nil; lia).
    rewrite IH; [|exact Hk2|cbn in Hn; lia|rewrite !zlen_app, !zlen_cons, !zlen_nil; lia].
    cbn [length map fst snd Nat.sub]. rewrite <- !app_assoc. reflexivity.
Qed.
Lemma ttype_row : forall v, known_prim NM (tt_prim v) -> Forall (known NM) (tt_types v) -> length (tt_types v) = 4%nat -> length (tt_ptrs v) = 4%nat -> n_hash (p_name (tt_prim v)) <> 0 ->
  row_ok template_type WriteTemplateType ParseTemplateType m_template_types with_template_types (fun v m => mm_insert (n_hash (p_name (tt_prim v))) (text_ttype v) m) has_names v.
Proof.
  intros v Hk Hts Hl1 Hl2 Hz. unfold row_ok, WriteTemplateType, write_type. primrow Hk. hexes. destruct (write_params_ok (tt_types v) (tt_ptrs v) ltac:(lia)) as [b [Hw [Hpt [Hlb Hlen]]]]. rewrite Hw. cbn [obind].
  eexists. split; [reflexivity|].
  split; [rowtext Ep Hc0; [lines|unfold zlen in *; rewrite !app_length; cbn [length tab]; lia]|].
  intros d Hd. destruct (HT d Hd) as [H1 _]. unfold ParseTemplateType. rewrite <- !app_assoc, H1. cbv zeta. cbn [fst snd]. rewrite tok_hex_app by assumption. cbn [fst snd].
  assert (Hll : (length (filter given (combine (tt_types v) (tt_ptrs v))) <= 4)%nat).
  { assert (G : forall A (f : A -> bool) (l : list A), (length (filter f l) <= length l)%nat) by (intros A f l; induction l as [|x l IH]; cbn; [lia|destruct (f x); cbn; lia]).
    eapply Nat.le_trans; [apply G|]. rewrite combine_length. lia. }
  pose proof (parse_params_ok d Hd _ b Hpt) as P. specialize (P ltac:(apply Forall_forall; intros [t q] Hx'; apply filter_In in Hx'; destruct Hx' as [Hx' _]; apply in_combine_l in Hx'; rewrite Forall_forall in Hts; apply Hts; exact Hx') 4%nat [] [] Hll eq_refl).
  cbn [app] in P. change (zlen (@nil name)) with 0 in P. rewrite P. cbn [obind fst snd]. rewrite db_add_ok by exact Hz. cbn [obind]. usenames.
  unfold text_ttype. cbv zeta. rewrite !firstn_pad by (rewrite map_length; exact Hll). rewrite !map_length. reflexivity.
Qed.
End rows.

(* ---- the whole file ---- *)
Lemma table_rows : forall T (nm : T -> name) good (m : zmap T) (R : T -> Prop), text_table nm good m ->
  (forall v, good v -> n_hash (nm v) <> 0 -> R v) -> Forall R (map snd m).
Proof.
  intros T nm good m R [_ H] HR. apply Forall_forall. intros v Hv. apply in_map_iff in Hv. destruct Hv as [[k v'] [E Hin]]. cbn in E. subst v'.
  destruct (H k v Hin) as [-> [H1 H2]]. apply HR; assumption.
Qed.
Lemma table_keys : forall T (nm : T -> name) good (m : zmap T), text_table nm good m -> forall k v, In (k, v) m -> k = n_hash (nm v).
Proof. intros T nm good m [_ H] k v Hin. apply H in Hin. tauto. Qed.

Definition title_line (t line : list Z) (k : nat) (sf : list Z -> Z) : Prop :=
  WriteNamedRuler t = Ok (line ++ nl) /\ ~ In 10 line /\ ~ In 0 line /\ zlen line <= 4095 /\ startswith line (title_of t) = true /\
  no_table line (firstn k (parsers sf)) /\ no_table rule (skipn (S k) (parsers sf)) /\ no_table [] (parsers sf).
Definition getset {T} (get : database -> zmap T) (set : database -> zmap T -> database) : Prop :=
  (forall d m, get (set d m) = m) /\ (forall d m m', set (set d m) m' = set d m') /\ (forall d, set d (get d) = d).
Lemma read_multi : forall T (nm : T -> name) norm good print get set NM sf t p headers line k (m : zmap T),
  getset get set -> (forall d m, m_names (set d m) = m_names d) ->
  title_line t line k sf -> parsers sf = firstn k (parsers sf) ++ (t, p) :: skipn (S k) (parsers sf) -> ~ In 10 headers ->
  text_table nm good m ->
  (forall v, good v -> n_hash (nm v) <> 0 -> row_ok T print p get set (fun v m => mm_insert (n_hash (nm v)) (norm v) m) (has_names NM) v) ->
  exists b, WriteTable print m t headers = Ok b /\
    forall rest fuel d, m_names d = NM -> get d = [] -> (length (b ++ rest) < fuel)%nat ->
    exists fuel', (length rest < fuel')%nat /\ read_tables fuel sf (b ++ rest) d = read_tables fuel' sf rest (set d (mapped norm m)).
Proof.
  intros T nm norm good print get set NM sf t p headers line k m [G1 [G2 G3]] GN [L1 [L2 [L3 [L4 [L5 [L6 [L7 L8]]]]]]] Hp Hh Ht Hrow.
  assert (HG4 : forall d m, has_names NM d -> has_names NM (set d m)) by (intros d m' Hd; unfold has_names; rewrite GN; exact Hd).
  destruct (read_table T print get set _ (has_names NM) sf t p headers line _ _ m G1 G2 G3 HG4 Hp L1 L2 L3 L4 Hh L5 L6 L7 L8 (table_rows _ _ _ _ _ Ht Hrow)) as [b [Hb H]].
  exists b. split; [exact Hb|]. intros rest fuel d Hd Hg Hf. destruct (H rest fuel d Hd Hf) as [f' [H1 H2]]. exists f'. split; [exact H1|]. rewrite H2, Hg.
  rewrite fold_multi; [reflexivity|exact (proj1 Ht)|exact (table_keys _ _ _ _ Ht)].
Qed.
Lemma read_uniq : forall T (nm : T -> name) norm good print get set NM sf t p headers line k (m : zmap T),
  getset get set -> (forall d m, m_names (set d m) = m_names d) ->
  title_line t line k sf -> parsers sf = firstn k (parsers sf) ++ (t, p) :: skipn (S k) (parsers sf) -> ~ In 10 headers ->
  text_table nm good m -> ssorted (keys m) ->
  (forall v, good v -> n_hash (nm v) <> 0 -> row_ok T print p get set (fun v m => m_insert (n_hash (nm v)) (norm v) m) (has_names NM) v) ->
  exists b, WriteTable print m t headers = Ok b /\
    forall rest fuel d, m_names d = NM -> get d = [] -> (length (b ++ rest) < fuel)%nat ->
    exists fuel', (length rest < fuel')%nat /\ read_tables fuel sf (b ++ rest) d = read_tables fuel' sf rest (set d (mapped norm m)).
Proof.
  intros T nm norm good print get set NM sf t p headers line k m [G1 [G2 G3]] GN [L1 [L2 [L3 [L4 [L5 [L6 [L7 L8]]]]]]] Hp Hh Ht Hs Hrow.
  assert (HG4 : forall d m, has_names NM d -> has_names NM (set d m)) by (intros d m' Hd; unfold has_names; rewrite GN; exact Hd).
  destruct (read_table T print get set _ (has_names NM) sf t p headers line _ _ m G1 G2 G3 HG4 Hp L1 L2 L3 L4 Hh L5 L6 L7 L8 (table_rows _ _ _ _ _ Ht Hrow)) as [b [Hb H]].
  exists b. split; [exact Hb|]. intros rest fuel d Hd Hg Hf. destruct (H rest fuel d Hd Hf) as [f' [H1 H2]]. exists f'. split; [exact H1|]. rewrite H2, Hg.
  rewrite fold_unique; [reflexivity|exact Hs|exact (table_keys _ _ _ _ Ht)].
Qed.
Lemma read_names : forall sf headers line (m : zmap name), title_line (str "Names") line 0 sf -> ~ In 10 headers ->
  ssorted (keys m) -> (forall h n, In (h, n) m -> n_hash n = h /\ h <> 0 /\ is_u32 h /\ column_text 4086 (n_text n)) ->
  exists b, WriteTable WriteName m (str "Names") headers = Ok b /\
    forall rest fuel d, m_names d = [] -> (length (b ++ rest) < fuel)%nat ->
    exists fuel', (length rest < fuel')%nat /\ read_tables fuel sf (b ++ rest) d = read_tables fuel' sf rest (with_names d m).
Proof.
  intros sf headers line m [L1 [L2 [L3 [L4 [L5 [L6 [L7 L8]]]]]]] Hh Hs Hm.
  assert (Hrows : Forall (row_ok name WriteName ParseName m_names with_names (fun v m => m_set (n_hash v) v m) (fun _ => True)) (map snd m)).
  { apply Forall_forall. intros v Hv. apply in_map_iff in Hv. destruct Hv as [[k v'] [E Hin]]. cbn in E. subst v'. apply (name_row m Hm). destruct (Hm _ _ Hin) as [E _]. rewrite E. exact Hin. }
  assert (G3 : forall d, with_names d (m_names d) = d) by (intros []; reflexivity).
  destruct (read_table name WriteName m_names with_names (fun v m => m_set (n_hash v) v m) (fun _ => True) sf (str "Names") ParseName headers line [] (skipn 1 (parsers sf)) m
    (fun d m => eq_refl) (fun d m m' => eq_refl) G3 (fun _ _ H => H) eq_refl L1 L2 L3 L4 Hh L5 L6 L7 L8 Hrows) as [b [Hb H]].
  exists b. split; [exact Hb|]. intros rest fuel d Hg Hf. destruct (H rest fuel d I Hf) as [f' [H1 H2]]. exists f'. split; [exact H1|]. rewrite H2, Hg.
  rewrite fold_names; [reflexivity|exact Hs|]. intros k v Hin. symmetry. apply Hm in Hin. tauto.
Qed.
Ltac no_mem := let H := fresh in intros H; vm_compute in H; intuition discriminate.
Ltac title s := exists (fst (take_token 10 match WriteNamedRuler (str s) with Ok l => l | _ => [] end)); 
  split; [vm_compute; reflexivity|]; split; [no_mem|]; split; [no_mem|]; split; [vm_compute; discriminate|]; split; [vm_compute; reflexivity|]; repeat split; vm_compute; reflexivity.
Lemma titles : forall sf,
  (exists l, title_line (str "Names") l 0 sf) /\ (exists l, title_line (str "Namespaces") l 1 sf) /\ (exists l, title_line (str "Types") l 2 sf) /\
  (exists l, title_line (str "Enum Constants") l 3 sf) /\ (exists l, title_line (str "Enums") l 4 sf) /\ (exists l, title_line (str "Fields") l 5 sf) /\
  (exists l, title_line (str "Functions") l 6 sf) /\ (exists l, title_line (str "Templates") l 7 sf) /\ (exists l, title_line (str "Template Types") l 8 sf) /\
  (exists l, title_line (str "Classes") l 9 sf) /\ (exists l, title_line (str "Flag Attributes") l 10 sf) /\ (exists l, title_line (str "Int Attributes") l 11 sf) /\
  (exists l, title_line (str "Float Attributes") l 12 sf) /\ (exists l, title_line (str "Primitive Attributes") l 13 sf) /\ (exists l, title_line (str "Text Attributes") l 14 sf) /\
  (exists l, title_line (str "Containers") l 15 sf) /\ (exists l, title_line (str "Inheritance") l 16 sf).
Proof.
  intros sf. split; [title "Names"%string|]. split; [title "Namespaces"%string|]. split; [title "Types"%string|]. split; [title "Enum Constants"%string|].
  split; [title "Enums"%string|]. split; [title "Fields"%string|]. split; [title "Functions"%string|]. split; [title "Templates"%string|].
  split; [title "Template Types"%string|]. split; [title "Classes"%string|]. split; [title "Flag Attributes"%string|]. split; [title "Int Attributes"%string|].
  split; [title "Float Attributes"%string|]. split; [title "Primitive Attributes"%string|]. split; [title "Text Attributes"%string|]. split; [title "Containers"%string|]. title "Inheritance"%string.
Qed.

Lemma header_read : forall sf rest fuel d, (length (text_header ++ rest) < fuel)%nat ->
  exists fuel', (length rest < fuel')%nat /\ read_tables fuel sf (text_header ++ rest) d = read_tables fuel' sf rest d.
Proof.
  intros sf rest fuel d Hf.
  assert (E : text_header ++ rest = [] ++ nl ++ (str "clReflect Database" ++ nl ++ (str "Format Version: 1" ++ nl ++ ([] ++ nl ++ ([] ++ nl ++ rest))))) by reflexivity.
  rewrite E in Hf |- *.
  assert (N1 : no_table [] (parsers sf)) by (vm_compute; reflexivity).
  assert (N2 : no_table (str "clReflect Database") (parsers sf)) by (vm_compute; reflexivity).
  assert (N3 : no_table (str "Format Version: 1") (parsers sf)) by (vm_compute; reflexivity).
  destruct (read_blank sf [] _ fuel d ltac:(no_mem) ltac:(no_mem) ltac:(vm_compute; discriminate) N1 Hf) as [f1 [F1 E1]]. rewrite E1.
  destruct (read_blank sf (str "clReflect Database") _ f1 d ltac:(no_mem) ltac:(no_mem) ltac:(vm_compute; discriminate) N2 F1) as [f2 [F2 E2]]. rewrite E2.
  destruct (read_blank sf (str "Format Version: 1") _ f2 d ltac:(no_mem) ltac:(no_mem) ltac:(vm_compute; discriminate) N3 F2) as [f3 [F3 E3]]. rewrite E3.
  destruct (read_blank sf [] _ f3 d ltac:(no_mem) ltac:(no_mem) ltac:(vm_compute; discriminate) N1 F3) as [f4 [F4 E4]]. rewrite E4.
  destruct (read_blank sf [] _ f4 d ltac:(no_mem) ltac:(no_mem) ltac:(vm_compute; discriminate) N1 F4) as [f5 [F5 E5]]. rewrite E5. exists f5. auto.
Qed.
Lemma header_check : forall rest, IsTextDatabase (Some (text_header ++ rest)) = Ok true.
Proof.
  intros rest. unfold IsTextDatabase.
  assert (E : text_header ++ rest = [] ++ 10 :: (str "clReflect Database" ++ 10 :: (str "Format Version: 1" ++ 10 :: ([] ++ 10 :: ([] ++ 10 :: rest))))) by reflexivity.
  rewrite E. clear E.
  assert (HF : exists n, S (length ([] ++ 10 :: (str "clReflect Database" ++ 10 :: (str "Format Version: 1" ++ 10 :: ([] ++ 10 :: ([] ++ 10 :: rest)))))) = S (S (S n))).
  { rewrite !app_length. cbn [length]. rewrite !app_length. cbn [length]. eexists. rewrite Nat.add_succ_r. cbn. reflexivity. }
  destruct HF as [n ->].
  cbn [text_check]. rewrite ReadLine_ok by (first [no_mem | vm_compute; discriminate]). cbn [c_cut].
  change (startswith [] (str "clReflect Database")) with false. change (startswith [] (str "Format Version: ")) with false. cbn [andb]. change (0 >? 5) with false. cbv iota.
  rewrite ReadLine_ok by (first [no_mem | vm_compute; discriminate]).
  change (c_cut (str "clReflect Database")) with (str "clReflect Database").
  change (startswith (str "clReflect Database") (str "clReflect Database")) with true. change (startswith (str "clReflect Database") (str "Format Version: ")) with false. cbn [andb]. change (0 + 1 >? 5) with false. cbv iota.
  rewrite ReadLine_ok by (first [no_mem | vm_compute; discriminate]).
  vm_compute. reflexivity.
Qed.

Ltac gs := split; [reflexivity|split; [reflexivity|intros []; reflexivity]].
(* reading a table's bytes fills the table *)
Definition reads {T} (NM : zmap name) (sf : list Z -> Z) (get : database -> zmap T) (set : database -> zmap T -> database) (b : list Z) (m : zmap T) : Prop :=
  forall rest fuel d, m_names d = NM -> get d = [] -> (length (b ++ rest) < fuel)%nat ->
    exists fuel', (length rest < fuel')%nat /\ read_tables fuel sf (b ++ rest) d = read_tables fuel' sf rest (set d m).
Definition names_good (NM : zmap name) : Prop :=
  forall h n, In (h, n) NM -> n_hash n = h /\ h <> 0 /\ is_u32 h /\ column_text 4086 (n_text n).
Lemma table_types : forall (pf : Z -> list Z) sf NM (m : zmap type_), names_good NM -> text_table (fun t => p_name (t_prim t)) (fun t => known_prim NM (t_prim t)) m ->
  exists b, WriteTable WriteType m (str "Types") (cols ["Name"; "Parent"; "Size"]%string) = Ok b /\ reads NM sf m_types with_types b (mapped (fun t => mk_type (t_prim t) (text_u32 (t_size t))) m).
Proof.
  intros pf sf NM m Hn Ht. destruct (titles sf) as [_ [_ [[l T] _]]].
  exact (read_multi type_ (fun t => p_name (t_prim t)) (fun t => mk_type (t_prim t) (text_u32 (t_size t))) _ WriteType m_types with_types NM sf (str "Types") ParseType (cols ["Name"; "Parent"; "Size"]%string) l 2 m
    ltac:(gs) (fun d x => eq_refl) T eq_refl ltac:(no_mem) Ht (type_row NM Hn)).
Qed.
Lemma table_enum_consts : forall (pf : Z -> list Z) sf NM (m : zmap enum_const), names_good NM -> text_table (fun t => p_name (ec_prim t)) (fun e => known_prim NM (ec_prim e)) m ->
  exists b, WriteTable WriteEnumConstant m (str "Enum Constants") (cols ["Name"; "Parent"; "Value"]%string) = Ok b /\ reads NM sf m_enum_consts with_enum_consts b (mapped (fun t => mk_econst (ec_prim t) (text_int (ec_value t))) m).
Proof.
  intros pf sf NM m Hn Ht. destruct (titles sf) as [_ [_ [_ [[l T] _]]]].
  exact (read_multi enum_const (fun t => p_name (ec_prim t)) (fun t => mk_econst (ec_prim t) (text_int (ec_value t))) _ WriteEnumConstant m_enum_consts with_enum_consts NM sf (str "Enum Constants") ParseEnumConstant (cols ["Name"; "Parent"; "Value"]%string) l 3 m
    ltac:(gs) (fun d x => eq_refl) T eq_refl ltac:(no_mem) Ht (econst_row NM Hn)).
Qed.
Lemma table_enums : forall (pf : Z -> list Z) sf NM (m : zmap enum), names_good NM -> text_table (fun t => p_name (e_prim t)) (fun e => known_prim NM (e_prim e) /\ 0 <= e_scoped e <= 2) m ->
  exists b, WriteTable WriteEnum m (str "Enums") (cols ["Name"; "Parent"; "Size"; "Scoped"]%string) = Ok b /\ reads NM sf m_enums with_enums b (mapped (fun e => mk_enum (e_prim e) 4 (e_scoped e)) m).
Proof.
  intros pf sf NM m Hn Ht. destruct (titles sf) as [_ [_ [_ [_ [[l T] _]]]]].
  exact (read_multi enum (fun t => p_name (e_prim t)) (fun e => mk_enum (e_prim e) 4 (e_scoped e)) _ WriteEnum m_enums with_enums NM sf (str "Enums") ParseEnum (cols ["Name"; "Parent"; "Size"; "Scoped"]%string) l 4 m
    ltac:(gs) (fun d x => eq_refl) T eq_refl ltac:(no_mem) Ht (fun v H => enum_row NM Hn v (proj1 H) (proj2 H))).
Qed.
Lemma table_fields : forall (pf : Z -> list Z) sf NM (m : zmap field), names_good NM -> text_table (fun t => p_name (f_prim t)) (fun f => known_prim NM (f_prim f) /\ known NM (f_type f)) m ->
  exists b, WriteTable WriteField m (str "Fields") (cols ["Name"; "Parent"; "Type"; "Mod"]%string ++ tab ++ str "Cst" ++ tab ++ str "Offs" ++ tab ++ str "UID") = Ok b /\ reads NM sf m_fields with_fields b (mapped (fun f => mk_field (f_prim f) (f_type f) (f_qual f) (text_int (f_offset f)) (text_u32 (f_parent_uid f))) m).
Proof.
  intros pf sf NM m Hn Ht. destruct (titles sf) as [_ [_ [_ [_ [_ [[l T] _]]]]]].
  exact (read_multi field (fun t => p_name (f_prim t)) (fun f => mk_field (f_prim f) (f_type f) (f_qual f) (text_int (f_offset f)) (text_u32 (f_parent_uid f))) _ WriteField m_fields with_fields NM sf (str "Fields") ParseField (cols ["Name"; "Parent"; "Type"; "Mod"]%string ++ tab ++ str "Cst" ++ tab ++ str "Offs" ++ tab ++ str "UID") l 5 m
    ltac:(gs) (fun d x => eq_refl) T eq_refl ltac:(no_mem) Ht (fun v H => field_row NM Hn v (proj1 H) (proj2 H))).
Qed.
Lemma table_functions : forall (pf : Z -> list Z) sf NM (m : zmap function), names_good NM -> text_table (fun t => p_name (fn_prim t)) (fun f => known_prim NM (fn_prim f)) m ->
  exists b, WriteTable WriteFunction m (str "Functions") (cols ["Name"; "Parent"; "UID"]%string) = Ok b /\ reads NM sf m_functions with_functions b (mapped (fun f => mk_func (fn_prim f) (text_u32 (fn_uid f)) 0) m).
Proof.
  intros pf sf NM m Hn Ht. destruct (titles sf) as [_ [_ [_ [_ [_ [_ [[l T] _]]]]]]].
  exact (read_multi function (fun t => p_name (fn_prim t)) (fun f => mk_func (fn_prim f) (text_u32 (fn_uid f)) 0) _ WriteFunction m_functions with_functions NM sf (str "Functions") ParseFunction (cols ["Name"; "Parent"; "UID"]%string) l 6 m
    ltac:(gs) (fun d x => eq_refl) T eq_refl ltac:(no_mem) Ht (function_row NM Hn)).
Qed.
Lemma table_classes : forall (pf : Z -> list Z) sf NM (m : zmap class), names_good NM -> text_table (fun t => p_name (c_prim t)) (fun c => known_prim NM (c_prim c)) m ->
  exists b, WriteTable WriteClass m (str "Classes") (cols ["Name"; "Parent"; "Size"; "Base"; "Is Class"]%string) = Ok b /\ reads NM sf m_classes with_classes b (mapped (fun c => mk_class (c_prim c) (text_u32 (c_size c)) (c_is_class c)) m).
Proof.
  intros pf sf NM m Hn Ht. destruct (titles sf) as [_ [_ [_ [_ [_ [_ [_ [_ [_ [[l T] _]]]]]]]]]].
  exact (read_multi class (fun t => p_name (c_prim t)) (fun c => mk_class (c_prim c) (text_u32 (c_size c)) (c_is_class c)) _ WriteClass m_classes with_classes NM sf (str "Classes") ParseClass (cols ["Name"; "Parent"; "Size"; "Base"; "Is Class"]%string) l 9 m
    ltac:(gs) (fun d x => eq_refl) T eq_refl ltac:(no_mem) Ht (class_row NM Hn)).
Qed.
Lemma table_templates : forall (pf : Z -> list Z) sf NM (m : zmap prim), names_good NM -> text_table p_name (known_prim NM) m ->
  exists b, WriteTable WritePrimitive m (str "Templates") (cols ["Name"; "Parent"]%string) = Ok b /\ reads NM sf m_templates with_templates b (mapped (fun p => p) m).
Proof.
  intros pf sf NM m Hn Ht. destruct (titles sf) as [_ [_ [_ [_ [_ [_ [_ [[l T] _]]]]]]]].
  exact (read_multi prim p_name (fun p => p) _ WritePrimitive m_templates with_templates NM sf (str "Templates") ParseTemplate (cols ["Name"; "Parent"]%string) l 7 m
    ltac:(gs) (fun d x => eq_refl) T eq_refl ltac:(no_mem) Ht (template_row NM Hn)).
Qed.
Lemma table_template_types : forall (pf : Z -> list Z) sf NM (m : zmap template_type), names_good NM -> text_table (fun t => p_name (tt_prim t)) (fun t => known_prim NM (tt_prim t) /\ Forall (known NM) (tt_types t) /\ length (tt_types t) = 4%nat /\ length (tt_ptrs t) = 4%nat) m ->
  exists b, WriteTable WriteTemplateType m (str "Template Types") (cols ["Name"; "Parent"; "Argument type and pointer pairs"]%string) = Ok b /\ reads NM sf m_template_types with_template_types b (mapped text_ttype m).
Proof.
  intros pf sf NM m Hn Ht. destruct (titles sf) as [_ [_ [_ [_ [_ [_ [_ [_ [[l T] _]]]]]]]]].
  exact (read_multi template_type (fun t => p_name (tt_prim t)) text_ttype _ WriteTemplateType m_template_types with_template_types NM sf (str "Template Types") ParseTemplateType (cols ["Name"; "Parent"; "Argument type and pointer pairs"]%string) l 8 m
    ltac:(gs) (fun d x => eq_refl) T eq_refl ltac:(no_mem) Ht (fun v H => ttype_row NM Hn v (proj1 H) (proj1 (proj2 H)) (proj1 (proj2 (proj2 H))) (proj2 (proj2 (proj2 H))))).
Qed.
Lemma table_namespaces : forall (pf : Z -> list Z) sf NM (m : zmap prim), names_good NM -> text_table p_name (known_prim NM) m ->
  exists b, WriteTable WritePrimitive m (str "Namespaces") (cols ["Name"; "Parent"]%string) = Ok b /\ reads NM sf m_namespaces with_namespaces b (mapped (fun p => p) m).
Proof.
  intros pf sf NM m Hn Ht. destruct (titles sf) as [_ [[l T] _]].
  exact (read_multi prim p_name (fun p => p) _ WritePrimitive m_namespaces with_namespaces NM sf (str "Namespaces") ParseNamespace (cols ["Name"; "Parent"]%string) l 1 m
    ltac:(gs) (fun d x => eq_refl) T eq_refl ltac:(no_mem) Ht (namespace_row NM Hn)).
Qed.
Lemma table_flag_attrs : forall (pf : Z -> list Z) sf NM (m : zmap prim), names_good NM -> text_table p_name (known_prim NM) m ->
  exists b, WriteTable WritePrimitive m (str "Flag Attributes") (cols ["Name"; "Parent"]%string) = Ok b /\ reads NM sf m_flag_attrs with_flag_attrs b (mapped (fun p => p) m).
Proof.
  intros pf sf NM m Hn Ht. destruct (titles sf) as [_ [_ [_ [_ [_ [_ [_ [_ [_ [_ [[l T] _]]]]]]]]]]].
  exact (read_multi prim p_name (fun p => p) _ WritePrimitive m_flag_attrs with_flag_attrs NM sf (str "Flag Attributes") ParseFlagAttribute (cols ["Name"; "Parent"]%string) l 10 m
    ltac:(gs) (fun d x => eq_refl) T eq_refl ltac:(no_mem) Ht (flag_row NM Hn)).
Qed.
Lemma table_int_attrs : forall (pf : Z -> list Z) sf NM (m : zmap int_attr), names_good NM -> text_table (fun t => p_name (ia_prim t)) (fun a => known_prim NM (ia_prim a)) m ->
  exists b, WriteTable WriteIntAttribute m (str "Int Attributes") (cols ["Name"; "Parent"; "Value"]%string) = Ok b /\ reads NM sf m_int_attrs with_int_attrs b (mapped (fun a => mk_int (ia_prim a) (text_int (ia_value a))) m).
Proof.
  intros pf sf NM m Hn Ht. destruct (titles sf) as [_ [_ [_ [_ [_ [_ [_ [_ [_ [_ [_ [[l T] _]]]]]]]]]]]].
  exact (read_multi int_attr (fun t => p_name (ia_prim t)) (fun a => mk_int (ia_prim a) (text_int (ia_value a))) _ WriteIntAttribute m_int_attrs with_int_attrs NM sf (str "Int Attributes") ParseIntAttribute (cols ["Name"; "Parent"; "Value"]%string) l 11 m
    ltac:(gs) (fun d x => eq_refl) T eq_refl ltac:(no_mem) Ht (int_row NM Hn)).
Qed.
Lemma table_float_attrs : forall (pf : Z -> list Z) sf NM (m : zmap float_attr), names_good NM -> text_table (fun t => p_name (fa_prim t)) (fun a => known_prim NM (fa_prim a) /\ column_text 4000 (pf (fa_value a))) m ->
  exists b, WriteTable (WriteFloatAttribute pf) m (str "Float Attributes") (cols ["Name"; "Parent"; "Value"]%string) = Ok b /\ reads NM sf m_float_attrs with_float_attrs b (mapped (fun a => mk_float (fa_prim a) (sf (pf (fa_value a)))) m).
Proof.
  intros pf sf NM m Hn Ht. destruct (titles sf) as [_ [_ [_ [_ [_ [_ [_ [_ [_ [_ [_ [_ [[l T] _]]]]]]]]]]]]].
  exact (read_multi float_attr (fun t => p_name (fa_prim t)) (fun a => mk_float (fa_prim a) (sf (pf (fa_value a)))) _ (WriteFloatAttribute pf) m_float_attrs with_float_attrs NM sf (str "Float Attributes") (ParseFloatAttribute sf) (cols ["Name"; "Parent"; "Value"]%string) l 12 m
    ltac:(gs) (fun d x => eq_refl) T eq_refl ltac:(no_mem) Ht (fun v H => float_row NM Hn pf sf v (proj1 H) (proj2 H))).
Qed.
Lemma table_prim_attrs : forall (pf : Z -> list Z) sf NM (m : zmap prim_attr), names_good NM -> text_table (fun t => p_name (pa_prim t)) (fun a => known_prim NM (pa_prim a) /\ known NM (pa_value a)) m ->
  exists b, WriteTable WritePrimitiveAttribute m (str "Primitive Attributes") (cols ["Name"; "Parent"; "Value"]%string) = Ok b /\ reads NM sf m_prim_attrs with_prim_attrs b (mapped (fun p => p) m).
Proof.
  intros pf sf NM m Hn Ht. destruct (titles sf) as [_ [_ [_ [_ [_ [_ [_ [_ [_ [_ [_ [_ [_ [[l T] _]]]]]]]]]]]]]].
  exact (read_multi prim_attr (fun t => p_name (pa_prim t)) (fun p => p) _ WritePrimitiveAttribute m_prim_attrs with_prim_attrs NM sf (str "Primitive Attributes") ParsePrimitiveAttribute (cols ["Name"; "Parent"; "Value"]%string) l 13 m
    ltac:(gs) (fun d x => eq_refl) T eq_refl ltac:(no_mem) Ht (fun v H => pattr_row NM Hn v (proj1 H) (proj2 H))).
Qed.
Lemma table_text_attrs : forall (pf : Z -> list Z) sf NM (m : zmap text_attr), names_good NM -> text_table (fun t => p_name (ta_prim t)) (fun a => known_prim NM (ta_prim a) /\ column_text 4077 (ta_value a)) m ->
  exists b, WriteTable WriteTextAttribute m (str "Text Attributes") (cols ["Name"; "Parent"; "Value"]%string) = Ok b /\ reads NM sf m_text_attrs with_text_attrs b (mapped (fun p => p) m).
Proof.
  intros pf sf NM m Hn Ht. destruct (titles sf) as [_ [_ [_ [_ [_ [_ [_ [_ [_ [_ [_ [_ [_ [_ [[l T] _]]]]]]]]]]]]]]].
  exact (read_multi text_attr (fun t => p_name (ta_prim t)) (fun p => p) _ WriteTextAttribute m_text_attrs with_text_attrs NM sf (str "Text Attributes") ParseTextAttribute (cols ["Name"; "Parent"; "Value"]%string) l 14 m
    ltac:(gs) (fun d x => eq_refl) T eq_refl ltac:(no_mem) Ht (fun v H => text_row NM Hn v (proj1 H) (proj2 H))).
Qed.
Lemma table_containers : forall (pf : Z -> list Z) sf NM (m : zmap container_info), names_good NM -> text_table ci_name (fun c => known NM (ci_name c) /\ known NM (ci_read c) /\ known NM (ci_write c)) m -> ssorted (keys m) ->
  exists b, WriteTable WriteContainerInfo m (str "Containers") (cols ["Name"; "Read"; "Write"; "Flags"; "Count"]%string) = Ok b /\ reads NM sf m_containers with_containers b (mapped (fun c => mk_cinfo (ci_name c) (ci_read c) (ci_write c) (text_u32 (ci_flags c)) (text_u32 (ci_count c))) m).
Proof.
  intros pf sf NM m Hn Ht Hs. destruct (titles sf) as [_ [_ [_ [_ [_ [_ [_ [_ [_ [_ [_ [_ [_ [_ [_ [[l T] _]]]]]]]]]]]]]]]].
  exact (read_uniq container_info ci_name (fun c => mk_cinfo (ci_name c) (ci_read c) (ci_write c) (text_u32 (ci_flags c)) (text_u32 (ci_count c))) _ WriteContainerInfo m_containers with_containers NM sf (str "Containers") ParseContainerInfo (cols ["Name"; "Read"; "Write"; "Flags"; "Count"]%string) l 15 m
    ltac:(gs) (fun d x => eq_refl) T eq_refl ltac:(no_mem) Ht Hs (fun v H => container_row NM Hn v (proj1 H) (proj1 (proj2 H)) (proj2 (proj2 H)))).
Qed.
Lemma table_inherits : forall (pf : Z -> list Z) sf NM (m : zmap type_inheritance), names_good NM -> text_table ti_name (fun t => known NM (ti_name t) /\ known NM (ti_derived t) /\ known NM (ti_base t)) m -> ssorted (keys m) ->
  exists b, WriteTable WriteTypeInheritance m (str "Inheritance") (cols ["Name"; "Derived"; "Base"]%string) = Ok b /\ reads NM sf m_inherits with_inherits b (mapped (fun p => p) m).
Proof.
  intros pf sf NM m Hn Ht Hs. destruct (titles sf) as [_ [_ [_ [_ [_ [_ [_ [_ [_ [_ [_ [_ [_ [_ [_ [_ [l T]]]]]]]]]]]]]]]]].
  exact (read_uniq type_inheritance ti_name (fun p => p) _ WriteTypeInheritance m_inherits with_inherits NM sf (str "Inheritance") ParseInheritance (cols ["Name"; "Derived"; "Base"]%string) l 16 m
    ltac:(gs) (fun d x => eq_refl) T eq_refl ltac:(no_mem) Ht Hs (fun v H => inherit_row NM Hn v (proj1 H) (proj1 (proj2 H)) (proj2 (proj2 H)))).
Qed.
Lemma read_all : forall sf NM T1 T2 T3 T4 T5 T6 T7 T8 T9 T10 T11 T12 T13 T14 T15 T16 a0 a1 a2 a3 a4 a5 a6 a7 a8 a9 a10 a11 a12 a13 a14 a15 a16 rest fuel,
  (forall rest fuel d, m_names d = [] -> (length (a0 ++ rest) < fuel)%nat ->
    exists fuel', (length rest < fuel')%nat /\ read_tables fuel sf (a0 ++ rest) d = read_tables fuel' sf rest (with_names d NM)) ->
  reads NM sf m_types with_types a1 T1 -> reads NM sf m_enum_consts with_enum_consts a2 T2 -> reads NM sf m_enums with_enums a3 T3 -> reads NM sf m_fields with_fields a4 T4 ->
  reads NM sf m_functions with_functions a5 T5 -> reads NM sf m_classes with_classes a6 T6 -> reads NM sf m_templates with_templates a7 T7 -> reads NM sf m_template_types with_template_types a8 T8 ->
  reads NM sf m_namespaces with_namespaces a9 T9 -> reads NM sf m_flag_attrs with_flag_attrs a10 T10 -> reads NM sf m_int_attrs with_int_attrs a11 T11 -> reads NM sf m_float_attrs with_float_attrs a12 T12 ->
  reads NM sf m_prim_attrs with_prim_attrs a13 T13 -> reads NM sf m_text_attrs with_text_attrs a14 T14 -> reads NM sf m_containers with_containers a15 T15 -> reads NM sf m_inherits with_inherits a16 T16 ->
  lines rest [] ->
  (length (text_header ++ a0 ++ a1 ++ a2 ++ a3 ++ a4 ++ a5 ++ a6 ++ a7 ++ a8 ++ a9 ++ a10 ++ a11 ++ a12 ++ a13 ++ a14 ++ a15 ++ a16 ++ rest) < fuel)%nat ->
  read_tables fuel sf (text_header ++ a0 ++ a1 ++ a2 ++ a3 ++ a4 ++ a5 ++ a6 ++ a7 ++ a8 ++ a9 ++ a10 ++ a11 ++ a12 ++ a13 ++ a14 ++ a15 ++ a16 ++ rest) db_empty = Ok (mk_db NM T9 T1 T7 T8 T6 T3 T2 T5 T4 T10 T11 T12 T13 T14 T15 T16).
Proof.
  intros sf NM T1 T2 T3 T4 T5 T6 T7 T8 T9 T10 T11 T12 T13 T14 T15 T16 a0 a1 a2 a3 a4 a5 a6 a7 a8 a9 a10 a11 a12 a13 a14 a15 a16 rest fuel R0 R1 R2 R3 R4 R5 R6 R7 R8 R9 R10 R11 R12 R13 R14 R15 R16 Hrest Hfu.
  destruct (header_read sf _ fuel db_empty Hfu) as [fh [Fh Eh]]. rewrite Eh. clear Eh Hfu.
  destruct (R0 _ _ db_empty eq_refl Fh) as [f0 [F0 E0]]. rewrite E0. clear E0 Fh R0.
  Ltac go R F nf nF nE := match goal with |- context [read_tables _ _ _ ?d] => destruct (R _ _ d eq_refl eq_refl F) as [nf [nF nE]]; rewrite nE; clear nE F R end;
    unfold with_types, with_enum_consts, with_enums, with_fields, with_functions, with_classes, with_templates, with_template_types, with_namespaces, with_flag_attrs, with_int_attrs, with_float_attrs, with_prim_attrs, with_text_attrs, with_containers, with_inherits, with_names, db_empty;
    cbn [m_names m_namespaces m_types m_templates m_template_types m_classes m_enums m_enum_consts m_functions m_fields m_flag_attrs m_int_attrs m_float_attrs m_prim_attrs m_text_attrs m_containers m_inherits].
  go R1 F0 f1 F1 E1. go R2 F1 f2 F2 E2. go R3 F2 f3 F3 E3. go R4 F3 f4 F4 E4. go R5 F4 f5 F5 E5. go R6 F5 f6 F6 E6. go R7 F6 f7 F7 E7. go R8 F7 f8 F8 E8. go R9 F8 f9 F9 E9. go R10 F9 f10 F10 E10.
  go R11 F10 f11 F11 E11. go R12 F11 f12 F12 E12. go R13 F12 f13 F13 E13. go R14 F13 f14 F14 E14. go R15 F14 f15 F15 E15. go R16 F15 f16 F16 E16.
  destruct f16 as [|f16]; [lia|]. inversion Hrest as [? Hno|]; subst. cbn [read_tables]. unfold ReadLine. rewrite read_line_eof by exact Hno. reflexivity.
Qed.
Lemma Read_accepted : forall sf f d, IsTextDatabase (Some f) = Ok true -> ReadTextDatabase sf (Some f) d = do d' <- read_tables (S (length f)) sf f d; Ok (Some d').
Proof. intros sf f d H. unfold ReadTextDatabase. rewrite H. reflexivity. Qed.
Lemma bind_Ok : forall A B (a : A) (f : A -> outcome B), obind (Ok a) f = f a.
Proof. reflexivity. Qed.
Theorem text_round_trip : forall pf sf db, text_storable pf db ->
  exists file, WriteTextDatabase pf db = Ok file /\ forall rest,
    IsTextDatabase (Some (file ++ rest)) = Ok true /\
    (lines rest [] -> ReadTextDatabase sf (Some (file ++ rest)) db_empty = Ok (Some (text_stored pf sf db))).
Proof.
  intros pf sf db HS. unfold text_storable in HS. cbv zeta in HS.
  destruct HS as [Hns [Hn [Hnsp [Hty [Htm [Htt [Hcl [Hen [Hec [Hfn [Hfi [Hfl [Hin [Hfa [Hpa [Hta [Hci [Hti [Hcis Htis]]]]]]]]]]]]]]]]]]].
  set (NM := m_names db) in *. destruct (titles sf) as [[l0 T0] _].
  destruct (read_names sf (cols ["Hash"; "Name"]%string) l0 NM T0 ltac:(no_mem) Hns Hn) as [a0 [W0 R0]].
  destruct (table_types pf sf NM (m_types db) Hn Hty) as [a1 [W1 R1]].
  destruct (table_enum_consts pf sf NM (m_enum_consts db) Hn Hec) as [a2 [W2 R2]].
  destruct (table_enums pf sf NM (m_enums db) Hn Hen) as [a3 [W3 R3]].
  destruct (table_fields pf sf NM (m_fields db) Hn Hfi) as [a4 [W4 R4]].
  destruct (table_functions pf sf NM (m_functions db) Hn Hfn) as [a5 [W5 R5]].
  destruct (table_classes pf sf NM (m_classes db) Hn Hcl) as [a6 [W6 R6]].
  destruct (table_templates pf sf NM (m_templates db) Hn Htm) as [a7 [W7 R7]].
  destruct (table_template_types pf sf NM (m_template_types db) Hn Htt) as [a8 [W8 R8]].
  destruct (table_namespaces pf sf NM (m_namespaces db) Hn Hnsp) as [a9 [W9 R9]].
  destruct (table_flag_attrs pf sf NM (m_flag_attrs db) Hn Hfl) as [a10 [W10 R10]].
  destruct (table_int_attrs pf sf NM (m_int_attrs db) Hn Hin) as [a11 [W11 R11]].
  destruct (table_float_attrs pf sf NM (m_float_attrs db) Hn Hfa) as [a12 [W12 R12]].
  destruct (table_prim_attrs pf sf NM (m_prim_attrs db) Hn Hpa) as [a13 [W13 R13]].
  destruct (table_text_attrs pf sf NM (m_text_attrs db) Hn Hta) as [a14 [W14 R14]].
  destruct (table_containers pf sf NM (m_containers db) Hn Hci Hcis) as [a15 [W15 R15]].
  destruct (table_inherits pf sf NM (m_inherits db) Hn Hti Htis) as [a16 [W16 R16]].
  eexists. split.
  { unfold WriteTextDatabase. fold NM. rewrite W0, bind_Ok. rewrite W1, bind_Ok. rewrite W2, bind_Ok. rewrite W3, bind_Ok. rewrite W4, bind_Ok. rewrite W5, bind_Ok.
    rewrite W6, bind_Ok. rewrite W7, bind_Ok. rewrite W8, bind_Ok. rewrite W9, bind_Ok. rewrite W10, bind_Ok. rewrite W11, bind_Ok. rewrite W12, bind_Ok.
    rewrite W13, bind_Ok. rewrite W14, bind_Ok. rewrite W15, bind_Ok. rewrite W16, bind_Ok. reflexivity. }
  intros rest. rewrite <- !app_assoc. split; [apply header_check|]. intros Hrest.
  rewrite Read_accepted by apply header_check.
  match goal with |- context [read_tables ?fu sf ?f db_empty] => assert (Hfu : (length f < fu)%nat) by apply Nat.lt_succ_diag_r; generalize dependent fu; intros fuel Hfu end.
  rewrite (read_all sf NM _ _ _ _ _ _ _ _ _ _ _ _ _ _ _ _ a0 a1 a2 a3 a4 a5 a6 a7 a8 a9 a10 a11 a12 a13 a14 a15 a16 rest fuel R0 R1 R2 R3 R4 R5 R6 R7 R8 R9 R10 R11 R12 R13 R14 R15 R16 Hrest Hfu).
  rewrite bind_Ok. unfold text_stored. fold NM. rewrite !mapped_id. reflexivity.
Qed.

(* ---- databases kept exactly ---- *)
Lemma mapped_same : forall T (f : T -> T) (m : zmap T), all_rows (fun v => f v = v) m -> mapped f m = m.
Proof.
  intros T f m H. unfold mapped. rewrite <- (map_id m) at 2. apply map_ext_in. intros [k v] Hin. cbn [fst snd]. rewrite (H k v Hin). reflexivity.
Qed.
Lemma rows_impl : forall T (P Q : T -> Prop) (m : zmap T), (forall v, P v -> Q v) -> all_rows P m -> all_rows Q m.
Proof. intros T P Q m H HP k v Hin. apply H. exact (HP k v Hin). Qed.
Lemma text_int_id : forall v, 0 <= v < 10 ^ 9 -> text_int v = v.
Proof. intros v H. unfold text_int. rewrite Z.mod_small by lia. cbv zeta. replace (v <? 10 ^ 9) with true by lia. reflexivity. Qed.
Lemma filter_all_none : forall (l : list (name * bool)) n, Forall (fun x => n_hash (fst x) <> 0) l -> filter given (l ++ repeat (noname, false) n) = l.
Proof.
  intros l n H. induction H as [|[t p] l Hx H IH]; cbn [app filter].
  - induction n as [|n IH]; [reflexivity|]. cbn. exact IH.
  - unfold given at 1. cbn [fst] in *. replace (n_hash t =? 0) with false by lia. cbn [negb]. rewrite IH. reflexivity.
Qed.
Lemma map_repeat_ : forall A B (f : A -> B) x n, map f (repeat x n) = repeat (f x) n.
Proof. induction n as [|n IH]; [reflexivity|]. cbn. rewrite IH. reflexivity. Qed.
Lemma combine_fst : forall A B (a : list A) (b : list B), length a = length b -> map fst (combine a b) = a /\ map snd (combine a b) = b.
Proof.
  induction a as [|x a IH]; intros [|y b] H; try discriminate; [split; reflexivity|]. injection H as H. destruct (IH b H) as [H1 H2]. cbn. rewrite H1, H2. auto.
Qed.
Lemma text_ttype_id : forall t, is_u32 (tt_size t) -> length (tt_types t) = 4%nat -> length (tt_ptrs t) = 4%nat -> no_gaps t -> text_ttype t = t.
Proof.
  intros [p s ts ps] Hs H1 H2 [l [n [Hc Hl]]]. cbn [tt_size tt_types tt_ptrs tt_prim] in *. unfold text_ttype. cbn [tt_size tt_types tt_ptrs tt_prim]. cbv zeta.
  rewrite text_u32_id by exact Hs. destruct (combine_fst _ _ ts ps ltac:(lia)) as [C1 C2]. rewrite Hc in *. rewrite filter_all_none by exact Hl.
  assert (Hlen : (length l + n = 4)%nat) by (rewrite <- H1, <- C1, map_length, app_length, repeat_length; reflexivity).
  rewrite !firstn_pad by (rewrite map_length; lia). rewrite !map_length. replace (4 - length l)%nat with n by lia.
  rewrite map_app, map_repeat_ in C1, C2. cbn [fst snd] in *. rewrite C1, C2. reflexivity.
Qed.
Lemma text_exact_ok : forall pf sf db, text_storable pf db -> text_exact pf sf db -> text_stored pf sf db = db.
Proof.
  intros pf sf db HS [E1 [E2 [E3 [E4 [E5 [E6 [E7 [E8 [E9 E10]]]]]]]]].
  assert (HT : all_rows (fun t => length (tt_types t) = 4%nat /\ length (tt_ptrs t) = 4%nat) (m_template_types db)).
  { unfold text_storable in HS. cbv zeta in HS. destruct HS as [_ [_ [_ [_ [_ [[_ Htt] _]]]]]]. intros k v Hin. destruct (Htt k v Hin) as [_ [_ H]]. tauto. }
  unfold text_stored.
  rewrite (mapped_same _ _ (m_types db)) by (eapply rows_impl; [|exact E1]; intros [] H; cbn in *; rewrite text_u32_id by exact H; reflexivity).
  rewrite (mapped_same _ text_ttype (m_template_types db)) by (intros k v Hin; destruct (E2 k v Hin), (HT k v Hin); apply text_ttype_id; assumption).
  rewrite (mapped_same _ _ (m_classes db)) by (eapply rows_impl; [|exact E3]; intros [] H; cbn in *; rewrite text_u32_id by exact H; reflexivity).
  rewrite (mapped_same _ _ (m_enums db)) by (eapply rows_impl; [|exact E4]; intros [] H; cbn in *; rewrite H; reflexivity).
  rewrite (mapped_same _ _ (m_enum_consts db)) by (eapply rows_impl; [|exact E5]; intros [p x] H; cbn [ec_value ec_prim] in *; rewrite text_int_id by exact H; reflexivity).
  rewrite (mapped_same _ _ (m_functions db)) by (eapply rows_impl; [|exact E6]; intros [] [H H']; cbn in *; rewrite text_u32_id by exact H; rewrite H'; reflexivity).
  rewrite (mapped_same _ _ (m_fields db)) by (eapply rows_impl; [|exact E7]; intros [a b c e g] [H H']; cbn [f_offset f_parent_uid f_prim f_type f_qual] in *; rewrite text_int_id by exact H; rewrite text_u32_id by exact H'; reflexivity).
  rewrite (mapped_same _ _ (m_int_attrs db)) by (eapply rows_impl; [|exact E8]; intros [p x] H; cbn [ia_value ia_prim] in *; rewrite text_int_id by exact H; reflexivity).
  rewrite (mapped_same _ _ (m_float_attrs db)) by (eapply rows_impl; [|exact E9]; intros [] H; cbn in *; rewrite H; reflexivity).
  rewrite (mapped_same _ _ (m_containers db)) by (eapply rows_impl; [|exact E10]; intros [a b c e g] [H H']; cbn [ci_name ci_read ci_write ci_flags ci_count] in *; rewrite !text_u32_id by assumption; reflexivity).
  destruct db; reflexivity.
Qed.

(* ---- the format check ---- *)
Lemma c_cut_upto : forall s, c_cut s = upto 0 s.
Proof. induction s as [|c s IH]; [reflexivity|]. cbn. rewrite IH. reflexivity. Qed.
Fixpoint check_lines (ls : list (list Z)) : outcome bool :=
  match ls with
  | [] => Ok true
  | l :: r =>
      if startswith (line_text l) (str "Format Version: ") then
        do v <- tok_int 58 (snd (tok_get 58 (line_text l))); Ok (if fst v =? CURRENT_VERSION then true else false)
      else check_lines r
  end.
Lemma text_check_ok : forall f ls, lines f ls -> forall fuel i, (length ls < fuel)%nat -> 0 <= i <= 6 ->
  text_check fuel f i true = check_lines (firstn (Z.to_nat (7 - i)) ls).
Proof.
  intros f ls H. induction H as [f H|l r ls Hn H IH]; intros fuel i Hf Hi; (destruct fuel as [|fuel]; [cbn in Hf; lia|]); cbn [text_check].
  - unfold ReadLine. rewrite read_line_eof by exact H. rewrite firstn_nil. reflexivity.
  - unfold ReadLine. rewrite read_line_ok by exact Hn. cbn [rev app]. change (4095 - length (@nil Z))%nat with 4095%nat. rewrite c_cut_upto. fold (line_text l).
    replace (Z.to_nat (7 - i)) with (S (Z.to_nat (6 - i))) by lia. cbn [firstn check_lines]. replace (if startswith (line_text l) (str "clReflect Database") then true else true) with true by (destruct (startswith _ _); reflexivity).
    cbn [andb]. destruct (startswith (line_text l) (str "Format Version: ")); [reflexivity|].
    destruct (Z.gtb_spec i 5) as [Hg|Hg].
    + replace (Z.to_nat (6 - i)) with 0%nat by lia. reflexivity.
    + rewrite IH by (cbn in Hf; lia). f_equal. f_equal. lia.
Qed.
Lemma lines_length : forall f ls, lines f ls -> (length ls <= length f)%nat.
Proof. intros f ls H. induction H; cbn [length]; [lia|]. rewrite app_length. cbn [length]. lia. Qed.
Lemma IsText_lines : forall f ls, lines f ls -> IsTextDatabase (Some f) = check_lines (firstn 7 ls).
Proof.
  intros f ls H. unfold IsTextDatabase. rewrite (text_check_ok f ls H) by (pose proof (lines_length f ls H); lia). reflexivity.
Qed.
Lemma version_line_ok : forall l, version_line l <-> startswith (line_text l) (str "Format Version: ") = true.
Proof. intros l. rewrite startswith_ok. reflexivity. Qed.
Lemma check_none : forall ls, (forall l, In l ls -> ~ version_line l) -> check_lines ls = Ok true.
Proof.
  induction ls as [|l ls IH]; intros H; [reflexivity|]. cbn [check_lines]. destruct (startswith (line_text l) (str "Format Version: ")) eqn:E.
  - exfalso. apply (H l (or_introl eq_refl)). apply version_line_ok. exact E.
  - apply IH. intros l' Hl. apply H. right. exact Hl.
Qed.
Lemma check_first : forall a l b, (forall x, In x a -> ~ version_line x) -> version_line l -> check_lines (a ++ l :: b) =
  do v <- tok_int 58 (snd (tok_get 58 (line_text l))); Ok (fst v =? 1).
Proof.
  induction a as [|x a IH]; intros l b Ha Hl; cbn [app check_lines].
  - apply version_line_ok in Hl. rewrite Hl. unfold CURRENT_VERSION. destruct (tok_int _ _) as [v| | |]; cbn [obind]; try reflexivity. destruct (fst v =? 1); reflexivity.
  - destruct (startswith (line_text x) (str "Format Version: ")) eqn:E; [exfalso; apply (Ha x (or_introl eq_refl)); apply version_line_ok; exact E|].
    apply IH; [|exact Hl]. intros y Hy. apply Ha. right. exact Hy.
Qed.
Lemma take_token_upto : forall d s, fst (take_token d s) = upto d s.
Proof. intros d s. induction s as [|c s IH]; [reflexivity|]. cbn. destruct (c =? d); [reflexivity|]. cbn. rewrite IH. reflexivity. Qed.
Lemma version_token : forall v, tok_int 58 (snd (tok_get 58 (str "Format Version: " ++ v))) = do x <- atoi (upto 58 (32 :: v)); Ok (x, snd (take_token 58 (32 :: v))).
Proof.
  intros v. replace (str "Format Version: " ++ v) with (str "Format Version" ++ 58 :: 32 :: v) by reflexivity.
  rewrite (tok_get_gen_app 58) by (first [discriminate | repeat constructor; discriminate]). cbn [snd]. unfold tok_int, tok_get. cbn [skip_delim]. change (32 =? 58) with false. cbv iota zeta.
  rewrite take_token_upto. reflexivity.
Qed.
Lemma upto_app : forall d a b, Forall (fun c => c <> d) a -> upto d (a ++ b) = a ++ upto d b.
Proof. intros d a b H. induction H as [|c a Hc H IH]; [reflexivity|]. cbn. replace (c =? d) with false by lia. rewrite IH. reflexivity. Qed.
Lemma skip_space_app : forall b r, Forall blank b -> skip_space (b ++ r) = skip_space r.
Proof.
  intros b r H. induction H as [|c b Hc H IH]; [reflexivity|]. cbn [app skip_space]. replace (is_space c) with true by (unfold is_space; unfold blank in Hc; lia). exact IH.
Qed.
Lemma number_digits : forall s acc v, number dec_digit 10 s acc = Some v -> Forall (fun c => 48 <= c <= 57) s.
Proof.
  induction s as [|c s IH]; intros acc v H; [constructor|]. cbn in H. unfold dec_digit in H. destruct ((48 <=? c) && (c <=? 57)) eqn:E; [|discriminate].
  constructor; [lia|]. eapply IH. exact H.
Qed.
Lemma atoi_digits_stop : forall s r acc v, number dec_digit 10 s acc = Some v -> match r with c :: _ => dec_digit c = None | [] => True end -> atoi_digits (s ++ r) acc = v.
Proof.
  induction s as [|c s IH]; intros r acc v H Hr; cbn [number app] in *.
  - injection H as <-. destruct r as [|c r]; [reflexivity|]. cbn. unfold dec_digit in Hr. destruct ((48 <=? c) && (c <=? 57)); [discriminate|reflexivity].
  - cbn [atoi_digits]. unfold dec_digit in H. destruct ((48 <=? c) && (c <=? 57)); [|discriminate]. apply IH; assumption.
Qed.
Lemma skip_space_head : forall c r, ~ blank c -> skip_space (c :: r) = c :: r.
Proof. intros c r H. cbn. replace (is_space c) with false; [reflexivity|]. symmetry. unfold is_space. unfold blank in H. lia. Qed.
Lemma upto_head : forall d r, match upto d r with c :: _ => exists r', r = c :: r' | [] => True end.
Proof. intros d [|c r]; cbn; [exact I|]. destruct (c =? d); [exact I|]. eauto. Qed.
Lemma check_version : forall f ls a l b n, lines f ls -> firstn 7 ls = a ++ l :: b -> (forall x, In x a -> ~ version_line x) ->
  says_version l n -> n < 2 ^ 31 -> IsTextDatabase (Some f) = Ok (n =? 1).
Proof.
  intros f ls a l b n H E Ha [bl [ds [r [El [Hb [Hne [Hd Hr]]]]]]] Hn. rewrite (IsText_lines f ls H), E, check_first; [|exact Ha|exists (bl ++ ds ++ r); exact El].
  rewrite El, version_token. pose proof (number_digits _ _ _ Hd) as Hdig.
  change (32 :: bl ++ ds ++ r) with ((32 :: bl) ++ ds ++ r). rewrite !upto_app.
  2:{ eapply Forall_impl; [|exact Hdig]. intros c Hc. cbv beta in *. lia. }
  2:{ constructor; [discriminate|]. eapply Forall_impl; [|exact Hb]. intros c Hc. unfold blank in Hc. lia. }
  assert (Hat : atoi ((32 :: bl) ++ ds ++ upto 58 r) = Ok n); [|rewrite Hat; reflexivity].
  assert (Hs : atoi ((32 :: bl) ++ ds ++ upto 58 r) = atoi (ds ++ upto 58 r)).
  { unfold atoi. rewrite skip_space_app by (constructor; [left; reflexivity|exact Hb]). reflexivity. }
  rewrite Hs. destruct ds as [|c ds]; [contradiction|]. cbn [app]. inversion Hdig; subst. rewrite atoi_start by assumption. cbv zeta.
  change (c :: ds ++ upto 58 r) with ((c :: ds) ++ upto 58 r). rewrite (atoi_digits_stop _ _ 0 n Hd).
  - pose proof (number_nonneg (c :: ds) 0 n ltac:(lia) Hd). replace ((-2147483648 <=? n) && (n <? 2147483648)) with true by lia. reflexivity.
  - pose proof (upto_head 58 r) as Hu. destruct (upto 58 r) as [|c' r']; [exact I|]. destruct Hu as [r2 ->]. exact Hr.
Qed.
Lemma check_bad : forall f ls a l b bl r, lines f ls -> firstn 7 ls = a ++ l :: b -> (forall x, In x a -> ~ version_line x) ->
  line_text l = str "Format Version: " ++ bl ++ r -> Forall blank bl ->
  match r with c :: _ => ~ blank c /\ dec_digit c = None /\ c <> 43 /\ c <> 45 | [] => True end -> IsTextDatabase (Some f) = Ok false.
Proof.
  intros f ls a l b bl r H E Ha El Hb Hr. rewrite (IsText_lines f ls H), E, check_first; [|exact Ha|exists (bl ++ r); exact El].
  rewrite El, version_token. change (32 :: bl ++ r) with ((32 :: bl) ++ r). rewrite upto_app.
  2:{ constructor; [discriminate|]. eapply Forall_impl; [|exact Hb]. intros c Hc. unfold blank in Hc. lia. }
  assert (Hat : atoi ((32 :: bl) ++ upto 58 r) = Ok 0); [|rewrite Hat; reflexivity].
  unfold atoi. rewrite skip_space_app by (constructor; [left; reflexivity|exact Hb]). pose proof (upto_head 58 r) as Hu. destruct (upto 58 r) as [|c' r']; [reflexivity|]. destruct Hu as [r2 ->].
  destruct Hr as [H1 [H2 [H3 H4]]]. rewrite skip_space_head by exact H1.
  assert (E2 : match c' :: r' with 45 :: r0 => - atoi_digits r0 0 | 43 :: r0 => atoi_digits r0 0 | r0 => atoi_digits r0 0 end = atoi_digits (c' :: r') 0).
  { clear - H3 H4. destruct c' as [|p|p]; try reflexivity. destruct p as [p|p|]; try reflexivity.
    destruct p as [p|p|]; try reflexivity; destruct p as [p|p|]; try reflexivity; destruct p as [p|p|]; try reflexivity; destruct p as [p|p|]; try reflexivity; destruct p as [p|p|]; try reflexivity; exfalso; lia. }
  rewrite E2. cbn [atoi_digits]. unfold dec_digit in H2. destruct ((48 <=? c') && (c' <=? 57)); [discriminate|]. reflexivity.
Qed.

(* ---- termination ---- *)
Definition nofuel {A} (x : outcome A) : Prop := x <> Fuel.
Lemma nofuel_bind : forall A B (x : outcome A) (f : A -> outcome B), nofuel x -> (forall a, nofuel (f a)) -> nofuel (obind x f).
Proof. intros A B x f Hx Hf. destruct x; cbn; try discriminate; [apply Hf|contradiction]. Qed.
Lemma nofuel_ok : forall A (a : A), nofuel (Ok a).
Proof. discriminate. Qed.
Lemma nofuel_add : forall T nm (v : T) m, nofuel (db_add nm v m).
Proof. intros. unfold db_add, assert. destruct (negb _); discriminate. Qed.
Lemma nofuel_addu : forall T nm (v : T) m, nofuel (db_add_unique nm v m).
Proof. intros. unfold db_add_unique, assert. destruct (negb _); discriminate. Qed.
Lemma nofuel_atoi : forall s, nofuel (atoi s).
Proof. intros s. unfold atoi. cbv zeta. destruct (_ && _); discriminate. Qed.
Lemma nofuel_tok_int : forall d t, nofuel (tok_int d t).
Proof. intros d t. unfold tok_int. destruct (tok_get d t) as [[s|] r]; [apply nofuel_bind; [apply nofuel_atoi|intros; apply nofuel_ok]|apply nofuel_ok]. Qed.
Lemma nofuel_qual : forall t, nofuel (ParseQualifier t).
Proof. intros t. unfold ParseQualifier. destruct (tok_get 9 t) as [[s|] r]; [|discriminate]. destruct (tok_get 9 r) as [[s'|] r']; discriminate. Qed.
Lemma nofuel_scoped : forall t, nofuel (ParseEnumScoped t).
Proof.
  intros t. unfold ParseEnumScoped, nofuel. destruct (tok_get 9 t) as [[[|c s]|] r]; try discriminate.
  repeat match goal with |- context [match ?x with _ => _ end] => destruct x; try discriminate end.
Qed.
Lemma nofuel_wr : forall A (l : list A) i a, nofuel (wr l i a).
Proof. intros. unfold wr. destruct (_ && _); discriminate. Qed.
Lemma nofuel_params : forall d n i t ts ps, nofuel (parse_params d n i t ts ps).
Proof.
  induction n as [|n IH]; intros; cbn [parse_params]; [discriminate|]. cbv zeta. destruct (_ =? 0); [discriminate|].
  apply nofuel_bind; [apply nofuel_wr|intros]. apply nofuel_bind; [apply nofuel_tok_int|intros]. apply nofuel_bind; [apply nofuel_wr|intros]. apply IH.
Qed.
Lemma parsers_nofuel : forall sf, Forall (fun x => forall l d, nofuel (snd x l d)) (parsers sf).
Proof.
  intros sf. unfold parsers. repeat (apply Forall_cons; [cbn [snd]; intros l d|]); [..|apply Forall_nil];
  unfold ParseName, ParseNamespace, ParseTemplate, ParseFlagAttribute, ParseType, ParseEnumConstant, ParseEnum, ParseField, ParseFunction, ParseClass, ParseTemplateType, ParseIntAttribute,
    ParseFloatAttribute, ParsePrimitiveAttribute, ParseTextAttribute, ParseContainerInfo, ParseInheritance; cbv zeta;
  repeat first [apply nofuel_ok | apply nofuel_add | apply nofuel_addu | apply nofuel_tok_int | apply nofuel_qual | apply nofuel_scoped | apply nofuel_params
    | apply nofuel_bind; [|intros] | discriminate | match goal with |- nofuel (match ?x with _ => _ end) => destruct x end].
Qed.
Lemma read_line_shrinks : forall f acc, match read_line f acc with (Some _, r) => (length r < length f)%nat | (None, r) => r = [] end.
Proof.
  induction f as [|c f IH]; intros acc; cbn [read_line]; [reflexivity|]. destruct (c =? 10); [cbn; lia|].
  specialize (IH (if zlen acc <? 4096 - 1 then c :: acc else acc)). destruct (read_line f _) as [[l|] r]; [cbn; lia|exact IH].
Qed.
Definition good_read (f : list Z) (x : outcome (list Z * list Z * database)) : Prop :=
  nofuel x /\ forall r l d, x = Ok (r, l, d) -> (length r <= length f)%nat.
Lemma parse_rows_term : forall p, (forall l d, nofuel (p l d)) -> forall fuel f line d, (length f < fuel)%nat -> good_read f (parse_rows fuel p f line d).
Proof.
  intros p Hp. induction fuel as [|fuel IH]; intros f line d Hf; [lia|]. cbn [parse_rows]. unfold ReadLine. pose proof (read_line_shrinks f []) as Hs.
  destruct (read_line f []) as [[l|] r].
  - destruct (startswith (c_cut l) (str "----")); [split; [discriminate|]; intros r0 l0 d0 E; injection E as <- _ _; lia|].
    specialize (Hp (c_cut l) d). destruct (p (c_cut l) d) as [d'| | |]; cbn [obind]; try (split; [discriminate|intros; discriminate]); [|contradiction].
    destruct (IH r (c_cut l) d' ltac:(lia)) as [H1 H2]. split; [exact H1|]. intros r0 l0 d0 E. apply H2 in E. lia.
  - subst r. split; [discriminate|]. intros r0 l0 d0 E. injection E as <- _ _. cbn. lia.
Qed.
Lemma try_tables_term : forall ps, Forall (fun x => forall l d, nofuel (snd x l d)) ps -> forall fuel f line d, (length f < fuel)%nat -> good_read f (try_tables fuel ps f line d).
Proof.
  intros ps H. induction H as [|[t p] ps Hp H IH]; intros fuel f line d Hf; cbn [try_tables].
  - split; [discriminate|]. intros r l d0 E. injection E as <- _ _. lia.
  - cbn [snd] in Hp. assert (HT : good_read f (ParseTable fuel t p f line d)).
    { unfold ParseTable. destruct (startswith line _); [|split; [discriminate|]; intros r l d0 E; injection E as <- _ _; lia].
      unfold ReadLine. pose proof (read_line_shrinks f []) as Hs. destruct (read_line f []) as [[l|] r]; [|split; [discriminate|]; intros r0 l0 d0 E; injection E as <- _ _; subst; cbn; lia].
      pose proof (read_line_shrinks r []) as Hs'. destruct (read_line r []) as [[l'|] r']; [|split; [discriminate|]; intros r0 l0 d0 E; injection E as <- _ _; subst; cbn; lia].
      destruct (parse_rows_term p Hp fuel r' (c_cut l') d ltac:(lia)) as [H1 H2]. split; [exact H1|]. intros r0 l0 d0 E. apply H2 in E. lia. }
    destruct HT as [H1 H2]. destruct (ParseTable fuel t p f line d) as [[[r l] d']| | |]; cbn [obind fst snd]; try (split; [discriminate|intros; discriminate]); [|exfalso; apply H1; reflexivity].
    specialize (H2 r l d' eq_refl). destruct (IH fuel r l d' ltac:(lia)) as [H3 H4]. split; [exact H3|]. intros r0 l0 d0 E. apply H4 in E. lia.
Qed.
Lemma read_tables_term : forall sf fuel f d, (length f < fuel)%nat -> nofuel (read_tables fuel sf f d).
Proof.
  intros sf. induction fuel as [|fuel IH]; intros f d Hf; [lia|]. remember (S fuel) as fu eqn:Efu. rewrite Efu. cbn [read_tables]. rewrite <- Efu. unfold ReadLine. pose proof (read_line_shrinks f []) as Hs.
  destruct (read_line f []) as [[l|] r]; [|discriminate].
  destruct (try_tables_term _ (parsers_nofuel sf) fu r (c_cut l) d ltac:(lia)) as [H1 H2]. destruct (try_tables fu (parsers sf) r (c_cut l) d) as [[[r' l'] d']| | |]; cbn [obind fst snd]; try discriminate; [|contradiction].
  apply IH. specialize (H2 _ _ _ eq_refl). lia.
Qed.
Lemma text_check_term : forall fuel f i b, (length f < fuel)%nat -> nofuel (text_check fuel f i b).
Proof.
  induction fuel as [|fuel IH]; intros f i b Hf; [lia|]. cbn [text_check]. unfold ReadLine. pose proof (read_line_shrinks f []) as Hs.
  destruct (read_line f []) as [[l|] r]; [|discriminate]. cbv zeta. destruct (_ && _); [apply nofuel_bind; [apply nofuel_tok_int|intros; discriminate]|].
  destruct (i >? 5); [discriminate|]. apply IH. lia.
Qed.
Lemma reader_terminates : forall sf file d, IsTextDatabase file <> Fuel /\ ReadTextDatabase sf file d <> Fuel.
Proof.
  intros sf file d. assert (H : nofuel (IsTextDatabase file)) by (destruct file as [f|]; [apply text_check_term; lia|discriminate]). split; [exact H|].
  unfold ReadTextDatabase. apply nofuel_bind; [exact H|]. intros b. destruct (negb b); [discriminate|]. destruct file as [f|]; [|discriminate].
  apply nofuel_bind; [apply read_tables_term; lia|intros; discriminate].
Qed.
