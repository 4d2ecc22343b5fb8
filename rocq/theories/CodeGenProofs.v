(* Numbers, lines and reading for generated code. *)
From Coq Require Import Permutation.
From Verif Require Import Base BaseProofs Text Maps HashModel HashSpec HashProofs FileUtilsModel FileUtilsSpec FileUtilsProofs JsonNumSpec DatabaseModel CodeGenModel CodeGenSpec.

(* ---- numbers ---- *)
Definition digits_only (ds : list Z) : Prop := Forall (fun c => 48 <= c <= 57 \/ 97 <= c <= 102) ds.
Lemma hex_char_ok : forall d, 0 <= d < 16 -> hex_digit (hex_char d) = Some d /\ (48 <= hex_char d <= 57 \/ 97 <= hex_char d <= 102) /\ (hex_char d = 48 -> d = 0).
Proof.
  intros d Hd. unfold hex_char, hex_digit. destruct (Z.ltb_spec d 10).
  - replace ((48 <=? 48 + d) && (48 + d <=? 57)) with true by lia. split; [f_equal; lia|lia].
  - replace ((48 <=? 97 + (d - 10)) && (97 + (d - 10) <=? 57)) with false by lia.
    replace ((97 <=? 97 + (d - 10)) && (97 + (d - 10) <=? 102)) with true by lia. split; [f_equal; lia|lia].
Qed.
Lemma num_app : forall digit radix a b acc, number digit radix (a ++ b) acc = match number digit radix a acc with Some v => number digit radix b v | None => None end.
Proof. induction a as [|c a IH]; intros b acc; cbn; [reflexivity|]. destruct (digit c); [apply IH|reflexivity]. Qed.
Lemma hex_print_ok : forall n v acc, (0 < n)%nat -> 0 <= v < 16 ^ Z.of_nat n ->
  exists ds, hex_print n v acc = ds ++ acc /\ number hex_digit 16 ds 0 = Some v /\ digits_only ds /\ (length ds <= n)%nat /\ ds <> [] /\ (forall r, ds = 48 :: r -> v = 0 /\ r = []).
Proof.
  induction n as [|n IH]; intros v acc Hn Hv; [lia|]. cbn [hex_print].
  pose proof (Z.mod_pos_bound v 16 ltac:(lia)) as Hm. pose proof (Z.div_mod v 16 ltac:(lia)) as Hdm.
  destruct (hex_char_ok (v mod 16) Hm) as [H1 [H2 H3]].
  destruct (Z.eqb_spec (v / 16) 0) as [E|E].
  - exists [hex_char (v mod 16)]. split; [reflexivity|]. split; [cbn [number]; rewrite H1; f_equal; lia|]. split; [constructor; [exact H2|constructor]|].
    split; [cbn; lia|]. split; [discriminate|]. intros r Hr. injection Hr as Hc Hr. apply H3 in Hc. split; [lia|congruence].
  - assert (Hf0 : (0 < n)%nat). { destruct n; [|lia]. exfalso. apply E. apply Z.div_small. cbn in Hv. lia. }
    rewrite Nat2Z.inj_succ, Z.pow_succ_r in Hv by lia.
    destruct (IH (v / 16) (hex_char (v mod 16) :: acc) Hf0) as [ds [K1 [K2 [K3 [K4 [K5 K6]]]]]].
    { split; [apply Z.div_pos; lia|]. apply Z.div_lt_upper_bound; lia. }
    exists (ds ++ [hex_char (v mod 16)]). rewrite K1, <- app_assoc. split; [reflexivity|].
    split; [rewrite num_app, K2; cbn [number]; rewrite H1; f_equal; lia|]. split; [apply Forall_app; split; [exact K3|constructor; [exact H2|constructor]]|].
    split; [rewrite app_length; cbn; lia|]. split; [destruct ds; discriminate|].
    intros r Hr. destruct ds as [|d ds]; [congruence|]. cbn in Hr. injection Hr as -> Hr. destruct (K6 ds eq_refl) as [Hz _]. congruence.
Qed.
Lemma fmt_x_ok : forall v, is_u32 v -> hex_text v (fmt_x v) /\ digits_only (fmt_x v) /\ (length (fmt_x v) <= 8)%nat.
Proof.
  intros v Hv. unfold is_u32 in Hv. destruct (hex_print_ok 8 v [] ltac:(lia)) as [ds [K1 [K2 [K3 [K4 [K5 K6]]]]]]; [change (16 ^ Z.of_nat 8) with (2 ^ 32); lia|].
  unfold fmt_x. rewrite K1, app_nil_r. split; [|auto]. split; [|exact K2]. split; [exact K5|]. intros r Hr. apply (K6 r Hr).
Qed.
Lemma dec_print_ok : forall n v acc, (0 < n)%nat -> 0 <= v < 10 ^ Z.of_nat n ->
  exists ds, dec_loop n v acc = ds ++ acc /\ number dec_digit 10 ds 0 = Some v /\ digits_only ds /\ (forall k : nat, (0 < k)%nat -> v < 10 ^ Z.of_nat k -> (length ds <= k)%nat) /\ ds <> [] /\ (forall r, ds = 48 :: r -> v = 0 /\ r = []).
Proof.
  induction n as [|n IH]; intros v acc Hn Hv; [lia|]. cbn [dec_loop].
  pose proof (Z.mod_pos_bound v 10 ltac:(lia)) as Hm. pose proof (Z.div_mod v 10 ltac:(lia)) as Hdm.
  assert (H1 : dec_digit (48 + v mod 10) = Some (v mod 10)).
  { unfold dec_digit. replace ((48 <=? 48 + v mod 10) && (48 + v mod 10 <=? 57)) with true by lia. f_equal. lia. }
  destruct (Z.eqb_spec (v / 10) 0) as [E|E].
  - exists [48 + v mod 10]. split; [reflexivity|]. split; [cbn [number]; rewrite H1; f_equal; lia|]. split; [constructor; [lia|constructor]|].
    split; [intros k Hk _; cbn; lia|]. split; [discriminate|]. intros r Hr. assert (48 + v mod 10 = 48) by congruence. split; [lia|congruence].
  - assert (Hf0 : (0 < n)%nat). { destruct n; [|lia]. exfalso. apply E. apply Z.div_small. cbn in Hv. lia. }
    rewrite Nat2Z.inj_succ, Z.pow_succ_r in Hv by lia.
    destruct (IH (v / 10) ((48 + v mod 10) :: acc) Hf0) as [ds [K1 [K2 [K3 [K4 [K5 K6]]]]]].
    { split; [apply Z.div_pos; lia|]. apply Z.div_lt_upper_bound; lia. }
    exists (ds ++ [48 + v mod 10]). rewrite K1, <- app_assoc. split; [reflexivity|].
    split; [rewrite num_app, K2; cbn [number]; rewrite H1; f_equal; lia|]. split; [apply Forall_app; split; [exact K3|constructor; [lia|constructor]]|].
    split.
    { intros k Hk Hvk. rewrite app_length. cbn [length]. destruct k as [|k]; [lia|]. rewrite Nat2Z.inj_succ, Z.pow_succ_r in Hvk by lia.
      destruct k as [|k]; [exfalso; change (10 ^ Z.of_nat 0) with 1 in Hvk; assert (v / 10 = 0) by (apply Z.div_small; lia); lia|].
      assert (v / 10 < 10 ^ Z.of_nat (S k)) by (apply Z.div_lt_upper_bound; lia). specialize (K4 (S k) ltac:(lia) H). lia. }
    split; [destruct ds; discriminate|].
    intros r Hr. destruct ds as [|d ds]; [congruence|]. cbn in Hr. injection Hr as -> Hr. destruct (K6 ds eq_refl) as [Hz _]. congruence.
Qed.
Lemma fmt_d_ok : forall v, 0 <= v < 2 ^ 31 -> decimal_text v (fmt_d v) /\ digits_only (fmt_d v) /\ (length (fmt_d v) <= 10)%nat.
Proof.
  intros v Hv. destruct (dec_print_ok 20 v [] ltac:(lia)) as [ds [K1 [K2 [K3 [K4 [K5 K6]]]]]]; [change (10 ^ Z.of_nat 20) with (10 ^ 20); lia|].
  unfold fmt_d, fmt_u. rewrite K1, app_nil_r. split; [|split; [exact K3|apply K4; [lia|change (10 ^ Z.of_nat 10) with (10 ^ 10); lia]]].
  exists ds. split; [split; [exact K5|intros r Hr; apply (K6 r Hr)]|]. split; [rewrite Z.abs_eq by lia; exact K2|]. replace (v <? 0) with false by lia. reflexivity.
Qed.

(* ---- lines ---- *)
Notation char_ok := (fun c => 1 <= c <= 255 /\ c <> 10).
Definition line_ok (s : list Z) : Prop := (length s <= 511)%nat /\ Forall char_ok s /\ hd 0 s <> 9.
Definition text_of (ls : list (nat * list Z)) : list Z := concat (map (fun x => repeat 9 (fst x) ++ snd x ++ [13; 10]) ls).
(* the code after is the code before and more lines *)
Definition emits (cg : codegen) (ts : list (list Z)) (cg' : codegen) : Prop :=
  exists ls, map snd ls = ts /\ Forall line_ok ts /\ cg_text cg' = cg_text cg ++ text_of ls /\ cg_indent cg' = cg_indent cg.
Lemma text_of_app : forall a b, text_of (a ++ b) = text_of a ++ text_of b.
Proof. intros. unfold text_of. rewrite map_app, concat_app. reflexivity. Qed.
Lemma emits_nil : forall cg, emits cg [] cg.
Proof. intros cg. exists []. cbn. rewrite app_nil_r. repeat split; constructor. Qed.
Lemma emits_app : forall cg a cg1 b cg2, emits cg a cg1 -> emits cg1 b cg2 -> emits cg (a ++ b) cg2.
Proof.
  intros cg a cg1 b cg2 [l1 [H1 [H2 [H3 H4]]]] [l2 [K1 [K2 [K3 K4]]]]. exists (l1 ++ l2). rewrite map_app, H1, K1, text_of_app. split; [reflexivity|].
  split; [apply Forall_app; auto|]. split; [rewrite K3, H3, app_assoc; reflexivity|congruence].
Qed.
Lemma emits_line : forall cg s, line_ok s -> emits cg [s] (Line cg s).
Proof.
  intros cg s Hs. exists [(cg_indent cg, s)]. split; [reflexivity|]. split; [constructor; [exact Hs|constructor]|]. unfold text_of, Line. cbn [map concat fst snd cg_text cg_indent].
  rewrite app_nil_r, firstn_all2 by apply Hs. split; reflexivity.
Qed.
Lemma emits_snoc : forall cg a cg1 s, emits cg a cg1 -> line_ok s -> emits cg (a ++ [s]) (Line cg1 s).
Proof. intros. eapply emits_app; [eassumption|]. apply emits_line. assumption. Qed.
Definition line_okb (s : list Z) : bool := (length s <=? 511)%nat && forallb (fun c => (1 <=? c) && (c <=? 255) && negb (c =? 10)) s && negb (hd 0 s =? 9).
Lemma line_okb_ok : forall s, line_okb s = true -> line_ok s.
Proof.
  intros s H. unfold line_okb in H. rewrite !andb_true_iff, forallb_forall in H. destruct H as [[H1 H2] H3]. split; [apply Nat.leb_le; exact H1|]. split; [|lia].
  apply Forall_forall. intros c Hc. apply H2 in Hc. lia.
Qed.
Lemma brace_ok : line_ok (str "{") /\ line_ok (str "}").
Proof. split; apply line_okb_ok; reflexivity. Qed.
(* a block: its lines one step further in *)
Lemma emits_block : forall cg ts cg', emits (EnterScope cg) ts cg' -> exists cg'', ExitScope cg' = Ok cg'' /\ emits cg ([str "{"] ++ ts ++ [str "}"]) cg''.
Proof.
  intros cg ts cg' [ls [H1 [H2 [H3 H4]]]]. unfold ExitScope, UnIndent. rewrite H4. unfold EnterScope, Indent in *. cbn [cg_indent obind cg_text] in *.
  eexists. split; [reflexivity|]. exists ((cg_indent cg, str "{") :: ls ++ [(cg_indent cg, str "}")]). split; [cbn [map]; rewrite map_app, H1; reflexivity|].
  split; [apply Forall_app; split; [constructor; [apply brace_ok|constructor]|apply Forall_app; split; [exact H2|constructor; [apply brace_ok|constructor]]]|].
  split; [|reflexivity]. unfold Line. cbn [cg_text cg_indent]. rewrite H3. change ((cg_indent cg, str "{") :: ls ++ [(cg_indent cg, str "}")]) with ([(cg_indent cg, str "{")] ++ ls ++ [(cg_indent cg, str "}")]).
  rewrite !text_of_app. unfold Line. cbn [cg_text cg_indent]. rewrite <- !app_assoc. f_equal. unfold text_of. cbn [map concat fst snd]. change (firstn 511 (str "{")) with (str "{"). change (firstn 511 (str "}")) with (str "}"). rewrite <- !app_assoc, !app_nil_r. reflexivity.
Qed.

(* ---- reading ---- *)
Lemma unindented_line : forall i s, line_ok s -> unindented (repeat 9 i ++ s) = s.
Proof.
  induction i as [|i IH]; intros s Hs; [|cbn; apply IH; exact Hs]. cbn [repeat app]. destruct Hs as [_ [_ H]]. destruct s as [|c s]; [reflexivity|]. cbn [hd] in H.
  destruct (Z.eq_dec c 9); [lia|]. cbn [unindented]. destruct c as [|p|]; try reflexivity. do 4 (destruct p as [p|p|]; try reflexivity). congruence.
Qed.
Lemma crlf_text : forall ls, Forall line_ok (map snd ls) -> crlf_lines (text_of ls) (map (fun x => repeat 9 (fst x) ++ snd x) ls).
Proof.
  induction ls as [|[i s] ls IH]; intros H; [constructor|]. cbn [map fst snd] in *. inversion H as [|? ? H1 H2]; subst.
  replace (text_of ((i, s) :: ls)) with ((repeat 9 i ++ s) ++ [13; 10] ++ text_of ls) by (unfold text_of; cbn; rewrite <- !app_assoc; reflexivity). constructor.
  - intros Hin. apply in_app_or in Hin. destruct Hin as [Hin|Hin]; [apply repeat_spec in Hin; lia|]. destruct H1 as [_ [H1 _]]. rewrite Forall_forall in H1. apply H1 in Hin. lia.
  - apply IH. exact H2.
Qed.
(* the lines as read, without their indentation *)
Lemma read_unindented : forall ls, Forall line_ok (map snd ls) -> forall sk pv c, read (map (fun x => repeat 9 (fst x) ++ snd x) ls) sk pv c = read (map snd ls) sk pv c.
Proof.
  induction ls as [|[i s] ls IH]; intros H sk pv c; [reflexivity|]. cbn [map fst snd] in *. inversion H as [|? ? H1 H2]; subst. cbn [read].
  rewrite (unindented_line i s H1), (unindented_line 0 s H1 : unindented s = s).
  destruct (list_eqb s _); [apply IH, H2|]. destruct (list_eqb s _); [destruct sk; [reflexivity|apply IH, H2]|].
  destruct (list_eqb s _); [destruct c; [reflexivity|apply IH, H2]|]. destruct (list_eqb s _); [destruct c; [apply IH, H2|reflexivity]|]. rewrite IH by exact H2. reflexivity.
Qed.
Lemma source_of : forall ls its, Forall line_ok (map snd ls) -> read (map snd ls) [] [] false = Some its -> source (text_of ls) its.
Proof. intros ls its H R. eexists. split; [apply crlf_text; exact H|]. rewrite read_unindented by exact H. exact R. Qed.

(* lines that read as items wherever they are *)
Definition under (sk : list (list Z)) (c : bool) (it : item) : item := mk_item (sk ++ it_in it) (c || it_msvc it) (it_text it).
Definition reads_in (c : bool) (ts : list (list Z)) (its : list item) : Prop :=
  forall sk pv rest, exists pv', forall r, read rest sk pv' c = Some r -> read (ts ++ rest) sk pv c = Some (map (under sk c) its ++ r).
Notation reads := (reads_in false).
Definition special (s : list Z) : bool :=
  list_eqb s (str "{") || list_eqb s (str "}") || list_eqb s (str "#if defined(CLCPP_USING_MSVC)") || list_eqb s (str "#endif").
Lemma reads_nil : forall c, reads_in c [] [].
Proof. intros c sk pv rest. exists pv. auto. Qed.
Lemma reads_app : forall c a ia b ib, reads_in c a ia -> reads_in c b ib -> reads_in c (a ++ b) (ia ++ ib).
Proof.
  intros c a ia b ib Ha Hb sk pv rest. destruct (Ha sk pv (b ++ rest)) as [p1 H1]. destruct (Hb sk p1 rest) as [p2 H2]. exists p2. intros r Hr. rewrite <- app_assoc.
  rewrite map_app, <- app_assoc. apply H1, H2, Hr.
Qed.
Lemma read_plain : forall s rest sk pv c, line_ok s -> special s = false -> read (s :: rest) sk pv c = match read rest sk s c with Some r => Some (mk_item sk c s :: r) | None => None end.
Proof.
  intros s rest sk pv c Hs Hp. unfold special in Hp. rewrite !orb_false_iff in Hp. destruct Hp as [[[P1 P2] P3] P4]. cbn [read]. rewrite (unindented_line 0 s Hs : unindented s = s).
  rewrite P1, P2, P3, P4. reflexivity.
Qed.
Lemma reads_line : forall c s, line_ok s -> special s = false -> reads_in c [s] [mk_item [] false s].
Proof.
  intros c s Hs Hp sk pv rest. exists s. intros r Hr. cbn [app]. rewrite read_plain by assumption. rewrite Hr. unfold under. cbn. rewrite app_nil_r, orb_false_r. reflexivity.
Qed.
Lemma removelast_snoc : forall A (l : list A) x, removelast (l ++ [x]) = l.
Proof. intros. rewrite removelast_app by discriminate. cbn. apply app_nil_r. Qed.
Lemma reads_block : forall h ts its, line_ok h -> special h = false -> reads ts its ->
  reads ([h; str "{"] ++ ts ++ [str "}"]) (mk_item [] false h :: map (under [h] false) its).
Proof.
  intros h ts its Hh Hp H sk pv rest. exists []. intros r Hr.
  change ((([h; str "{"] ++ ts ++ [str "}"]) ++ rest)) with (h :: (([str "{"] ++ ts ++ [str "}"]) ++ rest)). rewrite read_plain by assumption.
  assert (E : read (([str "{"] ++ ts ++ [str "}"]) ++ rest) sk h false = Some (map (under sk false) (map (under [h] false) its) ++ r)).
  { rewrite <- !app_assoc. change (read (str "{" :: ts ++ [str "}"] ++ rest) sk h false = Some (map (under sk false) (map (under [h] false) its) ++ r)).
    change (read (ts ++ [str "}"] ++ rest) (sk ++ [h]) [] false = Some (map (under sk false) (map (under [h] false) its) ++ r)).
    destruct (H (sk ++ [h]) [] ([str "}"] ++ rest)) as [p1 H1].
    replace (map (under sk false) (map (under [h] false) its)) with (map (under (sk ++ [h]) false) its).
    2:{ rewrite map_map. apply map_ext. intros it. unfold under. cbn. rewrite <- app_assoc. reflexivity. }
    apply H1. change (read (str "}" :: rest) (sk ++ [h]) p1 false = Some r). cbn [read]. change (unindented (str "}")) with (str "}").
    change (list_eqb (str "}") (str "{")) with false. change (list_eqb (str "}") (str "}")) with true. cbn iota.
    rewrite removelast_snoc. destruct (sk ++ [h]) eqn:E; [destruct sk; discriminate|exact Hr]. }
  rewrite E. cbn [map app]. unfold under at 3. cbn. rewrite app_nil_r. reflexivity.
Qed.
Definition msvc_item (it : item) : item := mk_item (it_in it) true (it_text it).
Lemma reads_msvc : forall ts its, reads_in true ts its -> reads ([str "#if defined(CLCPP_USING_MSVC)"] ++ ts ++ [str "#endif"]) (map msvc_item its).
Proof.
  intros ts its H sk pv rest. exists []. intros r Hr. rewrite <- !app_assoc.
  change (read (ts ++ [str "#endif"] ++ rest) sk [] true = Some (map (under sk false) (map msvc_item its) ++ r)).
  destruct (H sk [] ([str "#endif"] ++ rest)) as [p1 H1].
  replace (map (under sk false) (map msvc_item its)) with (map (under sk true) its) by (rewrite map_map; apply map_ext; reflexivity).
  apply H1. change (read rest sk [] false = Some r). exact Hr.
Qed.
Lemma reads_source : forall ls its, Forall line_ok (map snd ls) -> reads (map snd ls) its -> source (text_of ls) its.
Proof.
  intros ls its H R. apply source_of; [exact H|]. destruct (R [] [] []) as [p R1]. specialize (R1 [] eq_refl). rewrite !app_nil_r in R1. rewrite R1. f_equal.
  rewrite <- (map_id its) at 2. apply map_ext. intros [a b c]. reflexivity.
Qed.
Lemma reads_lines : forall c ts, Forall line_ok ts -> Forall (fun s => special s = false) ts -> reads_in c ts (map (mk_item [] false) ts).
Proof.
  induction ts as [|t ts IH]; intros H K; [apply reads_nil|]. inversion H; inversion K; subst. apply (reads_app c [t] [mk_item [] false t] ts); [apply reads_line; assumption|apply IH; assumption].
Qed.
