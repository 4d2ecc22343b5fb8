(* C21, C22, C23, C24: objects in JSON *)
From Coq Require Import String Sorted.
From Verif Require Import Base BaseProofs Text HashModel HashSpec SearchModel RuntimeModel JsonLexModel JsonLexSpec JsonLexProofs JsonNumModel JsonNumSpec JsonNumProofs.
From Verif Require Import JsonObjModel JsonObjSpec JsonObjProofs JsonSaveProofs JsonRoundProofs JsonStoreProofs JsonCutProofs.
Local Open Scope list_scope.

(* what SaveJSON writes for an object, LoadJSON loads to another object of the class: without error, and its bools,
   integers, enums and (written in hexadecimal) floats at every depth become those of the first; nothing else changes *)
Theorem C21_round_trip : forall E F mem a ty t fa fs pm flags tf fuel text mem2 a2 fuel2,
  wf_types E -> Forall is_byte mem -> nth_error E ty = Some t -> rt_kind t = K_class fa fs -> has_flag fa tf = false ->
  (forall u s, uses E tf ty u -> nth_error E u = Some s -> type_ok E tf (has_flag flags SORT_CLASS_FIELDS_BY_OFFSET) pm u s) ->
  (forall d s, leaf_at E tf ty d s -> restorable F (has_flag flags EMIT_HEX_FLOATS) s (slice mem (a + d) (rt_size s))) ->
  0 < a -> a + rt_size t <= zlen mem -> zlen mem < 2 ^ 63 -> 0 < a2 -> a2 + rt_size t <= zlen mem2 -> zlen mem2 < 2 ^ 63 ->
  SaveJSON fuel E F mem a ty pm flags tf = Ok text -> zlen text < 2 ^ 31 -> (2 * length text <= fuel2)%nat ->
  exists err mem3, LoadJSON fuel2 E F text mem2 a2 ty tf = Ok (err, mem3) /\ je_code err = E_NONE /\ zlen mem3 = zlen mem2 /\
    (forall d, carried E tf ty d -> znth mem3 (a2 + d) = znth mem (a + d)) /\
    (forall x, ~ carried E tf ty (x - a2) -> znth mem3 x = znth mem2 x).
Proof.
  intros E F mem a ty t fa fs pm flags tf fuel text mem2 a2 fuel2 H1 H2 H3 H4 H5 H6 H7 H8 H9 H10 H11 H12 H13 H14 H15 H16.
  destruct (json_round_trip E F mem a ty t fa fs pm flags tf fuel text mem2 a2 fuel2 H1 H2 H3 H4 H5 H6 H7 H8 H9 H10 H11 H12 H13 H14 H15 H16) as [err [mem3 [HL [HN [C1 [C2 C3]]]]]]. exists err, mem3. split; [exact HL|]. split; [exact HN|]. split; [exact C1|]. split; [exact C2|intros x Hx; destruct (C3 x) as [HH|[HH _]]; [exact HH|contradiction]].
Qed.
Print Assumptions C21_round_trip.

(* what SaveJSON writes is a document *)
Theorem C21_saves_a_document : forall E F mem a ty t fa fs pm flags tf fuel text,
  wf_types E -> Forall is_byte mem -> nth_error E ty = Some t -> rt_kind t = K_class fa fs -> has_flag fa tf = false ->
  (forall u s, uses E tf ty u -> nth_error E u = Some s -> type_ok E tf (has_flag flags SORT_CLASS_FIELDS_BY_OFFSET) pm u s) ->
  (forall d s, leaf_at E tf ty d s -> restorable F (has_flag flags EMIT_HEX_FLOATS) s (slice mem (a + d) (rt_size s))) ->
  0 < a -> a + rt_size t <= zlen mem -> zlen mem < 2 ^ 63 -> SaveJSON fuel E F mem a ty pm flags tf = Ok text ->
  Forall is_byte text /\ exists ms, document (str2d F) text (J_object ms).
Proof. exact saved_is_document. Qed.
Print Assumptions C21_saves_a_document.

(* loading a document is storing its members one after the other, without error *)
Theorem C22_document : forall E F data ms mem object ty tf fuel,
  wf_types E -> (ty < length E)%nat -> Forall is_byte data -> zlen data < 2 ^ 31 -> document (str2d F) data (J_object ms) -> (2 * length data <= fuel)%nat ->
  exists lut err, SetupTypeDispatchLUT = Ok lut /\ je_code err = E_NONE /\
    LoadJSON fuel E F data mem object ty tf = do m <- store_members E F lut tf ms mem object ty; Ok (err, m).
Proof.
  intros E F data ms mem object ty tf fuel HE Hty Hb Hs HD Hf. destruct (load_document E HE F the_lut data Hb Hs tf ms mem object ty fuel Hty HD Hf) as [s [t' [c' [HN [HC HP]]]]].
  exists the_lut, (jc_err c'). split; [exact lut_ok|]. split; [exact HC|]. unfold LoadJSON. rewrite lut_ok, bind_Ok, HN, bind_Ok, HP. unfold ended. destruct (store_members E F the_lut tf ms mem object ty); reflexivity.
Qed.
Print Assumptions C22_document.
(* members whose name is not a field of the class, or is that of a transient field, make no difference *)
Theorem C22_others_ignored : forall E F data data' ms ms' mem object ty tf fuel fuel',
  wf_types E -> (ty < length E)%nat -> Forall is_byte data -> zlen data < 2 ^ 31 -> document (str2d F) data (J_object ms) -> (2 * length data <= fuel)%nat ->
  Forall is_byte data' -> zlen data' < 2 ^ 31 -> document (str2d F) data' (J_object ms') -> (2 * length data' <= fuel')%nat ->
  (let known m := match member_field E tf ty (fst m) with Some _ => true | None => false end in filter known ms = filter known ms') ->
  forall err mem', LoadJSON fuel E F data mem object ty tf = Ok (err, mem') ->
  je_code err = E_NONE /\ exists err', LoadJSON fuel' E F data' mem object ty tf = Ok (err', mem') /\ je_code err' = E_NONE.
Proof.
  intros E F data data' ms ms' mem object ty tf fuel fuel' HE Hty Hb Hs HD Hf Hb' Hs' HD' Hf' Hk err mem' H. cbv zeta in Hk.
  destruct (C22_document E F data ms mem object ty tf fuel HE Hty Hb Hs HD Hf) as [lut [e1 [HL [HN H1]]]]. destruct (C22_document E F data' ms' mem object ty tf fuel' HE Hty Hb' Hs' HD' Hf') as [lut' [e2 [HL' [HN' H2]]]].
  rewrite HL in HL'. injection HL' as <-. rewrite H1 in H. apply bind_inv in H. destruct H as [m [Hm H]]. injection H as <- <-. split; [exact HN|]. exists e2. split; [|exact HN'].
  rewrite H2. rewrite <- (members_filter E F lut tf ms'), <- Hk, (members_filter E F lut tf ms), Hm. reflexivity.
Qed.
Print Assumptions C22_others_ignored.
(* fields that are not mentioned keep their values: only bytes of the fields named change *)
Theorem C22_rest_kept : forall E F data ms mem object ty tf fuel err mem' lut,
  wf_types E -> (ty < length E)%nat -> Forall is_byte data -> zlen data < 2 ^ 31 -> document (str2d F) data (J_object ms) -> (2 * length data <= fuel)%nat ->
  (forall t, In t E -> is_u32 (rt_size t)) -> (forall t fa fs e n, In t E -> rt_kind t = K_class fa fs -> In e fs -> rf_count (snd e) = Some n -> is_u32 n) ->
  SetupTypeDispatchLUT = Ok lut -> LoadJSON fuel E F data mem object ty tf = Ok (err, mem') ->
  zlen mem' = zlen mem /\
  forall x, (forall name j f, In (name, j) ms -> member_field E tf ty name = Some f -> ~ may_store_field E lut tf f object x) -> znth mem' x = znth mem x.
Proof.
  intros E F data ms mem object ty tf fuel err mem' lut HE Hty Hb Hs HD Hf Hsz Hcn HL H.
  destruct (C22_document E F data ms mem object ty tf fuel HE Hty Hb Hs HD Hf) as [lut' [e1 [HL' [HN H1]]]]. rewrite HL in HL'. injection HL' as <-. rewrite H1 in H. apply bind_inv in H. destruct H as [m [Hm H]]. injection H as <- <-.
  destruct (members_only E F lut tf Hsz Hcn ms mem object ty m Hm) as [HO1 HO2]. split; [exact HO1|]. intros x Hx. apply HO2. intros [name [j [f [H2 [H3 H4]]]]]. exact (Hx name j f H2 H3 H4).
Qed.
Print Assumptions C22_rest_kept.

(* a text that LoadJSON loads without error begins with whole members, and exactly they are stored *)
Theorem C23_whole_members : forall E F data mem object ty tf fuel err mem', wf_types E -> (ty < length E)%nat -> Forall is_byte data -> zlen data < 2 ^ 31 ->
  LoadJSON fuel E F data mem object ty tf = Ok (err, mem') -> je_code err = E_NONE ->
  exists lut ms text rest, SetupTypeDispatchLUT = Ok lut /\ data = text ++ rest /\ begins (str2d F) text (SChar T_LBRACE :: member_tokens ms) /\
    (~ exists w r, rest = w ++ 44 :: r /\ Forall white w) /\ (ms = [] -> exists w r, rest = w ++ 125 :: r /\ Forall white w) /\
    store_members E F lut tf ms mem object ty = Ok mem'.
Proof.
  intros E F data mem object ty tf fuel err mem' HE Hty Hb Hs H Hn. unfold LoadJSON in H. apply bind_inv in H. destruct H as [lut [HL H]]. apply bind_inv in H. destruct H as [s [HN H]]. apply bind_inv in H. destruct H as [s' [HP H]]. injection H as <- <-.
  destruct (load_sound E HE F lut data Hb Hs tf fuel s mem object ty s' Hty HN HP Hn) as [l [text [rest [H1 [H2 [H3 [H4 H5]]]]]]]. exists lut, l, text, rest. repeat (split; [assumption|]). assumption.
Qed.
Print Assumptions C23_whole_members.
(* a document that is cut anywhere is reported, or has loaded just its first members, each of them whole; if that is not all
   of them it was cut right behind a member *)
Theorem C23_cut : forall E F cut suf ms fuel mem object ty tf err mem', wf_types E -> (ty < length E)%nat ->
  Forall is_byte (cut ++ suf) -> zlen (cut ++ suf) < 2 ^ 31 -> document (str2d F) (cut ++ suf) (J_object ms) ->
  LoadJSON fuel E F cut mem object ty tf = Ok (err, mem') -> je_code err = E_NONE ->
  exists lut k, SetupTypeDispatchLUT = Ok lut /\ (k <= length ms)%nat /\ (k = 0%nat -> ms = []) /\ store_members E F lut tf (firstn k ms) mem object ty = Ok mem' /\
    ((k < length ms)%nat -> exists text w, cut = text ++ w /\ Forall white w /\ begins (str2d F) text (SChar T_LBRACE :: member_tokens (firstn k ms))).
Proof. exact cut_load. Qed.
Print Assumptions C23_cut.

(* an enum value that has names is written as names, and these give the value back *)
Theorem C24_lossless : forall mem a fl cs bytes text, strict cs -> (forall e, In e cs -> identifier (fst (snd e)) /\ fst e = hash32 (fst (snd e)) 0) ->
  rd_bytes mem a 4 = Ok bytes -> nameable fl cs (s32 (le_val bytes)) -> SaveEnum mem a fl cs = Ok text ->
  exists s v r, text = 34 :: s ++ [34] /\ string_chars s /\ enum_values fl cs s = v :: r /\ fold_left Z.lor r v = s32 (le_val bytes).
Proof.
  intros mem a fl cs bytes text Hs Hc HR Hn HS. destruct (enum_saved mem a fl cs text bytes Hs Hc HR HS Hn) as [s [v [r [H1 [[H2 _] [H3 H4]]]]]]. exists s, v, r. auto.
Qed.
Print Assumptions C24_lossless.
(* a string for an enum stores the union of the values of the constants it names; nothing when it names none *)
Theorem C24_loaded : forall E data t s mem object ty fl cs, wf_types E -> Forall is_byte data ->
  jt_type t = T_STRING -> rd_bytes data (jt_val t) (jt_length t) = Ok s -> option_map rt_kind (nth_error E ty) = Some (K_enum fl cs) ->
  ParserString E data t mem object (Some ty) =
    match flat_map (fun name => match find (fun e => fst e =? hash32 name 0) cs with Some e => [snd (snd e)] | None => [] end) (if fl then symbols s [] else [s]) with
    | [] => Ok mem
    | v :: r => wr_bytes mem object (le_bytes 4 (fold_left Z.lor r v))
    end.
Proof.
  intros E data t s mem object ty fl cs HE Hb Ht Hr Hk. rewrite (parser_string_ok E HE data Hb t s mem object ty (conj Ht Hr)). unfold get_type. destruct (nth_error E ty) as [y|]; [|discriminate]. cbn [option_map] in Hk. injection Hk as Hk. cbn [obind]. rewrite Hk. unfold store_enum, enum_values.
  replace (flat_map (fun s0 => match lookup cs (hash32 s0 0) with Some (_, v) => [v] | None => [] end) (if fl then symbols s [] else [s])) with (flat_map (fun name => match find (fun e => fst e =? hash32 name 0) cs with Some e => [snd (snd e)] | None => [] end) (if fl then symbols s [] else [s])); [reflexivity|].
  generalize (if fl then symbols s [] else [s]). intros l. induction l as [|x l IH]; [reflexivity|]. cbn [flat_map]. rewrite IH. f_equal. unfold lookup. destruct (find (fun e : Z * (list Z * Z) => fst e =? hash32 x 0) cs) as [[k [nm v]]|]; reflexivity.
Qed.
Print Assumptions C24_loaded.

(* ---- the theorems are about something: a class with a base, a nested class with an array, an enum, a transient field and
   a pointer ---- *)
Definition ex_F : floats := mk_floats (fun x => x) (fun x => x) (fun x => x) (fun x => x) (fun x => Some 0) (fun x => true) (fun x => []) zlen.
Definition h (s : list Z) : Z := hash32 s 0.
Definition h_int := Eval vm_compute in h (str "int").
Definition h_Flags := Eval vm_compute in h (str "Flags").
Definition h_Base := Eval vm_compute in h (str "Base").
Definition h_Point := Eval vm_compute in h (str "Point").
Definition h_Object := Eval vm_compute in h (str "Object").
Definition ex_x := mk_rfield (str "x") 0 0 0 false None.
Definition ex_v := mk_rfield (str "v") 0 0 0 false (Some 2).
Definition ex_inner := mk_rfield (str "inner") 4 0 3 false None.
Definition ex_colour := mk_rfield (str "colour") 12 0 1 false None.
Definition ex_p := mk_rfield (str "p") 24 0 0 true None.
Definition ex_skip := mk_rfield (str "skip") 16 1 0 false None.
Definition ex_E : list rtype :=
  [ mk_rtype h_int 4 K_type [];
    mk_rtype h_Flags 4 (K_enum true [(1847234945, (str "Red", 1)); (2090560987, (str "Green", 2)); (3801160378, (str "Blue", 4))]) [];
    mk_rtype h_Base 4 (K_class 0 [(1050319643, ex_x)]) [];
    mk_rtype h_Point 8 (K_class 0 [(3182414933, ex_v)]) [];
    mk_rtype h_Object 32 (K_class 0 [(552085893, ex_inner); (931321953, ex_colour); (2557468570, ex_p); (3151762376, ex_skip)]) [2%nat] ].
Ltac each He := cbn in He; repeat match type of He with _ \/ _ => destruct He as [He|He] | False => destruct He end.
Lemma ex_wf : wf_types ex_E.
Proof.
  intros i t H. unfold ex_E in H. destruct i as [|[|[|[|[|i]]]]]; cbn [nth_error] in H; [injection H as <-; split; [cbn; lia|]..|destruct i; discriminate]; [exact I| | | |].
  - split; [split; [repeat constructor; cbn; lia|cbn; lia]|]. intros e He. cbn in He. unfold is_s32. repeat (destruct He as [<-|He]; [cbn; lia|]). contradiction.
  - split; [split; [repeat constructor|cbn; lia]|]. intros e He. cbn in He. repeat (destruct He as [<-|He]; [cbn; lia|]). contradiction.
  - split; [split; [repeat constructor|cbn; lia]|]. intros e He. cbn in He. repeat (destruct He as [<-|He]; [cbn; lia|]). contradiction.
  - split; [split; [repeat constructor; cbn; lia|cbn; lia]|]. intros e He. cbn in He. repeat (destruct He as [<-|He]; [cbn; lia|]). contradiction.
Qed.
Lemma ex_member : forall ty hh f, has_member ex_E ty hh f -> In (hh, f) (match ty with
  | 2%nat => [(1050319643, ex_x)] | 3%nat => [(3182414933, ex_v)]
  | 4%nat => [(552085893, ex_inner); (931321953, ex_colour); (2557468570, ex_p); (3151762376, ex_skip); (1050319643, ex_x)] | _ => [] end).
Proof.
  intros ty hh f H. induction H as [ty t fa fs hh f Ht Hk Hi|ty t b hh f Ht Hb _ IH]; unfold ex_E in Ht; destruct ty as [|[|[|[|[|ty]]]]]; cbn [nth_error] in Ht; try (destruct ty; discriminate); injection Ht as <-; cbn in *; try discriminate; try tauto.
  - injection Hk as <- <-. exact Hi.
  - injection Hk as <- <-. exact Hi.
  - injection Hk as <- <-. cbn in Hi. tauto.
  - destruct Hb as [<-|[]]. cbn in IH. tauto.
Qed.
Lemma ex_saved_field : forall ty f, saved_field ex_E 1 ty f -> In f (match ty with 2%nat => [ex_x] | 3%nat => [ex_v] | 4%nat => [ex_inner; ex_colour; ex_x] | _ => [] end).
Proof.
  intros ty f H. induction H as [ty t fa fs hh f Ht Hk Hf Hi Hg Hp|ty t b f Ht Htr Hb _ IH]; unfold ex_E in Ht; destruct ty as [|[|[|[|[|ty]]]]]; cbn [nth_error] in Ht; try (destruct ty; discriminate); injection Ht as <-; cbn in *; try discriminate; try tauto.
  - injection Hk as <- <-. each Hi. injection Hi as _ <-. auto.
  - injection Hk as <- <-. each Hi. injection Hi as _ <-. auto.
  - injection Hk as <- <-. each Hi; injection Hi as _ <-; cbn in *; try discriminate; auto.
  - destruct Hb as [<-|[]]. cbn in IH. tauto.
Qed.
Lemma ident : forall s, (negb (match s with [] => true | _ => false end) && forallb (fun c => (0 <=? c) && (c <? 256) && negb (c =? 34) && negb (c =? 92) && negb (c =? 124)) s) = true -> identifier s.
Proof.
  intros s H. apply andb_true_iff in H. destruct H as [H1 H2]. split; [destruct s; [discriminate|discriminate]|]. apply Forall_forall. intros c Hc. apply (proj1 (forallb_forall _ _) H2) in Hc. unfold is_byte. lia.
Qed.
Lemma ex_type_ok : forall sorted u s, nth_error ex_E u = Some s -> type_ok ex_E 1 sorted None u s.
Proof.
  intros sorted u s H. unfold ex_E in H. destruct u as [|[|[|[|[|u]]]]]; cbn [nth_error] in H; try (destruct u; discriminate); injection H as <-; unfold type_ok; cbn [rt_kind rt_size rt_bases].
  - split; [exact I|]. split; [lia|]. cbn. tauto.
  - split; [intros e He; each He; subst e; cbn [fst snd]; (split; [apply ident; reflexivity|vm_compute; reflexivity])|]. split; [lia|]. cbn. tauto.
  - split; [|split; [lia|cbn; tauto]]. split; [intros hh f g Hf Hg; apply ex_member in Hf; apply ex_member in Hg; each Hf; each Hg; congruence|].
    split; [intros e He; each He; subst e; cbn [fst snd]; (split; [apply ident; reflexivity|vm_compute; reflexivity])|]. split; [intros _; split; [intros e e' He He'; each He; each He'; congruence|intros e He; each He; subst e; cbn; lia]|].
    split; [intros e He _; each He; subst e; cbn; lia|]. split; [intros e n He Hn; each He; subst e; discriminate|]. split; [auto|]. intros e uu He _ _ Hu. each He. subst e. cbn in Hu. injection Hu as <-. reflexivity.
  - split; [|split; [lia|cbn; tauto]]. split; [intros hh f g Hf Hg; apply ex_member in Hf; apply ex_member in Hg; each Hf; each Hg; congruence|].
    split; [intros e He; each He; subst e; cbn [fst snd]; (split; [apply ident; reflexivity|vm_compute; reflexivity])|]. split; [intros _; split; [intros e e' He He'; each He; each He'; congruence|intros e He; each He; subst e; cbn; lia]|].
    split; [intros e He _; each He; subst e; cbn; lia|]. split; [intros e n He Hn; each He; subst e; cbn in Hn; injection Hn as <-; unfold is_u32; lia|]. split; [auto|]. intros e uu He _ _ Hu. each He. subst e. cbn in Hu. injection Hu as <-. reflexivity.
  - split; [|split; [lia|]].
    + split; [intros hh f g Hf Hg; apply ex_member in Hf; apply ex_member in Hg; each Hf; each Hg; injection Hf as <- <-; congruence|].
      split; [intros e He; each He; subst e; cbn [fst snd]; (split; [apply ident; reflexivity|vm_compute; reflexivity])|]. split; [intros _; split; [intros e e' He He'; each He; each He'; subst e e'; cbn; (discriminate || reflexivity)|intros e He; each He; subst e; cbn; lia]|].
      split; [intros e He Hp; each He; subst e; cbn in *; (discriminate || lia)|]. split; [intros e n He Hn; each He; subst e; discriminate|]. split; [auto|]. intros e uu He Hf _ Hu. each He; subst e; cbn in *; try discriminate; injection Hu as <-; reflexivity.
    + intros b uu Hb Hu. each Hb. subst b. cbn in Hu. injection Hu as <-. cbn. lia.
Qed.
(* an object at 8: x -5, inner.v 7 and 300, colour Red|Blue, skip 99, p somewhere *)
Definition ex_mem : list Z := Eval vm_compute in repeat 0 8 ++ le_bytes 4 (-5) ++ le_bytes 4 7 ++ le_bytes 4 300 ++ le_bytes 4 5 ++ le_bytes 4 99 ++ repeat 0 4 ++ le_bytes 8 1000.
Definition ex_text : list Z := Eval vm_compute in str "{""inner"":{""v"":[7,300]},""colour"":""Red|Blue"",""x"":-5}".
Lemma ex_saves : SaveJSON 100 ex_E ex_F ex_mem 8 4 None 0 1 = Ok ex_text.
Proof. vm_compute. reflexivity. Qed.
Lemma ex_leaf : forall ty d s, leaf_at ex_E 1 ty d s -> In (d, rt_hash s) (match ty with
  | 0%nat => [(0, h_int)] | 1%nat => [(0, h_Flags)] | 2%nat => [(0, h_int)] | 3%nat => [(0, h_int); (4, h_int)] | 4%nat => [(0, h_int); (4, h_int); (8, h_int); (12, h_Flags)] | _ => [] end) /\ In s ex_E.
Proof.
  intros ty d s H. induction H as [ty t Ht Hk|ty f i et d t Hf Hi He Hl [IH1 IH2]].
  - split; [|exact (nth_error_In _ _ Ht)]. unfold ex_E in Ht. destruct ty as [|[|[|[|[|ty]]]]]; cbn [nth_error] in Ht; try (destruct ty; discriminate); injection Ht as <-; cbn in *; auto; contradiction.
  - split; [|exact IH2]. apply ex_saved_field in Hf. destruct ty as [|[|[|[|[|ty]]]]]; cbn [In] in Hf; try contradiction.
    + destruct Hf as [<-|[]]. cbn in He, Hi. injection He as <-. cbn in IH1. destruct IH1 as [IH1|[]]. injection IH1 as <- <-. subst i. left. reflexivity.
    + destruct Hf as [<-|[]]. cbn in He, Hi. injection He as <-. cbn in IH1. destruct IH1 as [IH1|[]]. injection IH1 as <- <-. cbn. assert (Hc : i = 0 \/ i = 1) by lia. destruct Hc as [-> | ->]; cbn; auto.
    + destruct Hf as [<-|[<-|[<-|[]]]]; cbn in He, Hi; injection He as <-; subst i; cbn in IH1.
      * destruct IH1 as [IH1|[IH1|[]]]; injection IH1 as <- <-; cbn; auto.
      * destruct IH1 as [IH1|[]]; injection IH1 as <- <-; cbn; auto.
      * destruct IH1 as [IH1|[]]; injection IH1 as <- <-; cbn; auto.
Qed.
Lemma ex_restorable : forall d s, leaf_at ex_E 1 4 d s -> restorable ex_F false s (slice ex_mem (8 + d) (rt_size s)).
Proof.
  intros d s H. apply ex_leaf in H. destruct H as [H1 H2]. cbn [In] in H1. each H2; subst s; cbn [rt_hash] in H1; try (exfalso; clear - H1; unfold h_int, h_Flags, h_Base, h_Point, h_Object in H1; repeat (destruct H1 as [H1|H1]; [congruence|]); contradiction).
  - cbn [restorable rt_kind rt_bases rt_hash rt_size]. split; [reflexivity|]. exists B_int. split; [vm_compute; reflexivity|]. split; [reflexivity|]. split; discriminate.
  - assert (d = 12) by (clear - H1; unfold h_int, h_Flags in H1; repeat (destruct H1 as [H1|H1]; [congruence|]); contradiction). subst d. cbn [restorable rt_kind rt_bases rt_size]. split; [reflexivity|]. split; [reflexivity|].
    change (s32 (le_val (slice ex_mem (8 + 12) 4))) with 5. cbn [nameable andb negb Z.eqb]. split; [exists [1; 4]; split; [cbn; tauto|reflexivity]|]. intros v Hv. cbn in Hv. repeat (destruct Hv as [<-|Hv]; [cbn; auto|]). contradiction.
Qed.
Example C21_witness : forall mem2 a2, 0 < a2 -> a2 + 32 <= zlen mem2 -> zlen mem2 < 2 ^ 63 ->
  exists err mem3, LoadJSON 200 ex_E ex_F ex_text mem2 a2 4 1 = Ok (err, mem3) /\ je_code err = E_NONE /\ zlen mem3 = zlen mem2 /\
    (forall d, carried ex_E 1 4 d -> znth mem3 (a2 + d) = znth ex_mem (8 + d)) /\ (forall x, ~ carried ex_E 1 4 (x - a2) -> znth mem3 x = znth mem2 x).
Proof.
  intros mem2 a2 H1 H2 H3. eapply (C21_round_trip ex_E ex_F ex_mem 8 4 _ 0 _ None 0 1 100 ex_text mem2 a2 200); try exact ex_saves; try exact ex_wf; try reflexivity; try lia; try exact ex_restorable; try assumption.
  - unfold ex_mem, is_byte. repeat constructor; lia.
  - intros u s _. apply ex_type_ok.
  - cbn. lia.
Qed.
Example C22_witness : Forall is_byte ex_text /\ exists ms, document (str2d ex_F) ex_text (J_object ms).
Proof.
  eapply (C21_saves_a_document ex_E ex_F ex_mem 8 4 _ 0 _ None 0 1 100 ex_text); try exact ex_saves; try exact ex_wf; try reflexivity; try lia; try exact ex_restorable.
  - unfold ex_mem, is_byte. repeat constructor; lia.
  - intros u s _. apply ex_type_ok.
Qed.
Example C21_witness_carried : forall d, 0 <= d < 16 -> carried ex_E 1 4 d.
Proof.
  assert (S1 : saved_field ex_E 1 4 ex_x) by (eapply sv_base with (b := 2%nat); [reflexivity|reflexivity|left; reflexivity|]; eapply sv_own with (h := 1050319643); [reflexivity|reflexivity|reflexivity|left; reflexivity|reflexivity|reflexivity]).
  assert (S2 : saved_field ex_E 1 4 ex_inner) by (eapply sv_own with (h := 552085893); [reflexivity|reflexivity|reflexivity|left; reflexivity|reflexivity|reflexivity]).
  assert (S3 : saved_field ex_E 1 4 ex_colour) by (eapply sv_own with (h := 931321953); [reflexivity|reflexivity|reflexivity|right; left; reflexivity|reflexivity|reflexivity]).
  assert (S4 : saved_field ex_E 1 3 ex_v) by (eapply sv_own with (h := 3182414933); [reflexivity|reflexivity|reflexivity|left; reflexivity|reflexivity|reflexivity]).
  assert (L0 : exists s, leaf_at ex_E 1 0 0 s /\ rt_size s = 4) by (eexists; split; [eapply lf_here; [reflexivity|exact I]|reflexivity]). destruct L0 as [s0 [L0 Z0]].
  assert (L1 : exists s, leaf_at ex_E 1 1 0 s /\ rt_size s = 4) by (eexists; split; [eapply lf_here; [reflexivity|exact I]|reflexivity]). destruct L1 as [s1 [L1 Z1]].
  intros d Hd. assert (HC : d / 4 = 0 \/ d / 4 = 1 \/ d / 4 = 2 \/ d / 4 = 3) by lia.
  destruct HC as [HC|[HC|[HC|HC]]].
  - exists 0, s0. split; [|lia]. exact (lf_member ex_E 1 4 ex_x 0 _ 0 s0 S1 eq_refl eq_refl L0).
  - exists 4, s0. split; [|lia]. eapply (lf_member ex_E 1 4 ex_inner 0 _ 0 s0 S2 eq_refl eq_refl). refine (lf_member ex_E 1 3 ex_v 0 _ 0 s0 S4 _ eq_refl L0). cbn. lia.
  - exists 8, s0. split; [|lia]. eapply (lf_member ex_E 1 4 ex_inner 0 _ 4 s0 S2 eq_refl eq_refl). refine (lf_member ex_E 1 3 ex_v 1 _ 0 s0 S4 _ eq_refl L0). cbn. lia.
  - exists 12, s1. split; [|lia]. exact (lf_member ex_E 1 4 ex_colour 0 _ 0 s1 S3 eq_refl eq_refl L1).
Qed.
(* finding: a saved document that is cut behind a member loads without error although members are missing *)
Theorem C23_always_reported_refuted : exists E F mem a ty flags tf text cut suf err mem',
  wf_types E /\ SaveJSON 100 E F mem a ty None flags tf = Ok text /\ text = cut ++ suf /\ suf <> [] /\
  LoadJSON 200 E F cut (repeat 0 40) 8 ty tf = Ok (err, mem') /\ je_code err = E_NONE /\
  (* x is not loaded *)
  slice mem' 8 4 = [0; 0; 0; 0] /\ slice mem a 4 <> [0; 0; 0; 0].
Proof.
  do 12 eexists. split; [exact ex_wf|]. split; [exact ex_saves|]. split; [apply (eq_sym (firstn_skipn 42 ex_text))|]. split; [discriminate|].
  split; [vm_compute; reflexivity|]. split; [reflexivity|]. split; [reflexivity|discriminate].
Qed.
Print Assumptions C23_always_reported_refuted.
(* all other cuts of that document are reported *)
Example C23_witness : forallb (fun k => (k =? 22)%nat || (k =? 42)%nat ||
    match LoadJSON 200 ex_E ex_F (firstn k ex_text) (repeat 0 40) 8 4 1 with Ok (err, _) => match je_code err with E_NONE => false | _ => true end | _ => false end)
  (seq 0 (length ex_text)) = true.
Proof. vm_compute. reflexivity. Qed.
(* finding: with a constant of several bits a value that sticks out of it is written as another value *)
Theorem C24_any_union_refuted : exists mem cs text s, strict cs /\ union_of (constant_values cs) (s32 (le_val mem)) /\ SaveEnum mem 0 true cs = Ok text /\ text = 34 :: s ++ [34] /\
  enum_values true cs s = [3] /\ s32 (le_val mem) = 1.
Proof.
  exists [1; 0; 0; 0], [(1517876668, (str "All", 3)); (1847234945, (str "Red", 1)); (2090560987, (str "Green", 2))], (34 :: str "All" ++ [34]), (str "All").
  split; [split; [repeat constructor; cbn; lia|cbn; lia]|]. split; [exists [1]; split; [cbn; tauto|reflexivity]|]. split; [reflexivity|]. split; [reflexivity|]. split; [vm_compute; reflexivity|reflexivity].
Qed.
Print Assumptions C24_any_union_refuted.
Example C24_witness : nameable true [(1517876668, (str "All", 3)); (1847234945, (str "Red", 1)); (2090560987, (str "Green", 2)); (3801160378, (str "Blue", 4))] 7.
Proof. split; [exists [3; 4]; split; [cbn; tauto|reflexivity]|]. intros v Hv. cbn in Hv. repeat (destruct Hv as [<-|Hv]; [cbn; auto|]). contradiction. Qed.
