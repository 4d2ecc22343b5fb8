(* Proofs that an object saved as JSON is loaded as it was *)
From Coq Require Import Sorted.
From Verif Require Import Base BaseProofs Text FileUtilsSpec HashModel HashSpec HashProofs SearchModel SearchProofs RuntimeModel JsonLexModel JsonLexSpec JsonLexProofs JsonNumModel JsonNumSpec JsonNumProofs JsonObjModel JsonObjSpec JsonObjProofs JsonSaveProofs.

(* ---- flags and the order of fields ---- *)
Lemma indented_flag : forall flags k m, Z.land 15 m = 0 -> has_flag (indented flags k) m = has_flag flags m.
Proof.
  intros flags k m Hm. unfold has_flag, indented, INDENT_MASK. f_equal. f_equal. apply Z.bits_inj'. intros b _.
  assert (H : Z.testbit (Z.land 15 m) b = false) by (rewrite Hm; apply Z.bits_0). rewrite Z.land_spec in H. rewrite !Z.land_spec, Z.lor_spec, Z.ldiff_spec, !Z.land_spec.
  destruct (Z.testbit 15 b), (Z.testbit m b), (Z.testbit flags b), (Z.testbit (Z.land flags 15 + k) b); try discriminate; reflexivity.
Qed.
Lemma filter_shrinks : forall A (p q : A -> bool) l x, (forall y, p y = true -> q y = true) -> In x l -> q x = true -> p x = false -> (length (filter p l) < length (filter q l))%nat.
Proof.
  intros A p q l x Hpq. assert (Hle : forall l0, (length (filter p l0) <= length (filter q l0))%nat).
  { induction l0 as [|y l0 IH]; cbn [filter]; [lia|]. specialize (Hpq y). destruct (p y); [rewrite (Hpq eq_refl); cbn; lia|]. destruct (q y); cbn; lia. }
  induction l as [|y l IH]; intros Hin Hq Hp; [contradiction|]. cbn [filter]. destruct Hin as [->|Hin].
  - rewrite Hq, Hp. cbn. specialize (Hle l). lia.
  - specialize (IH Hin Hq Hp). specialize (Hpq y). destruct (p y); [rewrite (Hpq eq_refl); cbn; lia|]. destruct (q y); cbn; lia.
Qed.
Lemma by_offset_sound : forall n fs tf last f, In f (by_offset n fs tf last) -> exists h, In (h, f) fs /\ has_flag (rf_flags f) tf = false.
Proof.
  induction n as [|n IH]; intros fs tf last f H; [contradiction|]. cbn [by_offset] in H. destruct (lowest_field fs tf last 2147483647 None) as [o b] eqn:EL.
  destruct (lowest_ok tf fs _ _ _ _ _ EL ltac:(discriminate) ltac:(reflexivity)) as [H1 H2]. destruct b as [g|]; [|exact (IH _ _ _ _ H)].
  destruct (H2 g eq_refl) as [H3 [H4 [H5 H6]]]. destruct H as [<-|H]; [|exact (IH _ _ _ _ H)]. destruct H5 as [H5|[k [H5 [H7 _]]]]; [discriminate|]. exists k. auto.
Qed.
Definition pending (tf last : Z) (e : entry rfield) : bool := negb (has_flag (rf_flags (snd e)) tf) && (rf_offset (snd e) >? last).
Lemma by_offset_complete : forall n fs tf last h f, distinct_offsets fs -> (length (filter (pending tf last) fs) <= n)%nat -> In (h, f) fs -> has_flag (rf_flags f) tf = false -> rf_offset f > last -> In f (by_offset n fs tf last).
Proof.
  induction n as [|n IH]; intros fs tf last h f HD Hlen Hin Hf Ho.
  - exfalso. assert (HI : In (h, f) (filter (pending tf last) fs)). { apply filter_In. split; [exact Hin|]. unfold pending. cbn [snd]. rewrite Hf. cbn [negb andb]. lia. } destruct (filter (pending tf last) fs); [contradiction|cbn in Hlen; lia].
  - cbn [by_offset]. destruct (lowest_field fs tf last 2147483647 None) as [o b] eqn:EL. destruct (lowest_ok tf fs _ _ _ _ _ EL ltac:(discriminate) ltac:(reflexivity)) as [H1 H2]. destruct HD as [HD1 HD2]. destruct b as [g|].
    + destruct (H2 g eq_refl) as [H3 [H4 [H5 H6]]]. destruct H5 as [H5|[k [H5 [H7 H8]]]]; [discriminate|]. pose proof (H6 (h, f) Hin Hf Ho) as Hge. cbn [snd] in Hge. destruct (Z.eq_dec (rf_offset f) o) as [He|He].
      * left. symmetry. apply (HD1 (h, f) (k, g) Hin H5). cbn [snd]. lia.
      * right. apply (IH fs tf o h f); [split; assumption| |exact Hin|exact Hf|lia].
        assert (HS : (length (filter (pending tf o) fs) < length (filter (pending tf last) fs))%nat); [|lia]. apply (filter_shrinks _ _ _ _ (k, g)); [|exact H5| |].
        -- intros y. unfold pending. intros Hy. apply andb_true_iff in Hy. destruct Hy as [-> Hy]. cbn [andb]. lia.
        -- unfold pending. cbn [snd]. rewrite H7. cbn [negb andb]. lia.
        -- unfold pending. cbn [snd]. rewrite H7. cbn [negb andb]. lia.
    + destruct (H1 eq_refl) as [_ H3]. specialize (H3 (h, f) Hin Hf Ho). specialize (HD2 (h, f) Hin). cbn [snd] in *. lia.
Qed.
Lemma filter_len : forall A (p : A -> bool) l, (length (filter p l) <= length l)%nat.
Proof. induction l as [|x l IH]; cbn [filter]; [lia|]. destruct (p x); cbn [length]; lia. Qed.
Lemma fields_to_save_ok : forall fs flags tf, (has_flag flags SORT_CLASS_FIELDS_BY_OFFSET = true -> distinct_offsets fs) ->
  forall f, In f (fields_to_save fs flags tf) <-> exists h, In (h, f) fs /\ has_flag (rf_flags f) tf = false.
Proof.
  intros fs flags tf HD f. unfold fields_to_save. destruct (has_flag flags SORT_CLASS_FIELDS_BY_OFFSET) eqn:Es.
  - specialize (HD eq_refl). split; [apply by_offset_sound|]. intros [h [H1 H2]]. apply (by_offset_complete _ _ _ _ h); [exact HD|apply filter_len|exact H1|exact H2|]. pose proof (proj2 HD _ H1) as H3. cbn [snd] in H3. lia.
  - rewrite filter_In, in_map_iff. unfold is_transient. split.
    + intros [[[h g] [<- H1]] H2]. exists h. split; [exact H1|]. cbn [snd] in *. destruct (has_flag (rf_flags g) tf); [discriminate|reflexivity].
    + intros [h [H1 H2]]. split; [exists (h, f); auto|]. rewrite H2. reflexivity.
Qed.

Section Round.
Variable E : list rtype.
Hypothesis HE : wf_types E.
Variable F : floats.
Variable mem : list Z.
Hypothesis Hmem : Forall is_byte mem.
Variable pm : option ptr_map.
Variable tf : Z.
Variables sorted hexf : bool.
Notation sd := (str2d F).
Notation put := (store E F the_lut tf).
Notation leaf := (leaf_at E tf).
Notation saved := (saved_field E tf).

Definition flags_ok (flags : Z) : Prop := has_flag flags SORT_CLASS_FIELDS_BY_OFFSET = sorted /\ has_flag flags EMIT_HEX_FLOATS = hexf.
Lemma flags_indented : forall flags k, flags_ok flags -> flags_ok (indented flags k).
Proof. intros flags k [H1 H2]. split; rewrite indented_flag by reflexivity; assumption. Qed.
Lemma flags_open : forall flags, flags_ok flags -> flags_ok (fst (OpenScope flags)).
Proof. intros flags H. unfold OpenScope. destruct (has_flag flags FORMAT_OUTPUT); [apply flags_indented|]; exact H. Qed.

(* ---- numbers and enums ---- *)
Lemma bytes_of : forall a n bytes, rd_bytes mem a n = Ok bytes -> zlen bytes = n /\ Forall is_byte bytes.
Proof.
  intros a n bytes H. apply rd_bytes_ok in H. destruct H as [H1 [H2 [H3 ->]]]. split; [apply slice_length; assumption|]. unfold slice. pose proof Hmem as HM.
  rewrite <- (firstn_skipn (Z.to_nat a) mem), Forall_app in HM. destruct HM as [_ HM]. rewrite <- (firstn_skipn (Z.to_nat n) (skipn _ _)), Forall_app in HM. apply HM.
Qed.
Lemma number_saved : forall b h a flags bytes text, type_hash b h -> rd_bytes mem a (basic_size b) = Ok bytes -> save_number F b mem a flags = Ok text -> has_flag flags EMIT_HEX_FLOATS = hexf ->
  (b = B_double -> hexf = true) -> (b = B_float -> hexf = true /\ is_u64 (f2d F (le_val bytes)) /\ d2f F (f2d F (le_val bytes)) = le_val bytes) ->
  exists j, lays sd stands_alone text (tokens j) /\ forall m a2 ty t field, nth_error E ty = Some t -> rt_hash t = h -> put j m a2 (Some ty) false field = wr_bytes m a2 bytes.
Proof.
  intros b h a flags bytes text Hh HR HS Hfl Hd Hf. destruct (bytes_of _ _ _ HR) as [HL HB]. pose proof (le_val_range bytes HB) as HV. rewrite HL in HV.
  assert (Hcase : saves_as_integer b \/ b = B_double \/ b = B_float) by (unfold saves_as_integer; destruct b; auto; left; split; discriminate).
  destruct Hcase as [Hb|Hb].
  - exists (J_int (load_int b bytes mod 2 ^ 64)). split. { apply (lays_token sd (SInteger (load_int b bytes mod 2 ^ 64))); [|exact I]. exact (save_number_spells F sd b mem a flags bytes text Hb HR HB HS). }
    intros m a2 ty t field Ht Hth. cbn [store]. unfold get_type. rewrite Ht, bind_Ok, Hth. unfold LoadInteger. rewrite (lut_basic b h Hh), bind_Ok.
    assert (HC : s64 (load_int b bytes mod 2 ^ 64) mod 256 ^ basic_size b = le_val bytes mod 256 ^ basic_size b) by (rewrite s64_mod, mod64_mod; apply load_int_mod).
    assert (Hcase : b = B_bool \/ b <> B_bool) by (destruct b; (left; reflexivity) || (right; discriminate)). destruct Hcase as [->|Hnb].
    + pose proof (save_bool _ _ _ _ _ _ HR HS) as H2. change (basic_size B_bool) with 1 in HL.
      destruct bytes as [|x [|y l]]; [rewrite zlen_nil in HL; lia| |rewrite !zlen_cons in HL; pose proof (zlen_nonneg _ l); lia].
      inversion HB as [|? ? HB1 _]; subst. unfold is_byte in HB1. cbn [le_val] in H2.
      assert (Hx : x = 0 \/ x = 1) by lia. destruct Hx as [->| ->]; reflexivity.
    + rewrite load_integer_bytes by assumption. f_equal. unfold zlen in HL. replace (Z.to_nat (basic_size b)) with (length bytes) by lia.
      transitivity (le_bytes (length bytes) (le_val bytes)); [|apply le_bytes_val; exact HB]. apply le_bytes_eqm. unfold zlen. rewrite HL. exact HC.
  - assert (Hhex : hexf = true) by (destruct Hb as [->| ->]; [apply Hd; reflexivity|apply Hf; reflexivity]).
    set (bits := match b with B_float => f2d F (le_val bytes) | _ => le_val bytes end).
    assert (Hbits : is_u64 bits). { unfold bits. destruct Hb as [->| ->]; [unfold is_u64; cbn [basic_size] in HV; lia|apply Hf; reflexivity]. }
    assert (HSD : SaveDecimal F bits flags = Ok text). { unfold save_number in HS. rewrite HR, bind_Ok in HS. unfold bits. destruct Hb as [->| ->]; exact HS. }
    unfold SaveDecimal in HSD. rewrite Hfl, Hhex in HSD. destruct (SaveHexInteger bits) as [hx| | |] eqn:EH; try discriminate. rewrite bind_Ok in HSD. injection HSD as <-.
    destruct (hex_spells sd bits hx Hbits EH) as [_ [_ Hsp]]. rewrite mod64_sign in Hsp by exact Hbits.
    exists (J_dec bits). split; [apply (lays_token sd (SDecimal bits)); [exact Hsp|exact I]|]. intros m a2 ty t field Ht Hth. cbn [store]. unfold get_type. rewrite Ht, bind_Ok, Hth.
    unfold ParserDecimal, IsValid. cbn [jt_type jtype_eqb negb jt_val]. rewrite (lut_basic b h Hh), bind_Ok. unfold bits, zlen in *.
    destruct Hb as [->| ->]; cbn [load_decimal basic_size] in *; f_equal.
    + replace 8%nat with (length bytes) by lia. apply le_bytes_val. exact HB.
    + rewrite (proj2 (proj2 (Hf eq_refl))). replace 4%nat with (length bytes) by lia. apply le_bytes_val. exact HB.
Qed.
Lemma s32_bytes : forall bytes, Forall is_byte bytes -> zlen bytes = 4 -> le_bytes 4 (s32 (le_val bytes)) = bytes.
Proof.
  intros bytes HB HL. unfold zlen in HL. replace 4%nat with (length bytes) by lia. transitivity (le_bytes (length bytes) (le_val bytes)); [|apply le_bytes_val; exact HB]. apply le_bytes_eqm.
  pose proof (le_val_range bytes HB) as HV. unfold zlen in *. replace (Z.of_nat (length bytes)) with 4 in * by lia. change (256 ^ 4) with 4294967296 in *.
  unfold s32. rewrite Zminus_mod_idemp_l. f_equal. lia.
Qed.

(* what saving an object of type u at a does *)
Definition room (m : list Z) (a n : Z) : Prop := 0 < a /\ a + n <= zlen m /\ zlen m < 2 ^ 63.
Definition value_ok (a : Z) (u : nat) (size : Z) (j : json) : Prop :=
  forall m a2 field, room m a2 size -> exists m', put j m a2 (Some u) false field = Ok m' /\ copied mem a a2 (carried E tf u) m m'.
Lemma copied_room : forall a a2 P m m' b n, copied mem a a2 P m m' -> room m b n -> room m' b n.
Proof. intros a a2 P m m' b n [H _] [H1 [H2 H3]]. unfold room. rewrite H. auto. Qed.

Lemma leaf_saved : forall n a u t flags text, nth_error E u = Some t -> (match rt_kind t with K_class _ _ => False | _ => True end) -> type_ok E tf sorted pm u t ->
  restorable F hexf t (slice mem a (rt_size t)) -> flags_ok flags -> SaveObject E F the_lut mem pm tf (S n) a u flags = Ok text ->
  exists j, lays sd stands_alone text (tokens j) /\ value_ok a u (rt_size t) j.
Proof.
  intros n a u t flags text Ht Hk Hok HR Hfl HS. cbn [SaveObject] in HS. unfold get_type in HS. rewrite Ht, bind_Ok in HS. unfold restorable in HR.
  assert (Hcar : rt_bases t = [] -> forall d, 0 <= d < rt_size t <-> carried E tf u d).
  { intros Hnb d. split.
    - intros Hd. exists 0, t. split; [apply lf_here; assumption|lia].
    - intros [d0 [s [HL Hd]]]. assert (HX : d0 = 0 /\ s = t); [|destruct HX; subst; lia]. inversion HL as [? ? Ht'|? f ? ? ? ? Hf]; subst; [split; congruence|]. exfalso.
      inversion Hf as [? ? fa fs ? ? Ht' Hk'|? ? b ? Ht' _ Hb]; subst; rewrite Ht in Ht'; injection Ht' as <-; [rewrite Hk' in Hk; exact Hk|rewrite Hnb in Hb; exact Hb]. }
  assert (Hfin : forall j bytes, rt_bases t = [] -> rd_bytes mem a (rt_size t) = Ok bytes -> (forall m a2 field, put j m a2 (Some u) false field = wr_bytes m a2 bytes) -> value_ok a u (rt_size t) j).
  { intros j bytes Hnb Hrd HP m a2 field [Hr1 [Hr2 _]]. destruct (bytes_of _ _ _ Hrd) as [HL _]. destruct (wr_bytes_in m a2 bytes) as [m' [HW _]]; [lia|lia|]. exists m'. split; [rewrite HP; exact HW|].
    eapply copied_ext; [apply Hcar; exact Hnb|]. eapply copied_bytes; eassumption. }
  destruct (rt_kind t) as [|fl cs|] eqn:Ek; [| |contradiction].
  - destruct HR as [Hnb [b [Hh [Hsz [Hd Hf]]]]]. unfold SaveType in HS. rewrite (lut_basic b _ Hh), bind_Ok in HS.
    assert (Hrd : exists bytes, rd_bytes mem a (basic_size b) = Ok bytes). { unfold save_number in HS. destruct (rd_bytes mem a (basic_size b)) as [bytes| | |]; [eauto|discriminate|discriminate|discriminate]. } destruct Hrd as [bytes Hrd].
    assert (Hsl : bytes = slice mem a (rt_size t)) by (pose proof (rd_bytes_ok _ _ _ _ Hrd) as HH; rewrite Hsz; apply HH). rewrite <- Hsl in Hf.
    destruct (number_saved b _ a flags bytes text Hh Hrd HS (proj2 Hfl) Hd Hf) as [j [HL HP]]. exists j. split; [exact HL|]. apply (Hfin j bytes Hnb); [rewrite Hsz; exact Hrd|]. intros m a2 field. apply (HP m a2 u t field Ht eq_refl).
  - destruct HR as [Hnb [Hsz Hn]]. destruct Hok as [Hc _]. rewrite Ek in Hc. pose proof (HE u t Ht) as [_ HW]. rewrite Ek in HW. destruct HW as [Hst _].
    assert (Hrd : exists bytes, rd_bytes mem a 4 = Ok bytes). { unfold SaveEnum in HS. destruct (rd_bytes mem a 4) as [bytes| | |]; [eauto|discriminate|discriminate|discriminate]. } destruct Hrd as [bytes Hrd].
    assert (Hsl : bytes = slice mem a (rt_size t)) by (pose proof (rd_bytes_ok _ _ _ _ Hrd) as HH; rewrite Hsz; apply HH). rewrite <- Hsl in Hn.
    destruct (enum_saved mem a fl cs text bytes Hst Hc Hrd HS Hn) as [s [v [r [-> [Hs [Hv Hfold]]]]]]. exists (J_string s). split; [apply (lays_weaken sd Any); [intros; exact I|]; apply lays_string; apply Hs|].
    apply (Hfin _ bytes Hnb); [rewrite Hsz; exact Hrd|]. intros m a2 field. cbn [store]. unfold get_type. rewrite Ht, bind_Ok, Ek, Hv. cbn [store_enum]. rewrite Hfold. destruct (bytes_of _ _ _ Hrd) as [HL HB]. rewrite s32_bytes by assumption. reflexivity.
Qed.

(* ---- arrays ---- *)
Lemma u64_small : forall x, 0 <= x < 2 ^ 63 -> u64 x = x.
Proof. intros x Hx. unfold u64. apply Z.mod_small. lia. Qed.
Lemma elements_saved : forall save es A ty cnt flags, 0 <= es -> room mem A (cnt * es) ->
  (forall i text, 0 <= i < cnt -> save (A + i * es) = Ok text -> exists j, lays sd stands_alone text (tokens j) /\ value_ok (A + i * es) ty es j) ->
  forall n k w r, 0 <= k -> k + Z.of_nat n = cnt -> save_elements mem pm n save ty false flags (mk_iter A es (k * es) (cnt * es)) w = Ok r ->
  exists js, length js = n /\ lays sd stands_alone r (joined w (map tokens js)) /\ (w = true -> r = [] \/ exists x, r = 44 :: x) /\
    forall m a2, room m a2 (cnt * es) -> exists m', store_elements (fun j mem at_ => put j mem at_ (Some ty) false None) js m (mk_iter a2 es (k * es) (cnt * es)) = Ok m' /\
      copied mem A a2 (fun d => exists i, k <= i < cnt /\ carried E tf ty (d - i * es)) m m'.
Proof.
  intros save es A ty cnt flags Hes Hroom Hsave. induction n as [|n IH]; intros k w r Hk Hkn HS; cbn [save_elements] in HS.
  - injection HS as <-. exists []. split; [reflexivity|]. split; [apply lays_nil|]. split; [auto|]. intros m a2 Hm. exists m. split; [reflexivity|]. apply copied_none. intros d [i [Hi _]]. lia.
  - unfold array_get in HS at 1. cbn [it_pos it_size it_data] in HS. unfold assert in HS. destruct (k * es <? cnt * es) eqn:Elt; [|discriminate]. rewrite !bind_Ok in HS.
    assert (Hkc : k < cnt) by lia. assert (Hle : k * es + es <= cnt * es) by nia. assert (Hk0 : 0 <= k * es) by nia. destruct Hroom as [HA1 [HA2 HA3]].
    rewrite (u64_small (A + k * es)) in HS by lia. destruct (save (A + k * es)) as [text| | |] eqn:Esv; try discriminate. rewrite bind_Ok in HS.
    unfold array_next in HS. cbn [it_pos it_size it_data it_esize] in HS. rewrite (u64_small (k * es + es)) in HS by lia. replace (k * es + es) with ((k + 1) * es) in HS by lia.
    destruct (save_elements mem pm n save ty false flags (mk_iter A es ((k + 1) * es) (cnt * es)) true) as [r'| | |] eqn:Er; try discriminate. rewrite bind_Ok in HS. injection HS as <-.
    destruct (Hsave k text ltac:(lia) Esv) as [j [HL HV]]. destruct (IH (k + 1) true r' ltac:(lia) ltac:(lia) Er) as [js [Hlen [HLr [Hc HP]]]]. exists (j :: js). split; [cbn; lia|]. split; [|split].
    + cbn [map joined]. assert (HT : lays sd stands_alone (text ++ r') (tokens j ++ joined true (map tokens js))). { eapply lays_app; [exact HL|exact HLr|]. intros rest Hr. destruct (Hc eq_refl) as [->|[x ->]]; [exact Hr|]. apply (alone_punct sd). cbn; auto. }
      destruct w; [|exact HT]. apply (lays_app sd Any stands_alone [44] (text ++ r') [SChar T_COMMA]); [apply lays_char; constructor|exact HT|]. intros; exact I.
    + intros ->. right. eexists. reflexivity.
    + intros m a2 Hm. cbn [store_elements]. unfold array_add_empty, array_get, assert. cbn [it_pos it_size it_data]. rewrite Elt, !bind_Ok. pose proof Hm as [Hm1 [Hm2 Hm3]]. rewrite (u64_small (a2 + k * es)) by lia. cbn [fst snd].
      unfold array_next. cbn [it_pos it_size it_data it_esize]. rewrite (u64_small (k * es + es)) by lia. replace (k * es + es) with ((k + 1) * es) by lia.
      destruct (HV m (a2 + k * es) None) as [m1 [HP1 HC1]]; [unfold room; lia|]. rewrite HP1, bind_Ok. destruct (HP m1 a2 (copied_room _ _ _ _ _ _ _ HC1 Hm)) as [m2 [HP2 HC2]]. exists m2. split; [exact HP2|].
      eapply copied_trans; [apply copied_shift; exact HC1|exact HC2|]. intros d. cbv beta. split.
      * intros [i [Hi Hd]]. destruct (Z.eq_dec i k) as [->|Hne]; [left; exact Hd|]. right. exists i. split; [lia|exact Hd].
      * intros [Hd|[i [Hi Hd]]]; [exists k; split; [lia|exact Hd]|exists i; split; [lia|exact Hd]].
Qed.

(* ---- members ---- *)
Definition member_carried (f : rfield) (d : Z) : Prop := exists i et, element f i /\ nth_error E (rf_type f) = Some et /\ carried E tf (rf_type f) (d - rf_offset f - i * rt_size et).
Definition member_ok (a size : Z) (x : rfield * json) : Prop :=
  forall m a2, room m a2 size -> exists m', put (snd x) m (a2 + rf_offset (fst x)) (Some (rf_type (fst x))) false (Some (fst x)) = Ok m' /\ copied mem a a2 (member_carried (fst x)) m m'.
Definition members_restorable (a : Z) (u : nat) : Prop := forall f i et d s, saved u f -> element f i -> nth_error E (rf_type f) = Some et -> leaf (rf_type f) d s ->
  restorable F hexf s (slice mem (a + rf_offset f + i * rt_size et + d) (rt_size s)).
Definition all_ok (u : nat) : Prop := forall v t, uses E tf u v -> nth_error E v = Some t -> type_ok E tf sorted pm v t.
Definition object_saved (n : nat) : Prop := forall a u t flags text, nth_error E u = Some t -> SaveObject E F the_lut mem pm tf n a u flags = Ok text -> flags_ok flags -> all_ok u ->
  transient_type t tf = false -> room mem a (rt_size t) -> (forall d s, leaf u d s -> restorable F hexf s (slice mem (a + d) (rt_size s))) ->
  exists j, lays sd stands_alone text (tokens j) /\ value_ok a u (rt_size t) j /\ match rt_kind t with K_class _ _ => (exists l, j = J_object l) /\ lays sd Any text (tokens j) | _ => True end.
Definition member (x : rfield * json) : list Z * json := (rf_name (fst x), snd x).
Definition some_of {A} (l : list A) : bool := match l with [] => false | _ => true end.
Definition class_saved (n : nat) : Prop := forall a u t flags w text w', nth_error E u = Some t -> SaveClass E F the_lut mem pm tf n a u flags w = Ok (text, w') -> flags_ok flags -> all_ok u ->
  room mem a (rt_size t) -> members_restorable a u ->
  exists ms, piece sd w text w' (joined w (map pair_tokens (map member ms))) /\ w' = w || some_of ms /\ Forall (fun x => saved u (fst x) /\ member_ok a (rt_size t) x) ms /\ (forall f, saved u f -> In f (map fst ms)).

Lemma saved_not_ptr : forall u f, saved u f -> rf_ptr f = false.
Proof. induction 1; auto. Qed.

Lemma field_saved : forall n, object_saved n -> forall a u t flags f h fa fs w text w', nth_error E u = Some t -> rt_kind t = K_class fa fs -> has_flag fa tf = false -> In (h, f) fs -> has_flag (rf_flags f) tf = false ->
  flags_ok flags -> all_ok u -> room mem a (rt_size t) -> members_restorable a u ->
  SaveClassField E mem pm (fun o => SaveObject E F the_lut mem pm tf n o (rf_type f) flags) a f flags w = Ok (text, w') ->
  exists ms, piece sd w text w' (joined w (map pair_tokens (map member ms))) /\ w' = w || some_of ms /\ Forall (fun x => fst x = f /\ rf_ptr f = false /\ member_ok a (rt_size t) x) ms /\ (rf_ptr f = false -> ms <> []).
Proof.
  intros n IH a u t flags f h fa fs w text w' Ht Hk Hfa Hin Hff Hfl Hall Hroom HR HS. unfold SaveClassField in HS.
  pose proof (Hall u t (us_self _ _ _) Ht) as [Hok _]. rewrite Hk in Hok. destruct Hok as [_ [Hname [_ [Hext [Hu32 [Hptr Htr]]]]]].
  destruct (rf_ptr f) eqn:Ep.
  - unfold rd_ptr in HS. destruct (rd_bytes mem (a + rf_offset f) 8) as [b| | |]; try discriminate. rewrite !bind_Ok in HS. assert (Hcm : can_map pm (le_val b) (rf_type f) = false). { unfold can_map. specialize (Hptr (h, f) (le_val b) Hin Ep). destruct pm; [exact Hptr|reflexivity]. }
    rewrite Hcm in HS. injection HS as <- <-. exists []. split; [apply piece_nil|]. split; [cbn; rewrite orb_false_r; reflexivity|]. split; [constructor|discriminate].
  - rewrite bind_Ok in HS. destruct (SaveFieldObject E mem pm _ (a + rf_offset f) f flags) as [ftext| | |] eqn:ES; try discriminate. rewrite bind_Ok in HS. injection HS as <- <-.
    assert (Hsv : saved u f) by (eapply sv_own; eassumption).
    assert (Hty : exists et, nth_error E (rf_type f) = Some et). { pose proof (HE u t Ht) as [_ HW]. rewrite Hk in HW. destruct HW as [_ HW]. specialize (HW (h, f) Hin). cbn [snd] in HW. destruct (nth_error E (rf_type f)) as [et|] eqn:Ee; [eauto|]. apply nth_error_None in Ee. lia. }
    destruct Hty as [et Het]. assert (Hallf : all_ok (rf_type f)) by (intros v s Hv; apply Hall; eapply us_field; eassumption).
    pose proof (Htr (h, f) et Hin Hff Ep Het) as Htt. destruct (Hext (h, f) Hin Ep) as [Ho1 Ho2]. cbn [snd] in Ho1, Ho2. pose proof (Hallf _ et (us_self _ _ _) Het) as [_ [Hes _]].
    pose proof Hroom as [Hr1 [Hr2 Hr3]].
    assert (HJ : exists j, lays sd stands_alone ftext (tokens j) /\ member_ok a (rt_size t) (f, j)).
    { unfold SaveFieldObject in ES. rewrite Ep in ES. unfold extent in Ho2. rewrite Het in Ho2. destruct (rf_count f) as [cnt|] eqn:Ecnt.
      - specialize (Hu32 (h, f) cnt Hin Ecnt). unfold SaveFieldArray, array_of, get_type in ES. rewrite Het, !bind_Ok, Ep in ES. unfold array_init, assert in ES. cbn [af_is_ptr af_size af_count] in ES.
        replace (a + rf_offset f =? 0) with false in ES by lia. cbn [negb] in ES. rewrite !bind_Ok in ES.
        assert (Hc32 : u32 cnt = cnt) by (unfold u32; apply Z.mod_small; exact Hu32). rewrite Hc32 in ES. assert (Hprod : 0 <= cnt * rt_size et) by (unfold is_u32 in Hu32; nia). rewrite (u64_small (cnt * rt_size et)) in ES by lia.
        destruct (Z.eqb_spec cnt 0) as [Hz|Hz].
        + injection ES as <-. exists (J_array []). split. { apply (lays_weaken sd Any); [intros; exact I|]. apply (lays_app sd Any Any [91] [93] [SChar T_LBRACKET] [SChar T_RBRACKET]); [apply lays_char; constructor|apply lays_char; constructor|intros; exact I]. }
          intros m a2 _. exists m. split; [cbn [fst snd store]; unfold get_type; rewrite Het; reflexivity|]. apply copied_none. intros d [i [et' [Hi _]]]. unfold element in Hi. cbn [fst] in Hi. rewrite Ecnt in Hi. lia.
        + destruct (save_elements mem pm (Z.to_nat cnt) _ _ _ _ _ _) as [r| | |] eqn:EE; try discriminate. rewrite bind_Ok in ES. injection ES as <-.
          assert (HX := elements_saved (fun o => SaveObject E F the_lut mem pm tf n o (rf_type f) flags) (rt_size et) (a + rf_offset f) (rf_type f) cnt flags Hes ltac:(unfold room; lia)).
          destruct (HX) with (n := Z.to_nat cnt) (k := 0) (w := false) (r := r) as [js [Hlen [HL [_ HP]]]]; [|lia|unfold is_u32 in Hu32; lia|exact EE|].
          { intros i tx Hi Hsx. assert (Hi2 : 0 <= i * rt_size et) by nia. assert (Hi3 : i * rt_size et + rt_size et <= cnt * rt_size et) by nia.
            destruct (IH (a + rf_offset f + i * rt_size et) (rf_type f) et flags tx Het Hsx Hfl Hallf Htt) as [j [HL [HV _]]]; [unfold room; lia| |exists j; split; assumption].
            intros d s Hls. apply (HR f i et d s Hsv); [unfold element; rewrite Ecnt; exact Hi|exact Het|exact Hls]. }
          exists (J_array js). split.
          * apply (lays_weaken sd Any); [intros; exact I|]. cbn [tokens]. rewrite <- joined_commas. apply (lays_app sd Any Any [91] (r ++ [93]) [SChar T_LBRACKET]); [apply lays_char; constructor| |intros; exact I].
            eapply lays_app; [exact HL|apply lays_char; constructor|]. intros rest _. apply (alone_punct sd). cbn; auto.
          * intros m a2 Hm. destruct Hm as [Hm1 [Hm2 Hm3]]. destruct (HP m (a2 + rf_offset f) ltac:(unfold room; lia)) as [m' [HP1 HC]]. exists m'. split.
            -- cbn [fst snd store]. unfold get_type. rewrite Het, bind_Ok. destruct js as [|j0 js]; [cbn in Hlen; unfold is_u32 in Hu32; lia|]. destruct f as [nm off fl fty p c]. cbn [rf_count rf_ptr rf_type rf_offset] in *. subst p c.
               unfold array_of, get_type. cbn [rf_type rf_ptr]. rewrite Het, !bind_Ok. unfold array_init, assert. cbn [af_is_ptr af_size af_count]. replace (a2 + off =? 0) with false by lia. cbn [negb]. rewrite !bind_Ok, Hc32, (u64_small (cnt * rt_size et)) by lia. exact HP1.
            -- eapply copied_ext; [|apply copied_shift; exact HC]. intros d. cbv beta. unfold member_carried, element. cbn [fst]. rewrite Ecnt. split.
               ++ intros [i [Hi Hd]]. exists i, et. auto.
               ++ intros [i [et' [Hi [He' Hd]]]]. rewrite Het in He'. injection He' as <-. exists i. auto.
      - destruct (IH (a + rf_offset f) (rf_type f) et flags ftext Het ES Hfl Hallf Htt) as [j [HL [HV _]]]; [unfold room; lia| |].
        { intros d s Hls. assert (Hel : element f 0) by (unfold element; rewrite Ecnt; reflexivity). pose proof (HR f 0 et d s Hsv Hel Het Hls) as HRR. replace (a + rf_offset f + 0 * rt_size et + d) with (a + rf_offset f + d) in HRR by lia. exact HRR. }
        exists j. split; [exact HL|]. intros m a2 [Hm1 [Hm2 Hm3]]. cbn [fst snd]. destruct (HV m (a2 + rf_offset f) (Some f) ltac:(unfold room; lia)) as [m' [HP HC]]. exists m'. split; [exact HP|].
        eapply copied_ext; [|apply copied_shift; exact HC]. intros d. cbv beta. unfold member_carried, element. rewrite Ecnt. split.
        + intros Hd. exists 0, et. split; [reflexivity|]. split; [exact Het|]. replace (d - rf_offset f - 0 * rt_size et) with (d - rf_offset f) by lia. exact Hd.
        + intros [i [et' [-> [_ Hd]]]]. replace (d - rf_offset f - 0 * rt_size et') with (d - rf_offset f) in Hd by lia. exact Hd. }
    destruct HJ as [j [HL HM]]. exists [(f, j)]. destruct (Hname (h, f) Hin) as [Hid _]. cbn [snd] in Hid.
    assert (HKV : lays sd stands_alone (SaveString (rf_name f) ++ 58 :: ftext) (pair_tokens (member (f, j)))).
    { change (pair_tokens (member (f, j))) with ([SString (rf_name f)] ++ [SChar T_COLON] ++ tokens j). eapply lays_app; [apply lays_string; [apply identifier_chars|apply identifier_bytes]; exact Hid| |intros; exact I].
      apply (lays_app sd Any stands_alone [58] ftext); [apply lays_char; constructor|exact HL|intros; exact I]. }
    split; [|split; [cbn; rewrite orb_true_r; reflexivity|split; [constructor; [auto|constructor]|discriminate]]].
    split; [|split; [|split]].
    + cbn [map joined]. rewrite app_nil_r. destruct w; [|exact HKV]. apply (lays_app sd Any stands_alone (44 :: NewLine flags) (SaveString (rf_name f) ++ 58 :: ftext) [SChar T_COMMA]); [|exact HKV|intros; exact I].
      apply (lays_app sd Any Any [44] (NewLine flags) [SChar T_COMMA] []); [apply lays_char; constructor|apply lays_white, newline_white|intros; exact I].
    + intros ->. right. eexists. reflexivity.
    + intros HH. destruct w; discriminate.
    + reflexivity.
Qed.

Notation toks w ms := (joined w (map pair_tokens (map member ms))).
Lemma toks_app : forall a b w, toks w (a ++ b) = toks w a ++ toks (w || some_of a) b.
Proof. intros a b w. rewrite !map_app, joined_app. destruct a; reflexivity. Qed.
Lemma some_app : forall A (a b : list A), some_of (a ++ b) = some_of a || some_of b.
Proof. intros A [|x a] b; reflexivity. Qed.
Lemma seq_saved : forall X (f : X -> bool -> outcome (list Z * bool)) (G : X -> list (rfield * json) -> Prop) l,
  (forall x w text w', In x l -> f x w = Ok (text, w') -> exists ms, piece sd w text w' (toks w ms) /\ w' = w || some_of ms /\ G x ms) ->
  forall w text w', save_seq f l w = Ok (text, w') -> exists mss, piece sd w text w' (toks w (concat mss)) /\ w' = w || some_of (concat mss) /\ Forall2 G l mss.
Proof.
  intros X f G. induction l as [|x l IH]; intros Hf w text w' H; cbn [save_seq] in H.
  - injection H as <- <-. exists []. split; [apply piece_nil|]. split; [cbn; rewrite orb_false_r; reflexivity|constructor].
  - destruct (f x w) as [[t1 w1]| | |] eqn:E1; try discriminate. rewrite bind_Ok in H. cbn [fst snd] in H. destruct (save_seq f l w1) as [[t2 w2]| | |] eqn:E2; try discriminate. rewrite bind_Ok in H. cbn [fst snd] in H. injection H as <- <-.
    destruct (Hf x w t1 w1 (or_introl eq_refl) E1) as [ms [P1 [W1 G1]]]. destruct (IH (fun y w t w' Hy => Hf y w t w' (or_intror Hy)) _ _ _ E2) as [mss [P2 [W2 G2]]]. exists (ms :: mss). cbn [concat]. split; [|split; [|constructor; assumption]].
    + rewrite toks_app. rewrite W1 in *. eapply piece_app; eassumption.
    + rewrite some_app, W2, W1, orb_assoc. reflexivity.
Qed.
Lemma Forall2_in_l : forall A B (R : A -> B -> Prop) l l' x, Forall2 R l l' -> In x l -> exists y, In y l' /\ R x y.
Proof. induction 1 as [|a b l l' Hab _ IH]; intros Hin; [contradiction|]. destruct Hin as [->|Hin]; [exists b; cbn; auto|]. destruct (IH Hin) as [y [H1 H2]]. exists y. cbn; auto. Qed.
Lemma Forall2_in_r : forall A B (R : A -> B -> Prop) l l' y, Forall2 R l l' -> In y l' -> exists x, In x l /\ R x y.
Proof. induction 1 as [|a b l l' Hab _ IH]; intros Hin; [contradiction|]. destruct Hin as [->|Hin]; [exists a; cbn; auto|]. destruct (IH Hin) as [x [H1 H2]]. exists x. cbn; auto. Qed.

Lemma SaveObject_S : forall n object ty flags, SaveObject E F the_lut mem pm tf (S n) object ty flags =
  (do t <- get_type E ty;
   match rt_kind t with
   | K_type => SaveType F the_lut mem object (rt_hash t) flags
   | K_enum are_flags constants => SaveEnum mem object are_flags constants
   | K_class flag_attributes _ => if is_transient flag_attributes tf then Ok [] else
       let (flags', opening) := OpenScope flags in do body <- SaveClass E F the_lut mem pm tf n object ty flags' false; Ok (opening ++ fst body ++ CloseScope flags')
   end).
Proof. reflexivity. Qed.
Lemma SaveClass_S : forall n object ty flags written, SaveClass E F the_lut mem pm tf (S n) object ty flags written =
  (do t <- get_type E ty;
   do own <- match rt_kind t with
             | K_class flag_attributes fields =>
                 if is_transient flag_attributes tf then Ok None
                 else do x <- save_seq (fun f w => SaveClassField E mem pm (fun o => SaveObject E F the_lut mem pm tf n o (rf_type f) flags) object f flags w) (fields_to_save fields flags tf) written; Ok (Some x)
             | _ => Ok (Some ([], written))
             end;
   match own with
   | None => Ok ([], written)
   | Some x => do y <- save_seq (fun b w => SaveClass E F the_lut mem pm tf n object b flags w) (rt_bases t) (snd x); Ok (fst x ++ fst y, snd y)
   end).
Proof. reflexivity. Qed.

Lemma class_step : forall n, object_saved n -> class_saved n -> class_saved (S n).
Proof.
  intros n IHo IHc a u t flags w text w' Ht HS Hfl Hall Hroom HR. rewrite SaveClass_S in HS. unfold get_type in HS. rewrite Ht, bind_Ok in HS.
  destruct (transient_type t tf) eqn:Etr.
  - unfold transient_type in Etr. destruct (rt_kind t) as [| |fa fs] eqn:Ek; try discriminate. unfold is_transient in HS. rewrite Etr in HS. rewrite bind_Ok in HS. injection HS as <- <-. exists []. split; [apply piece_nil|]. split; [cbn; rewrite orb_false_r; reflexivity|]. split; [constructor|].
    intros f Hf. exfalso. inversion Hf as [? ? fa' fs' ? ? Ht' Hk' Hfa|? ? b ? Ht' Htr]; subst; rewrite Ht in Ht'; injection Ht' as <-; [congruence|]. unfold transient_type in Htr. rewrite Ek in Htr. congruence.
  - assert (HO : exists x, (match rt_kind t with K_class fa fs => if is_transient fa tf then Ok None else do x <- save_seq (fun f w => SaveClassField E mem pm (fun o => SaveObject E F the_lut mem pm tf n o (rf_type f) flags) a f flags w) (fields_to_save fs flags tf) w; Ok (Some x) | _ => Ok (Some ([], w)) end) = Ok (Some x) /\
        exists ms, piece sd w (fst x) (snd x) (toks w ms) /\ snd x = w || some_of ms /\ Forall (fun y => saved u (fst y) /\ member_ok a (rt_size t) y) ms /\
          (forall fa fs h f, rt_kind t = K_class fa fs -> In (h, f) fs -> has_flag (rf_flags f) tf = false -> rf_ptr f = false -> In f (map fst ms))).
    { assert (HN : exists ms, piece sd w [] w (toks w ms) /\ w = w || some_of ms /\ Forall (fun y => saved u (fst y) /\ member_ok a (rt_size t) y) ms) by (exists []; split; [apply piece_nil|]; split; [cbn; rewrite orb_false_r; reflexivity|constructor]).
      destruct HN as [ms0 [N1 [N2 N3]]].
      destruct (rt_kind t) as [|fl cs|fa fs] eqn:Ek; [exists ([], w); split; [reflexivity|]; exists ms0; split; [exact N1|]; split; [exact N2|]; split; [exact N3|discriminate]..|]. unfold transient_type in Etr. rewrite Ek in Etr. unfold is_transient in *. rewrite Etr in *.
      match type of HS with context [save_seq ?g ?l w] => destruct (save_seq g l w) as [[t1 w1]| | |] eqn:E1; try discriminate end. exists (t1, w1). split; [reflexivity|]. cbn [fst snd].
      pose proof (Hall u t (us_self _ _ _) Ht) as [Hok _]. rewrite Ek in Hok. destruct Hok as [_ [_ [Hso _]]].
      assert (Hfs : forall f, In f (fields_to_save fs flags tf) <-> exists h, In (h, f) fs /\ has_flag (rf_flags f) tf = false) by (apply fields_to_save_ok; rewrite (proj1 Hfl); exact Hso).
      destruct (seq_saved _ (fun f w => SaveClassField E mem pm (fun o => SaveObject E F the_lut mem pm tf n o (rf_type f) flags) a f flags w) (fun f ms => Forall (fun x => fst x = f /\ rf_ptr f = false /\ member_ok a (rt_size t) x) ms /\ (rf_ptr f = false -> ms <> [])) (fields_to_save fs flags tf)) with (2 := E1) as [mss [P1 [W1 G1]]].
      { intros f w0 tx w0' Hf Hx. apply Hfs in Hf. destruct Hf as [h [Hin Hff]]. exact (field_saved n IHo a u t flags f h fa fs w0 tx w0' Ht Ek Etr Hin Hff Hfl Hall Hroom HR Hx). }
      exists (concat mss). split; [exact P1|]. split; [exact W1|]. split.
      - apply Forall_forall. intros y Hy. apply in_concat in Hy. destruct Hy as [ms [Hms Hy]]. destruct (Forall2_in_r _ _ _ _ _ _ G1 Hms) as [f [Hf [HG _]]]. rewrite Forall_forall in HG. destruct (HG y Hy) as [Hyf [Hp Hm]]. apply Hfs in Hf. destruct Hf as [h [Hin Hff]]. split; [rewrite Hyf; eapply sv_own; eassumption|exact Hm].
      - intros fa' fs' h f Hk' Hin Hff Hp. injection Hk' as <- <-. assert (Hf : In f (fields_to_save fs flags tf)) by (apply Hfs; eauto). destruct (Forall2_in_l _ _ _ _ _ _ G1 Hf) as [ms [Hms [HG Hne]]]. specialize (Hne Hp). destruct ms as [|y ms]; [contradiction|].
        inversion HG as [|? ? [Hyf _] _]; subst. apply in_map_iff. exists y. split; [reflexivity|]. apply in_concat. exists (y :: ms). split; [exact Hms|left; reflexivity]. }
    destruct HO as [[t1 w1] [HO [ms1 [P1 [W1 [F1 C1]]]]]]. rewrite HO, bind_Ok in HS. clear HO. cbn [fst snd] in *.
    destruct (save_seq (fun b w => SaveClass E F the_lut mem pm tf n a b flags w) (rt_bases t) w1) as [[t2 w2]| | |] eqn:E2; try discriminate. rewrite bind_Ok in HS. cbn [fst snd] in HS. injection HS as <- <-.
    pose proof (Hall u t (us_self _ _ _) Ht) as [_ [_ Hbs]].
    destruct (seq_saved _ (fun b w => SaveClass E F the_lut mem pm tf n a b flags w) (fun b ms => Forall (fun x => saved b (fst x) /\ member_ok a (rt_size t) x) ms /\ (forall f, saved b f -> In f (map fst ms))) (rt_bases t)) with (2 := E2) as [mss [P2 [W2 G2]]].
    { intros b w0 tx w0' Hb Hx. assert (Hbt : exists bt, nth_error E b = Some bt). { pose proof (HE u t Ht) as [HW _]. specialize (HW b Hb). destruct (nth_error E b) as [bt|] eqn:Ee; [eauto|]. apply nth_error_None in Ee. assert (u < length E)%nat by (apply nth_error_Some; congruence). lia. }
      destruct Hbt as [bt Hbt]. pose proof (Hbs b bt Hb Hbt) as Hsz. destruct Hroom as [R1 [R2 R3]].
      destruct (IHc a b bt flags w0 tx w0' Hbt Hx Hfl) as [ms [P [W [FF C]]]].
      - intros v s Hv. apply Hall. eapply us_base; eassumption.
      - unfold room. lia.
      - intros f i et d s Hf. apply HR. eapply sv_base; eassumption.
      - exists ms. split; [exact P|]. split; [exact W|]. split; [|exact C]. eapply Forall_impl; [|exact FF]. intros y [Hy1 Hy2]. split; [exact Hy1|]. intros m a2 [M1 [M2 M3]]. apply Hy2. unfold room. lia. }
    exists (ms1 ++ concat mss). split; [|split; [|split]].
    + rewrite toks_app, <- W1. eapply piece_app; eassumption.
    + rewrite some_app, W2, W1, orb_assoc. reflexivity.
    + apply Forall_app. split; [exact F1|]. apply Forall_forall. intros y Hy. apply in_concat in Hy. destruct Hy as [ms [Hms Hy]]. destruct (Forall2_in_r _ _ _ _ _ _ G2 Hms) as [b [Hb [HG _]]]. rewrite Forall_forall in HG. destruct (HG y Hy) as [Hy1 Hy2]. split; [eapply sv_base; eassumption|exact Hy2].
    + intros f Hf. rewrite map_app, in_app_iff. inversion Hf as [? ? fa fs h ? Ht' Hk Hfa Hin Hff Hp|? ? b ? Ht' Htr Hb Hbf]; subst; rewrite Ht in Ht'; injection Ht' as <-.
      * left. eapply C1; eassumption.
      * right. destruct (Forall2_in_l _ _ _ _ _ _ G2 Hb) as [ms [Hms [_ HC]]]. specialize (HC f Hbf). apply in_map_iff in HC. destruct HC as [y [Hyf Hy]]. apply in_map_iff. exists y. split; [exact Hyf|]. apply in_concat. exists ms. auto.
Qed.

Lemma each_stored : forall u t fa fs a l, nth_error E u = Some t -> rt_kind t = K_class fa fs -> all_ok u ->
  Forall (fun x => saved u (fst x) /\ member_ok a (rt_size t) x) l -> forall m a2, room m a2 (rt_size t) ->
  exists m', store_each E tf put a2 u (map member l) m = Ok m' /\ copied mem a a2 (fun d => exists f, In f (map fst l) /\ member_carried f d) m m'.
Proof.
  intros u t fa fs a. induction l as [|x l IH]; intros Ht Hk Hall HF m a2 Hroom.
  - exists m. split; [reflexivity|]. apply copied_none. intros d [f [[] _]].
  - inversion HF as [|? ? [Hs Hx] HF']; subst. cbn [map store_each member]. rewrite (saved_member_field E HE tf u t fa fs (fst x) sorted pm Ht Hk Hall Hs). rewrite (saved_not_ptr _ _ Hs). destruct (Hx m a2 Hroom) as [m1 [HP HC]]. rewrite HP, bind_Ok.
    destruct (IH Ht Hk Hall HF' m1 a2 (copied_room _ _ _ _ _ _ _ HC Hroom)) as [m2 [HP2 HC2]]. exists m2. split; [exact HP2|]. eapply copied_trans; [exact HC|exact HC2|]. intros d. cbv beta. split.
    + intros [f [[<-|Hf] Hd]]; [left; exact Hd|right; exists f; auto].
    + intros [Hd|[f [Hf Hd]]]; [exists (fst x); cbn; auto|exists f; cbn; auto].
Qed.

Lemma class_carried : forall u t fa fs, nth_error E u = Some t -> rt_kind t = K_class fa fs -> forall d, carried E tf u d <-> exists f, saved u f /\ member_carried f d.
Proof.
  intros u t fa fs Ht Hk d. split.
  - intros [d0 [s [HL Hd]]]. inversion HL as [? ? Ht' Hk'|? f i et d1 ? Hf Hi He HL']; subst; [rewrite Ht in Ht'; injection Ht' as <-; rewrite Hk in Hk'; contradiction|].
    exists f. split; [exact Hf|]. exists i, et. split; [exact Hi|]. split; [exact He|]. exists d1, s. split; [exact HL'|lia].
  - intros [f [Hf [i [et [Hi [He [d1 [s [HL Hd]]]]]]]]]. exists (rf_offset f + i * rt_size et + d1), s. split; [eapply lf_member; eassumption|lia].
Qed.

Lemma object_step : forall n, class_saved n -> object_saved (S n).
Proof.
  intros n IHc a u t flags text Ht HS Hfl Hall Htr Hroom HR.
  assert (HLF : (match rt_kind t with K_class _ _ => False | _ => True end) -> exists j, lays sd stands_alone text (tokens j) /\ value_ok a u (rt_size t) j).
  { intros Hk. apply (leaf_saved n a u t flags text Ht Hk (Hall u t (us_self _ _ _) Ht)); [|exact Hfl|exact HS]. pose proof (HR 0 t (lf_here _ _ u t Ht Hk)) as H0. rewrite Z.add_0_r in H0. exact H0. }
  destruct (rt_kind t) as [|fl cs|fa fs] eqn:Ek; [destruct (HLF I) as [j [HL HV]]; exists j; auto|destruct (HLF I) as [j [HL HV]]; exists j; auto|]. clear HLF.
  rewrite SaveObject_S in HS. unfold get_type in HS. rewrite Ht, bind_Ok, Ek in HS. unfold transient_type in Htr. rewrite Ek in Htr. unfold is_transient in HS. rewrite Htr in HS.
  pose proof (flags_open flags Hfl) as Hfl'. destruct (OpenScope flags) as [flags' opening] eqn:EO. cbn [fst] in Hfl'. destruct (SaveClass E F the_lut mem pm tf n a u flags' false) as [[body w']| | |] eqn:EC; try discriminate. rewrite bind_Ok in HS. cbn [fst] in HS. injection HS as <-.
  destruct (IHc a u t flags' false body w' Ht EC Hfl' Hall Hroom) as [ms [[HLb _] [_ [HF HC]]]].
  { intros f i et d s Hf Hi He Hd. pose proof (HR (rf_offset f + i * rt_size et + d) s ltac:(eapply lf_member; eassumption)) as H0. replace (a + rf_offset f + i * rt_size et + d) with (a + (rf_offset f + i * rt_size et + d)) by lia. exact H0. }
  assert (HA : lays sd Any (opening ++ body ++ CloseScope flags') (tokens (J_object (map member ms)))).
  { change (tokens (J_object (map member ms))) with ([SChar T_LBRACE] ++ commas (map pair_tokens (map member ms)) ++ [SChar T_RBRACE]). rewrite <- joined_commas.
    apply (lays_app sd Any Any).
    - unfold OpenScope in EO. destruct (has_flag flags FORMAT_OUTPUT); injection EO as <- <-; [|apply lays_char; constructor].
      apply (lays_app sd Any Any (NewLine flags) _ []); [apply lays_white, newline_white| |intros; exact I]. apply (lays_app sd Any Any [123] _ [SChar T_LBRACE] []); [apply lays_char; constructor|apply lays_white, newline_white|intros; exact I].
    - apply (lays_app sd stands_alone Any); [exact HLb| |].
      + unfold CloseScope. destruct (has_flag flags' FORMAT_OUTPUT); [|apply lays_char; constructor].
        apply (lays_app sd Any Any (NewLine _) _ []); [apply lays_white, newline_white| |intros; exact I]. apply (lays_app sd Any Any [125] _ [SChar T_RBRACE] []); [apply lays_char; constructor|apply lays_white, newline_white|intros; exact I].
      + intros rest _. unfold CloseScope. destruct (has_flag flags' FORMAT_OUTPUT); [|apply (alone_punct sd); cbn; tauto]. unfold NewLine at 1. destruct (has_flag (indented flags' (-1)) FORMAT_OUTPUT); apply (alone_punct sd); cbn; tauto.
    - intros; exact I. }
  exists (J_object (map member ms)). split; [apply (lays_weaken sd Any); [intros; exact I|exact HA]|]. split; [|split; [eauto|exact HA]].
  intros m a2 field Hm. cbn [store]. unfold get_type. rewrite Ht, bind_Ok, Ek, Htr. destruct (each_stored u t fa fs a ms Ht Ek Hall HF m a2 Hm) as [m' [HP HCP]]. exists m'. split; [exact HP|].
  eapply copied_ext; [|exact HCP]. intros d. rewrite (class_carried u t fa fs Ht Ek d). split.
  - intros [f [Hf Hd]]. apply in_map_iff in Hf. destruct Hf as [y [<- Hy]]. rewrite Forall_forall in HF. exists (fst y). split; [apply HF; exact Hy|exact Hd].
  - intros [f [Hf Hd]]. exists f. split; [apply HC; exact Hf|exact Hd].
Qed.
Lemma all_saved : forall n, object_saved n /\ class_saved n.
Proof.
  induction n as [|n [IHo IHc]].
  - split; [intros a u t flags text _ HS; discriminate|intros a u t flags w text w' _ HS; discriminate].
  - split; [apply object_step; exact IHc|apply class_step; assumption].
Qed.
End Round.

Lemma json_round_trip : forall E F mem a ty t fa fs pm flags tf fuel text mem2 a2 fuel2, wf_types E -> Forall is_byte mem -> nth_error E ty = Some t -> rt_kind t = K_class fa fs -> has_flag fa tf = false ->
  (forall u s, uses E tf ty u -> nth_error E u = Some s -> type_ok E tf (has_flag flags SORT_CLASS_FIELDS_BY_OFFSET) pm u s) ->
  (forall d s, leaf_at E tf ty d s -> restorable F (has_flag flags EMIT_HEX_FLOATS) s (slice mem (a + d) (rt_size s))) ->
  0 < a -> a + rt_size t <= zlen mem -> zlen mem < 2 ^ 63 -> 0 < a2 -> a2 + rt_size t <= zlen mem2 -> zlen mem2 < 2 ^ 63 ->
  SaveJSON fuel E F mem a ty pm flags tf = Ok text -> zlen text < 2 ^ 31 -> (2 * length text <= fuel2)%nat ->
  exists err mem3, LoadJSON fuel2 E F text mem2 a2 ty tf = Ok (err, mem3) /\ je_code err = E_NONE /\ copied mem a a2 (carried E tf ty) mem2 mem3.
Proof.
  intros E F mem a ty t fa fs pm flags tf fuel text mem2 a2 fuel2 HE Hmem Ht Hk Hfa Hall HR Ha1 Ha2 Ha3 Hb1 Hb2 Hb3 HS Htext Hfuel.
  unfold SaveJSON in HS. rewrite lut_ok, bind_Ok in HS.
  destruct (proj1 (all_saved E HE F mem Hmem pm tf (has_flag flags SORT_CLASS_FIELDS_BY_OFFSET) (has_flag flags EMIT_HEX_FLOATS) fuel) a ty t flags text Ht HS) as [j [_ [HV HK]]]; [split; reflexivity|exact Hall|unfold transient_type; rewrite Hk; exact Hfa|unfold room; lia|exact HR|].
  rewrite Hk in HK. destruct HK as [[l ->] HL]. pose proof (lays_bytes _ _ _ HL) as Hbytes. destruct (HV mem2 a2 None) as [mem3 [HP HC]]; [unfold room; lia|]. cbn [store] in HP. unfold get_type in HP. rewrite Ht, bind_Ok, Hk, Hfa in HP.
  assert (Hty : (ty < length E)%nat) by (apply nth_error_Some; congruence).
  destruct (load_document E HE F the_lut text Hbytes Htext tf l mem2 a2 ty fuel2 Hty (lays_document _ _ _ HL) Hfuel) as [s [t' [c' [HN [Hc HO]]]]].
  unfold LoadJSON. rewrite lut_ok, bind_Ok, HN, bind_Ok, HO. unfold store_members, ended. rewrite HP. cbn [obind]. exists (jc_err c'), mem3. split; [reflexivity|]. split; [exact Hc|exact HC].
Qed.
Lemma saved_is_document : forall E F mem a ty t fa fs pm flags tf fuel text, wf_types E -> Forall is_byte mem -> nth_error E ty = Some t -> rt_kind t = K_class fa fs -> has_flag fa tf = false ->
  (forall u s, uses E tf ty u -> nth_error E u = Some s -> type_ok E tf (has_flag flags SORT_CLASS_FIELDS_BY_OFFSET) pm u s) ->
  (forall d s, leaf_at E tf ty d s -> restorable F (has_flag flags EMIT_HEX_FLOATS) s (slice mem (a + d) (rt_size s))) ->
  0 < a -> a + rt_size t <= zlen mem -> zlen mem < 2 ^ 63 -> SaveJSON fuel E F mem a ty pm flags tf = Ok text ->
  Forall is_byte text /\ exists ms, document (str2d F) text (J_object ms).
Proof.
  intros E F mem a ty t fa fs pm flags tf fuel text HE Hmem Ht Hk Hfa Hall HR Ha1 Ha2 Ha3 HS.
  unfold SaveJSON in HS. rewrite lut_ok, bind_Ok in HS.
  destruct (proj1 (all_saved E HE F mem Hmem pm tf (has_flag flags SORT_CLASS_FIELDS_BY_OFFSET) (has_flag flags EMIT_HEX_FLOATS) fuel) a ty t flags text Ht HS) as [j [_ [HV HK]]]; [split; reflexivity|exact Hall|unfold transient_type; rewrite Hk; exact Hfa|unfold room; lia|exact HR|].
  rewrite Hk in HK. destruct HK as [[l ->] HL]. split; [exact (lays_bytes _ _ _ HL)|]. exists l. exact (lays_document _ _ _ HL).
Qed.
