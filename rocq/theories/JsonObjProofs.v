(* Proofs about loading JSON documents *)
From Coq Require Import Sorted.
From Verif Require Import Base BaseProofs Text FileUtilsSpec HashModel HashSpec HashProofs SearchModel SearchProofs RuntimeModel JsonLexModel JsonLexSpec JsonLexProofs JsonNumModel JsonNumSpec JsonNumProofs JsonObjModel JsonObjSpec.

Lemma bind_assoc : forall (A B C : Type) (a : outcome A) (f : A -> outcome B) (g : B -> outcome C), obind (obind a f) g = obind a (fun x => obind (f x) g).
Proof. intros A B C [a| | |] f g; reflexivity. Qed.
Lemma bind_ext : forall (A B : Type) (a : outcome A) (f g : A -> outcome B), (forall x, f x = g x) -> obind a f = obind a g.
Proof. intros A B [a| | |] f g H; cbn; auto. Qed.

(* ---- lookup ---- *)
Lemma strict_sorted : forall A (l : list (entry A)), strict l -> sorted_by_hash l.
Proof. intros A l [H _]. unfold sorted_by_hash. induction H as [|a l H IH HF]; constructor; auto. eapply Forall_impl; [|exact HF]. cbn. intros; lia. Qed.
Lemma lookup_ok : forall A (l : list (entry A)) h, strict l -> exists e, FindPrimitive l h = Ok e /\ option_map snd e = lookup l h.
Proof.
  intros A l h Hs. destruct (find_primitive_ok A l h (strict_sorted _ _ Hs) (proj2 Hs)) as [r [HE HR]]. exists r. split; [exact HE|]. unfold lookup. destruct r as [e|].
  - destruct HR as [Hi Hh]. destruct Hs as [Hs _]. clear HE. induction Hs as [|a l Hs IH HF]; [contradiction|]. cbn [find]. destruct Hi as [->|Hi].
    + rewrite Hh, Z.eqb_refl. reflexivity.
    + rewrite Forall_forall in HF. specialize (HF e Hi). cbv beta in HF. replace (fst a =? h) with false by lia. apply IH. exact Hi.
  - destruct (find (fun e => fst e =? h) l) as [e|] eqn:Ef; [|reflexivity]. apply find_some in Ef. destruct Ef as [Hi Hh]. apply HR in Hi. lia.
Qed.
Lemma lookup_in : forall A (l : list (entry A)) h a, lookup l h = Some a -> In (h, a) l.
Proof.
  intros A l h a H. unfold lookup in H. destruct (find (fun e => fst e =? h) l) as [[k e]|] eqn:Ef; [|discriminate]. cbn in H. injection H as ->.
  apply find_some in Ef. destruct Ef as [Hi Hh]. cbn in Hh. apply Z.eqb_eq in Hh. subst k. exact Hi.
Qed.
Lemma lookup_strict : forall A (l : list (entry A)) h a, strict l -> In (h, a) l -> lookup l h = Some a.
Proof.
  intros A l h a [Hs _] Hi. unfold lookup. induction Hs as [|b l Hs IH HF]; [contradiction|]. cbn [find]. destruct Hi as [->|Hi].
  - cbn [fst]. rewrite Z.eqb_refl. reflexivity.
  - rewrite Forall_forall in HF. specialize (HF _ Hi). cbn [fst] in HF. replace (fst b =? h) with false by lia. apply IH. exact Hi.
Qed.

Section Env.
Variable E : list rtype.
Hypothesis HE : wf_types E.

Fixpoint find_bases (depth : nat) (l : list nat) (h : Z) : outcome (option rfield) :=
  match l with
  | [] => Ok None
  | b :: r => do field <- FindFieldsRecursive depth E b h;
              match field with Some f => Ok (Some f) | None => find_bases depth r h end
  end.
Lemma find_fields_step : forall depth ty h, FindFieldsRecursive (S depth) E ty h =
  do t <- get_type E ty;
  do field <- match rt_kind t with K_class _ fields => FindPrimitive fields h | _ => Ok None end;
  match field with Some e => Ok (Some (snd e)) | None => find_bases depth (rt_bases t) h end.
Proof.
  intros depth ty h. cbn [FindFieldsRecursive]. destruct (get_type E ty) as [t| | |]; try reflexivity. cbn [obind]. apply bind_ext. intros [e|]; [reflexivity|].
  induction (rt_bases t) as [|b r IH]; [reflexivity|]. cbn [find_bases]. apply bind_ext. intros [f|]; [reflexivity|exact IH].
Qed.
Lemma fold_some : forall (g : nat -> option rfield) l f, fold_left (fun r b => match r with Some f => Some f | None => g b end) l (Some f) = Some f.
Proof. induction l as [|b l IH]; intros f; [reflexivity|apply IH]. Qed.
Lemma find_fields_ok : forall depth1 depth2 ty h, (ty < depth1)%nat -> (ty < depth2)%nat -> (ty < length E)%nat ->
  FindFieldsRecursive depth1 E ty h = Ok (find_field depth2 E ty h).
Proof.
  induction depth1 as [|d1 IH]; intros [|d2] ty h H1 H2 Ht; try lia. rewrite find_fields_step. cbn [find_field]. unfold get_type.
  destruct (nth_error E ty) as [t|] eqn:Et; [|apply nth_error_None in Et; lia]. rewrite bind_Ok. destruct (HE _ _ Et) as [Hb Hk].
  assert (HB : forall l, (forall b, In b l -> (b < ty)%nat) -> find_bases d1 l h = Ok (fold_left (fun r b => match r with Some f => Some f | None => find_field d2 E b h end) l None)).
  { induction l as [|b l IHl]; intros Hl; [reflexivity|]. cbn [find_bases fold_left]. assert (b < ty)%nat by (apply Hl; left; reflexivity). rewrite (IH d2 b h) by lia. rewrite bind_Ok.
    destruct (find_field d2 E b h) as [f|]; [rewrite fold_some; reflexivity|]. apply IHl. intros b' Hb'. apply Hl. right. exact Hb'. }
  destruct (rt_kind t) as [|fl cs|fa fs]; try (rewrite bind_Ok; apply HB; exact Hb).
  destruct Hk as [Hs _]. destruct (lookup_ok _ fs h Hs) as [e [HF HL]]. rewrite HF, bind_Ok, <- HL. destruct e as [[k f]|]; [reflexivity|]. apply HB. exact Hb.
Qed.

(* ---- reading tokens ---- *)
Variable F : floats.
Variable lut : list (option basic).
Variable data : list Z.
Hypothesis Hbytes : Forall is_byte data.
Hypothesis Hsmall : small data.
Variable tf : Z.
Notation sd := (str2d F).

Definition tok_is (t : jtok) (k : stoken) : Prop :=
  match k with
  | SChar x | SWord x => jt_type t = x
  | SString s => jt_type t = T_STRING /\ rd_bytes data (jt_val t) (jt_length t) = Ok s
  | SInteger v => jt_type t = T_INTEGER /\ jt_val t = v
  | SDecimal b => jt_type t = T_DECIMAL /\ jt_val t = b
  end.
(* with t looked ahead in context c, ks are read; then t' is looked ahead in context c' *)
Inductive reads : jtok -> jctx -> list stoken -> jtok -> jctx -> Prop :=
| rd_nil : forall t c, no_error c -> reads t c [] t c
| rd_cons : forall t c k t1 c1 ks t' c', no_error c -> tok_is t k -> LexerNextToken sd data c = Ok (t1, c1) -> reads t1 c1 ks t' c' -> reads t c (k :: ks) t' c'.
Lemma reads_app : forall a b t c t' c', reads t c (a ++ b) t' c' -> exists t1 c1, reads t c a t1 c1 /\ reads t1 c1 b t' c'.
Proof.
  induction a as [|k a IH]; intros b t c t' c' H; cbn [app] in H.
  - exists t, c. split; [|exact H]. constructor. inversion H; subst; assumption.
  - inversion H as [|? ? ? t1 c1 ? ? ? Hn Hk HL HR]; subst. destruct (IH _ _ _ _ _ HR) as [t2 [c2 [H1 H2]]]. exists t2, c2. split; [|exact H2]. econstructor; eassumption.
Qed.
Lemma reads_join : forall a b t c t1 c1 t' c', reads t c a t1 c1 -> reads t1 c1 b t' c' -> reads t c (a ++ b) t' c'.
Proof. induction 1; intros HR; [exact HR|]. cbn [app]. econstructor; eauto. Qed.
Lemma reads_first : forall k ks t c t' c', reads t c (k :: ks) t' c' -> tok_is t k.
Proof. intros. inversion H; subst; assumption. Qed.
Lemma reads_no_error : forall ks t c t' c', reads t c ks t' c' -> no_error c'.
Proof. induction 1; assumption. Qed.
(* expecting a token that is there *)
Lemma expect_ok : forall k ks t c m t' c' ty, reads t c (k :: ks) t' c' -> jt_type t = ty -> 
  exists t1 c1, Expect F data (mk_ps t c m) ty = Ok (t, mk_ps t1 c1 m) /\ reads t1 c1 ks t' c'.
Proof.
  intros k ks t c m t' c' ty H Ht. inversion H as [|? ? ? t1 c1 ? ? ? Hn Hk HL HR]; subst. exists t1, c1. split; [|exact HR].
  unfold Expect. cbn [ps_t ps_c ps_m]. replace (jtype_eqb (jt_type t) (jt_type t)) with true by (destruct (jt_type t); reflexivity). unfold next. cbn [ps_c ps_m]. rewrite HL. reflexivity.
Qed.
Lemma next_ok : forall k ks t c m t' c', reads t c (k :: ks) t' c' -> exists t1 c1, next F data (mk_ps t c m) = Ok (mk_ps t1 c1 m) /\ reads t1 c1 ks t' c'.
Proof. intros k ks t c m t' c' H. inversion H as [|? ? ? t1 c1 ? ? ? Hn Hk HL HR]; subst. exists t1, c1. split; [|exact HR]. unfold next. cbn [ps_c ps_m]. rewrite HL. reflexivity. Qed.

(* ---- enums ---- *)
Lemma bytes_rd : forall p n s, rd_bytes data p n = Ok s -> Forall is_byte s.
Proof.
  intros p n s H. apply rd_bytes_ok in H. destruct H as [H1 [H2 [H3 ->]]]. apply Forall_forall. intros x Hx. apply In_znth in Hx. destruct Hx as [i Hi].
  rewrite znth_slice in Hi by lia. destruct ((0 <=? i) && (i <? n)); [|discriminate]. apply znth_In in Hi. rewrite Forall_forall in Hbytes. apply Hbytes. exact Hi.
Qed.
Lemma hash_bytes : forall s, Forall is_byte s -> HashData s (zlen s) 0 = Ok (hash32 s 0).
Proof. intros s Hs. pose proof (murmur_correct s [] 0 Hs) as H. rewrite app_nil_r in H. apply H. unfold is_u32. lia. Qed.
Lemma symbols_step : forall text cur, text <> [] \/ cur <> [] ->
  symbols text cur = (rev cur ++ symbol text) :: symbols (skipn (S (length (symbol text))) text) [].
Proof.
  induction text as [|c r IH]; intros cur H.
  - destruct cur as [|x cur]; [destruct H; contradiction|]. cbn [symbol length skipn symbols]. rewrite app_nil_r. reflexivity.
  - cbn [symbols symbol]. destruct (c =? 124) eqn:Ec; [cbn [length skipn]; rewrite app_nil_r; reflexivity|]. rewrite IH by (right; discriminate). cbn [rev length skipn]. rewrite <- app_assoc. reflexivity.
Qed.
Lemma symbol_bytes : forall text, Forall is_byte text -> Forall is_byte (symbol text).
Proof. induction 1 as [|c r Hc Hr IH]; cbn [symbol]; [constructor|]. destruct (c =? 124); constructor; assumption. Qed.
Lemma skipn_bytes : forall n (l : list Z), Forall is_byte l -> Forall is_byte (skipn n l).
Proof. induction n as [|n IH]; intros l H; [exact H|]. destruct H; [constructor|apply IH; assumption]. Qed.
Lemma s32_le : forall v, is_s32 v -> s32 (le_val (le_bytes 4 v)) = v.
Proof. intros v Hv. rewrite le_val_bytes. change (256 ^ Z.of_nat 4) with 4294967296. unfold s32, is_s32 in *. change (2 ^ 32) with 4294967296. rewrite Zplus_mod_idemp_l. rewrite Z.mod_small by lia. lia. Qed.
Lemma s32_lor : forall a b, is_s32 a -> is_s32 b -> is_s32 (Z.lor a b).
Proof.
  intros a b Ha Hb. unfold is_s32 in *. change (- 2 ^ 31) with (- 2 ^ 31) in *. 
  assert (HS : forall x, - 2 ^ 31 <= x < 2 ^ 31 <-> Z.shiftr x 31 = 0 \/ Z.shiftr x 31 = -1).
  { intros x. rewrite Z.shiftr_div_pow2 by lia. lia. }
  apply HS. rewrite Z.shiftr_lor. apply HS in Ha. apply HS in Hb. destruct Ha as [->| ->], Hb as [->| ->]; cbn; auto.
Qed.
Lemma wr_rd : forall m a b m', wr_bytes m a b = Ok m' -> rd_bytes m' a (zlen b) = Ok b.
Proof.
  intros m a b m' H. apply wr_bytes_ok in H. destruct H as [H1 [H2 ->]]. pose proof (zlen_nonneg _ b). unfold rd_bytes. rewrite splice_zlen by lia.
  replace ((0 <=? a) && (0 <=? zlen b) && (a + zlen b <=? zlen m)) with true by lia. f_equal. apply znth_ext. intros i. rewrite znth_slice by lia.
  destruct ((0 <=? i) && (i <? zlen b)) eqn:Ei; [|symmetry; apply znth_none; lia]. rewrite znth_splice by lia.
  replace ((a <=? a + i) && (a + i <? a + zlen b)) with true by lia. f_equal. lia.
Qed.
Lemma wr_wr : forall m a b1 b2 m1, zlen b1 = zlen b2 -> wr_bytes m a b1 = Ok m1 -> wr_bytes m1 a b2 = wr_bytes m a b2.
Proof.
  intros m a b1 b2 m1 Hl H. apply wr_bytes_ok in H. destruct H as [H1 [H2 ->]]. unfold wr_bytes. rewrite splice_zlen by lia. rewrite Hl in H2.
  replace ((0 <=? a) && (a + zlen b2 <=? zlen m)) with true by lia. f_equal. apply znth_ext. intros i.
  rewrite znth_splice by (try rewrite splice_zlen by lia; lia). rewrite (znth_splice m a b2) by lia.
  destruct ((a <=? i) && (i <? a + zlen b2)) eqn:Ei; [reflexivity|]. rewrite znth_splice by lia. rewrite Hl, Ei. reflexivity.
Qed.
Definition wf_constants (cs : list (entry (list Z * Z))) : Prop := strict cs /\ (forall e, In e cs -> is_s32 (snd (snd e))).
Definition named (cs : list (entry (list Z * Z))) (syms : list (list Z)) : list Z :=
  flat_map (fun s => match lookup cs (hash32 s 0) with Some (_, v) => [v] | None => [] end) syms.
Lemma load_flags_ok : forall cs, wf_constants cs -> forall fuel text object mem, (length text < fuel)%nat -> Forall is_byte text ->
  load_flags fuel mem cs text object false = store_enum (named cs (symbols text [])) mem object /\
  (forall mem0 v, is_s32 v -> wr_bytes mem0 object (le_bytes 4 v) = Ok mem ->
     load_flags fuel mem cs text object true = wr_bytes mem0 object (le_bytes 4 (fold_left Z.lor (named cs (symbols text [])) v))).
Proof.
  intros cs [Hs Hv]. induction fuel as [|fuel IH]; intros text object mem Hf Hb; [lia|]. cbn [load_flags]. destruct text as [|c r].
  - cbn [symbols named flat_map fold_left store_enum]. split; [reflexivity|]. intros mem0 v _ H. symmetry. exact H.
  - rewrite (symbols_step (c :: r) []) by (left; discriminate). change (rev [] ++ symbol (c :: r)) with (symbol (c :: r)).
    set (sy := symbol (c :: r)). set (rest := skipn (S (length sy)) (c :: r)). assert (Hsy : Forall is_byte sy) by (apply symbol_bytes; exact Hb).
    assert (Hr : Forall is_byte rest) by (apply skipn_bytes; exact Hb). assert (Hl : (length rest < fuel)%nat) by (unfold rest; rewrite skipn_length; cbn [length] in *; lia).
    rewrite (hash_bytes sy Hsy). destruct (lookup_ok _ cs (hash32 sy 0) Hs) as [e [HF HL]]. unfold named. cbn [flat_map]. rewrite <- HL.
    destruct e as [[k [nm v]]|]; cbn [option_map snd].
    + assert (Hvv : is_s32 v). { pose proof (lookup_in _ cs _ _ (eq_sym HL)) as Hi. apply (Hv _ Hi). }
      cbn [app store_enum fold_left]. split.
      * rewrite bind_Ok, HF, bind_Ok. destruct (wr_bytes mem object (le_bytes 4 v)) as [m| | |] eqn:Ew.
        -- rewrite bind_Ok. exact (proj2 (IH rest object m Hl Hr) mem v Hvv Ew).
        -- unfold wr_bytes in Ew. destruct (_ && _); discriminate.
        -- unfold wr_bytes in *. rewrite le_bytes_zlen in *. destruct (_ && _); [discriminate|reflexivity].
        -- unfold wr_bytes in Ew. destruct (_ && _); discriminate.
      * intros mem0 v0 Hv0 Hw. rewrite bind_Ok, HF, bind_Ok. pose proof (wr_rd _ _ _ _ Hw) as HR. rewrite le_bytes_zlen in HR. change (Z.of_nat 4) with 4 in HR. rewrite HR, bind_Ok, s32_le by exact Hv0.
        rewrite (wr_wr mem0 object (le_bytes 4 v0) (le_bytes 4 (Z.lor v0 v)) mem) by (rewrite ?le_bytes_zlen; auto).
        assert (HO : exists m, wr_bytes mem0 object (le_bytes 4 (Z.lor v0 v)) = Ok m). { unfold wr_bytes in *. rewrite le_bytes_zlen in *. destruct (_ && _); [eauto|discriminate]. }
        destruct HO as [m HO]. rewrite HO, bind_Ok. apply (proj2 (IH rest object m Hl Hr)); [apply s32_lor; assumption|exact HO].
    + cbn [app]. destruct (IH rest object mem Hl Hr) as [I1 I2]. split; [rewrite bind_Ok, HF, bind_Ok; exact I1|]. intros mem0 v0 Hv0 Hw. rewrite bind_Ok, HF, bind_Ok. exact (I2 mem0 v0 Hv0 Hw).
Qed.
Lemma parser_string_ok : forall t s mem object ty, tok_is t (SString s) -> 
  ParserString E data t mem object (Some ty) =
  do t <- get_type E ty; match rt_kind t with K_enum fl cs => store_enum (enum_values fl cs s) mem object | _ => Ok mem end.
Proof.
  intros t s mem object ty [Ht Hr]. unfold ParserString, IsValid. rewrite Ht. cbn [jtype_eqb negb]. unfold get_type. destruct (nth_error E ty) as [y|] eqn:Ey; [|reflexivity]. rewrite !bind_Ok.
  destruct (HE _ _ Ey) as [_ Hk]. destruct (rt_kind y) as [|fl cs|fa fs]; try reflexivity. rewrite Hr, bind_Ok. pose proof (bytes_rd _ _ _ Hr) as Hb.
  unfold enum_values. destruct fl.
  - apply (load_flags_ok cs Hk); [lia|exact Hb].
  - rewrite (hash_bytes s Hb), bind_Ok. destruct (lookup_ok _ cs (hash32 s 0) (proj1 Hk)) as [e [HF HL]]. rewrite HF, bind_Ok. cbn [flat_map]. rewrite <- HL. destruct e as [[k [nm v]]|]; reflexivity.
Qed.
Lemma parser_string_none : forall t mem object, ParserString E data t mem object None = Ok mem.
Proof. intros. unfold ParserString. destruct (IsValid t); reflexivity. Qed.

(* ---- members ---- *)
Lemma pair_field_ok : forall t s ty, tok_is t (SString s) -> (ty < length E)%nat -> pair_field E data tf t (Some ty) = Ok (member_field E tf ty s).
Proof.
  intros t s ty [Ht Hr] Hty. unfold pair_field, member_field, get_type. destruct (nth_error E ty) as [y|] eqn:Ey; [|apply nth_error_None in Ey; lia]. rewrite bind_Ok.
  destruct y as [h sz k bs]. cbn [rt_kind]. destruct k as [|fl cs|fa fs]; try reflexivity. rewrite Hr, bind_Ok. rewrite (hash_bytes s (bytes_rd _ _ _ Hr)), bind_Ok.
  rewrite (find_fields_ok (S (length E)) (S ty)) by lia. rewrite bind_Ok. unfold is_transient. destruct (find_field _ _ _ _) as [f|]; [|reflexivity]. destruct (has_flag (rf_flags f) tf); reflexivity.
Qed.
Lemma find_field_in : forall depth ty h f, find_field depth E ty h = Some f -> (rf_type f < length E)%nat.
Proof.
  induction depth as [|d IH]; intros ty h f H; [discriminate|]. cbn [find_field] in H. destruct (nth_error E ty) as [t|] eqn:Et; [|discriminate]. destruct (HE _ _ Et) as [_ Hk].
  assert (HB : forall l r, (forall f, r = Some f -> (rf_type f < length E)%nat) -> fold_left (fun r b => match r with Some f => Some f | None => find_field d E b h end) l r = Some f -> (rf_type f < length E)%nat).
  { induction l as [|b l IHl]; intros r Hr HH; cbn [fold_left] in HH; [apply Hr; exact HH|]. apply IHl in HH; [exact HH|]. intros f0 Hf0. destruct r as [f1|]; [apply Hr; exact Hf0|]. eapply IH; exact Hf0. }
  destruct (rt_kind t) as [|fl cs|fa fs]; try (apply (HB (rt_bases t) None ltac:(discriminate) H)).
  destruct (lookup fs h) as [f0|] eqn:El; [|apply (HB (rt_bases t) None ltac:(discriminate) H)]. injection H as ->. destruct Hk as [_ Hk]. exact (Hk _ (lookup_in _ _ _ _ El)).
Qed.
Lemma member_field_in : forall ty s f, member_field E tf ty s = Some f -> (rf_type f < length E)%nat.
Proof.
  intros ty s f H. unfold member_field in H. destruct (nth_error E ty) as [[h sz k bs]|]; [|discriminate]. destruct k; try discriminate.
  destruct (find_field _ _ _ _) as [f0|] eqn:Ef; [|discriminate]. destruct (has_flag _ _); [discriminate|]. injection H as ->. eapply find_field_in; exact Ef.
Qed.

(* ---- values ---- *)
Section Json_ind.
Variable P : json -> Prop.
Hypothesis Hstr : forall s, P (J_string s).
Hypothesis Hint : forall v, P (J_int v).
Hypothesis Hdec : forall b, P (J_dec b).
Hypothesis Htrue : P J_true.
Hypothesis Hfalse : P J_false.
Hypothesis Hnull : P J_null.
Hypothesis Harr : forall l, Forall P l -> P (J_array l).
Hypothesis Hobj : forall l, Forall (fun m => P (snd m)) l -> P (J_object l).
Fixpoint json_ind2 (j : json) : P j :=
  match j with
  | J_string s => Hstr s | J_int v => Hint v | J_dec b => Hdec b | J_true => Htrue | J_false => Hfalse | J_null => Hnull
  | J_array l => Harr l ((fix go l : Forall P l := match l with [] => Forall_nil _ | x :: r => Forall_cons x (json_ind2 x) (go r) end) l)
  | J_object l => Hobj l ((fix go l : Forall (fun m => P (snd m)) l := match l with [] => Forall_nil _ | x :: r => Forall_cons x (json_ind2 (snd x)) (go r) end) l)
  end.
End Json_ind.

Notation PV := (ParserValue E F lut data tf).
Notation PE := (ParserElements E F lut data tf).
Notation PM := (ParserMembers E F lut data tf).
Notation PO := (ParserObject E F lut data tf).
Notation PA := (ParserArray E F lut data tf).
Notation PP := (ParserPair E F lut data tf).
Notation put := (store E F lut tf).
Definition ended (t : jtok) (c : jctx) (r : outcome (list Z)) : outcome pstate := do m <- r; Ok (mk_ps t c m).
Definition in_types (type : option nat) : Prop := match type with None => True | Some ty => (ty < length E)%nat end.
Definition in_field (field : option rfield) : Prop := match field with None => True | Some f => (rf_type f < length E)%nat end.
Definition value_ok (j : json) : Prop := forall n t c m object type pointer field t' c', in_types type -> in_field field -> (type = None -> field = None) -> (2 * length (tokens j) <= n)%nat ->
  reads t c (tokens j) t' c' -> PV n (mk_ps t c m) object type pointer field = ended t' c' (put j m object type pointer field).

Definition scalar (s : pstate) (tok : jtype) (use : jtok -> outcome (list Z)) : outcome pstate :=
  do x <- Expect F data s tok; do m <- use (fst x); Ok (mk_ps (ps_t (snd x)) (ps_c (snd x)) m).
Lemma PV_S : forall n s object type pointer field, PV (S n) s object type pointer field =
  do transient <- transient_class E tf type;
  match jt_type (ps_t s) with
  | T_STRING => scalar s T_STRING (fun t => ParserString E data t (ps_m s) object type)
  | T_INTEGER => scalar s T_INTEGER (fun t => do h <- hash_of E type; ParserInteger F lut t (ps_m s) object h pointer)
  | T_DECIMAL => scalar s T_DECIMAL (fun t => do h <- hash_of E type; ParserDecimal F lut t (ps_m s) object h)
  | T_LBRACE => do s <- (match type with Some ty => if transient : bool then PO n s 0 None else PO n s object (Some ty) | None => PO n s 0 None end); do x <- Expect F data s T_RBRACE; Ok (snd x)
  | T_LBRACKET => PA n s object type field
  | T_TRUE => scalar s T_TRUE (fun t => do h <- hash_of E type; ParserLiteralValue F lut t 1 (ps_m s) object h pointer)
  | T_FALSE => scalar s T_FALSE (fun t => do h <- hash_of E type; ParserLiteralValue F lut t 0 (ps_m s) object h pointer)
  | T_NULL => scalar s T_NULL (fun t => do h <- hash_of E type; ParserLiteralValue F lut t 0 (ps_m s) object h pointer)
  | _ => Ok (fail s)
  end.
Proof. reflexivity. Qed.
Lemma PE_S : forall n s it type pointer, PE (S n) s it type pointer =
  do x <- match it with
          | Some it => do e <- array_add_empty it; do s <- PV n s (fst e) type pointer None; Ok (s, Some (snd e))
          | None => do s <- PV n s 0 None pointer None; Ok (s, None)
          end;
  if jtype_eqb (jt_type (ps_t (fst x))) T_COMMA then do s <- next F data (fst x); PE n s (snd x) type pointer else Ok (fst x).
Proof. reflexivity. Qed.
Lemma PA_S : forall n s object type field, PA (S n) s object type field =
  do x <- Expect F data s T_LBRACKET;
  if negb (IsValid (fst x)) then Ok (snd x) else
  if jtype_eqb (jt_type (ps_t (snd x))) T_RBRACKET then next F data (snd x) else
  do s <- match field with
          | Some (mk_rfield _ _ _ ty is_ptr (Some count) as f) => do af <- array_of E f count; do it <- array_init af object; PE n (snd x) (Some it) (Some ty) is_ptr
          | _ => PE n (snd x) None None false
          end;
  do x <- Expect F data s T_RBRACKET; Ok (snd x).
Proof. reflexivity. Qed.
Lemma PP_S : forall n s object type, PP (S n) s object type =
  do x <- Expect F data s T_STRING;
  if negb (IsValid (fst x)) then Ok (snd x) else
  do field <- pair_field E data tf (fst x) type;
  do y <- Expect F data (snd x) T_COLON;
  if negb (IsValid (fst y)) then Ok (snd y) else
  match field with
  | Some f => PV n (snd y) (object + rf_offset f) (Some (rf_type f)) (rf_ptr f) (Some f)
  | None => PV n (snd y) 0 None false None
  end.
Proof. reflexivity. Qed.
Lemma PM_S : forall n s object type, PM (S n) s object type =
  do s <- PP n s object type;
  if jtype_eqb (jt_type (ps_t s)) T_COMMA then do s <- next F data s; PM n s object type else Ok s.
Proof. reflexivity. Qed.
Lemma PO_S : forall n s object type, PO (S n) s object type =
  do x <- Expect F data s T_LBRACE;
  if negb (IsValid (fst x)) then Ok (snd x) else
  if jtype_eqb (jt_type (ps_t (snd x))) T_RBRACE then Ok (snd x) else PM n (snd x) object type.
Proof. reflexivity. Qed.
Lemma reads_nil : forall t c t' c', reads t c [] t' c' -> t = t' /\ c = c'.
Proof. intros t c t' c' H. inversion H. auto. Qed.
Lemma put_none : forall j m object pointer field, put j m object None pointer field = Ok m.
Proof. destruct j; reflexivity. Qed.
Lemma ended_ok : forall t c m, ended t c (Ok m) = Ok (mk_ps t c m).
Proof. reflexivity. Qed.
Lemma valid_type : forall t x, jt_type t = x -> x <> T_NONE -> IsValid t = true.
Proof. intros t x H Hx. unfold IsValid. rewrite H. destruct x; try reflexivity. contradiction. Qed.
Lemma not_comma : forall t, jt_type t <> T_COMMA -> jtype_eqb (jt_type t) T_COMMA = false.
Proof. intros t H. destruct (jt_type t); try reflexivity. contradiction. Qed.
Lemma in_type : forall ty, (ty < length E)%nat -> exists y, nth_error E ty = Some y.
Proof. intros ty H. destruct (nth_error E ty) as [y|] eqn:Ey; [eauto|]. apply nth_error_None in Ey. lia. Qed.
Lemma commas_cons : forall x l, l <> [] -> commas (x :: l) = x ++ SChar T_COMMA :: commas l.
Proof. intros x [|y l] H; [contradiction|reflexivity]. Qed.
Lemma map_nonnil : forall (A B : Type) (f : A -> B) l, l <> [] -> map f l <> [].
Proof. intros A B f [|x l] H; [contradiction|discriminate]. Qed.

Lemma elements_ok : forall l, Forall value_ok l -> l <> [] -> forall n t c m t' c', (2 * length (commas (map tokens l)) + 1 <= n)%nat ->
  reads t c (commas (map tokens l)) t' c' -> jt_type t' <> T_COMMA ->
  (forall it ty ptr, (ty < length E)%nat -> PE n (mk_ps t c m) (Some it) (Some ty) ptr = ended t' c' (store_elements (fun j mem at_ => put j mem at_ (Some ty) ptr None) l m it)) /\
  (forall type ptr, PE n (mk_ps t c m) None type ptr = Ok (mk_ps t' c' m)).
Proof.
  induction l as [|j l IH]; intros HF Hne n t c m t' c' Hn HR Hc; [contradiction|]. inversion HF as [|? ? Hj Hl]; subst. destruct n as [|n]; [lia|].
  destruct l as [|j2 l].
  - cbn [map commas] in *. split.
    + intros it ty ptr Hty. rewrite PE_S; cbn [store_elements]. rewrite bind_assoc. unfold ended. rewrite bind_assoc. apply bind_ext. intros [a it']. cbn [fst snd].
      rewrite bind_assoc. rewrite (Hj n t c m a (Some ty) ptr None t' c' Hty I (fun _ => eq_refl) ltac:(lia) HR). unfold ended. rewrite !bind_assoc. apply bind_ext. intros m'. rewrite !bind_Ok. cbn [fst ps_t]. rewrite (not_comma _ Hc). reflexivity.
    + intros type ptr. rewrite PE_S. rewrite (Hj n t c m 0 None ptr None t' c' I I (fun _ => eq_refl) ltac:(lia) HR), put_none, ended_ok, !bind_Ok. cbn [fst ps_t]. rewrite (not_comma _ Hc). reflexivity.
  - remember (j2 :: l) as l2. assert (Hl2 : l2 <> []) by (subst; discriminate). clear Heql2 j2 l.
    cbn [map] in HR, Hn. rewrite commas_cons in HR, Hn by (apply map_nonnil; exact Hl2). rewrite app_length in Hn. cbn [length] in Hn. destruct (reads_app _ _ _ _ _ _ HR) as [t1 [c1 [HR1 HR2]]]. pose proof (reads_first _ _ _ _ _ _ HR2) as Hk. cbn [tok_is] in Hk.
    split.
    + intros it ty ptr Hty. rewrite PE_S; cbn [store_elements]. rewrite bind_assoc. unfold ended. rewrite bind_assoc. apply bind_ext. intros [a it']. cbn [fst snd].
      rewrite bind_assoc. rewrite (Hj n t c m a (Some ty) ptr None t1 c1 Hty I (fun _ => eq_refl) ltac:(lia) HR1). unfold ended. rewrite !bind_assoc. apply bind_ext. intros m'. rewrite !bind_Ok. cbn [fst snd ps_t]. rewrite Hk. cbn [jtype_eqb].
      destruct (next_ok _ _ _ _ m' _ _ HR2) as [t2 [c2 [HN HR3]]]. rewrite HN, bind_Ok. exact (proj1 (IH Hl Hl2 n t2 c2 m' t' c' ltac:(lia) HR3 Hc) it' ty ptr Hty).
    + intros type ptr. rewrite PE_S. rewrite (Hj n t c m 0 None ptr None t1 c1 I I (fun _ => eq_refl) ltac:(lia) HR1), put_none, ended_ok, !bind_Ok. cbn [fst snd ps_t]. rewrite Hk. cbn [jtype_eqb].
      destruct (next_ok _ _ _ _ m _ _ HR2) as [t2 [c2 [HN HR3]]]. rewrite HN, bind_Ok. exact (proj2 (IH Hl Hl2 n t2 c2 m t' c' ltac:(lia) HR3 Hc) type ptr).
Qed.
Definition pair_tokens (m : list Z * json) : list stoken := SString (fst m) :: SChar T_COLON :: tokens (snd m).
Definition put_member (x : list Z * json) (m : list Z) (object : Z) (type : option nat) : outcome (list Z) :=
  match type with
  | None => Ok m
  | Some ty => match member_field E tf ty (fst x) with Some f => put (snd x) m (object + rf_offset f) (Some (rf_type f)) (rf_ptr f) (Some f) | None => Ok m end
  end.
Lemma pair_ok : forall x, value_ok (snd x) -> forall n t c m object type t' c', in_types type -> (2 * length (pair_tokens x) <= n + 1)%nat -> reads t c (pair_tokens x) t' c' ->
  PP n (mk_ps t c m) object type = ended t' c' (put_member x m object type).
Proof.
  intros [s j] Hj n t c m object type t' c' Hty Hn HR. cbn [fst snd pair_tokens] in *. unfold pair_tokens in Hn, HR. cbn [fst snd length] in Hn, HR. destruct n as [|n]; [lia|]. rewrite PP_S.
  pose proof (reads_first _ _ _ _ _ _ HR) as Hs. destruct (expect_ok _ _ _ _ m _ _ T_STRING HR (proj1 Hs)) as [t1 [c1 [HX HR1]]]. rewrite HX, bind_Ok. cbn [fst snd]. rewrite (valid_type t _ (proj1 Hs)) by discriminate. cbn [negb].
  pose proof (reads_first _ _ _ _ _ _ HR1) as Hcol. cbn [tok_is] in Hcol. destruct (expect_ok _ _ _ _ m _ _ T_COLON HR1 Hcol) as [t2 [c2 [HX2 HR2]]].
  destruct type as [ty|].
  - rewrite (pair_field_ok t s ty Hs Hty), bind_Ok, HX2, bind_Ok. cbn [fst snd]. rewrite (valid_type t1 _ Hcol) by discriminate. cbn [negb put_member fst snd].
    destruct (member_field E tf ty s) as [f|] eqn:Ef.
    + pose proof (member_field_in _ _ _ Ef) as Hf. apply (Hj n t2 c2 m _ (Some (rf_type f)) (rf_ptr f) (Some f) t' c' Hf Hf ltac:(discriminate) ltac:(lia) HR2).
    + rewrite (Hj n t2 c2 m 0 None false None t' c' I I (fun _ => eq_refl) ltac:(lia) HR2), put_none. reflexivity.
  - cbn [pair_field]. rewrite bind_Ok, HX2, bind_Ok. cbn [fst snd]. rewrite (valid_type t1 _ Hcol) by discriminate. cbn [negb put_member].
    rewrite (Hj n t2 c2 m 0 None false None t' c' I I (fun _ => eq_refl) ltac:(lia) HR2), put_none. reflexivity.
Qed.
Definition put_members (l : list (list Z * json)) (m : list Z) (object : Z) (type : option nat) : outcome (list Z) :=
  match type with None => Ok m | Some ty => store_each E tf put object ty l m end.
Lemma put_members_cons : forall x l m object type, put_members (x :: l) m object type = do m <- put_member x m object type; put_members l m object type.
Proof. intros [s j] l m object [ty|]; reflexivity. Qed.
Lemma members_ok : forall l, Forall (fun x => value_ok (snd x)) l -> l <> [] -> forall n t c m object type t' c', in_types type -> (2 * length (commas (map pair_tokens l)) <= n)%nat ->
  reads t c (commas (map pair_tokens l)) t' c' -> jt_type t' <> T_COMMA -> PM n (mk_ps t c m) object type = ended t' c' (put_members l m object type).
Proof.
  induction l as [|x l IH]; intros HF Hne n t c m object type t' c' Hty Hn HR Hc; [contradiction|]. inversion HF as [|? ? Hj Hl]; subst.
  assert (Hpos : (1 <= n)%nat) by (destruct l; cbn [map commas] in Hn; [|rewrite app_length in Hn]; unfold pair_tokens in Hn; cbn [length] in Hn; lia).
  destruct n as [|n]; [lia|]. rewrite PM_S. rewrite put_members_cons. destruct l as [|x2 l].
  - cbn [map commas] in *. rewrite (pair_ok x Hj n t c m object type t' c' Hty ltac:(lia) HR). unfold ended. rewrite !bind_assoc. apply bind_ext. intros m'. rewrite !bind_Ok. cbn [ps_t]. rewrite (not_comma _ Hc). destruct type; reflexivity.
  - remember (x2 :: l) as l2. assert (Hl2 : l2 <> []) by (subst; discriminate). clear Heql2 x2 l.
    cbn [map] in HR, Hn. rewrite commas_cons in HR, Hn by (apply map_nonnil; exact Hl2). rewrite app_length in Hn. cbn [length] in Hn. destruct (reads_app _ _ _ _ _ _ HR) as [t1 [c1 [HR1 HR2]]]. pose proof (reads_first _ _ _ _ _ _ HR2) as Hk. cbn [tok_is] in Hk.
    rewrite (pair_ok x Hj n t c m object type t1 c1 Hty ltac:(lia) HR1). unfold ended. rewrite !bind_assoc. apply bind_ext. intros m'. rewrite !bind_Ok. cbn [ps_t]. rewrite Hk. cbn [jtype_eqb].
    destruct (next_ok _ _ _ _ m' _ _ HR2) as [t2 [c2 [HN HR3]]]. rewrite HN, bind_Ok. exact (IH Hl Hl2 n t2 c2 m' object type t' c' Hty ltac:(lia) HR3 Hc).
Qed.
(* an object up to its closing brace, which is looked ahead *)
Lemma object_ok : forall l, Forall (fun x => value_ok (snd x)) l -> forall n t c m object type t' c', in_types type -> (2 * length (commas (map pair_tokens l)) + 1 <= n)%nat ->
  reads t c (SChar T_LBRACE :: commas (map pair_tokens l)) t' c' -> jt_type t' <> T_COMMA -> (l = [] -> jt_type t' = T_RBRACE) -> PO n (mk_ps t c m) object type = ended t' c' (put_members l m object type).
Proof.
  intros l HF n t c m object type t' c' Hty Hn HR Hcm Hnil. destruct n as [|n]; [lia|]. rewrite PO_S. pose proof (reads_first _ _ _ _ _ _ HR) as Hk. cbn [tok_is] in Hk.
  destruct (expect_ok _ _ _ _ m _ _ T_LBRACE HR Hk) as [t1 [c1 [HX HR1]]]. rewrite HX, bind_Ok. cbn [fst snd ps_t]. rewrite (valid_type t _ Hk) by discriminate. cbn [negb]. destruct l as [|x l].
  - cbn [map commas] in HR1. inversion HR1; subst. rewrite (Hnil eq_refl). cbn [jtype_eqb]. destruct type; reflexivity.
  - assert (Hf : jt_type t1 = T_STRING).
    { destruct l; cbn [map commas] in HR1; unfold pair_tokens in HR1; cbn [app] in HR1; apply reads_first in HR1; apply HR1. }
    rewrite Hf. cbn [jtype_eqb]. apply members_ok; try assumption; [discriminate|lia].
Qed.
Lemma store_each_other : forall ty y object l m, nth_error E ty = Some y -> (match rt_kind y with K_class _ _ => False | _ => True end) -> store_each E tf put object ty l m = Ok m.
Proof.
  intros ty y object l m Hy Hk. induction l as [|[s j] l IH]; [reflexivity|]. cbn [store_each]. unfold member_field at 1. rewrite Hy. destruct y as [h sz k bs]. cbn [rt_kind] in Hk. destruct k; try contradiction; rewrite bind_Ok; exact IH.
Qed.
Lemma tokens_object : forall l, tokens (J_object l) = (SChar T_LBRACE :: commas (map pair_tokens l)) ++ [SChar T_RBRACE].
Proof. reflexivity. Qed.

Lemma tokens_array : forall l, tokens (J_array l) = SChar T_LBRACKET :: commas (map tokens l) ++ [SChar T_RBRACKET].
Proof. reflexivity. Qed.

Lemma all_values : forall j, value_ok j.
Proof.
  assert (HS : forall tk (k : stoken) (use : jtok -> outcome (list Z)) (r : outcome (list Z)) t c (m : list Z) t' c', reads t c [k] t' c' -> jt_type t = tk -> (use t = r) ->
    scalar (mk_ps t c m) tk use = ended t' c' r).
  { intros tk k use r t c m t' c' HR Ht Hu. unfold scalar. destruct (expect_ok _ _ _ _ m _ _ tk HR Ht) as [t1 [c1 [HX HR1]]]. inversion HR1; subst. rewrite HX, bind_Ok. cbn [fst snd ps_t ps_c]. reflexivity. }
  induction j as [s|v|b| | | |l IH|l IH] using json_ind2; intros n t c m object type pointer field t' c' Hty Hfd Hnf Hn HR; (destruct n as [|n]; [cbn [tokens length] in Hn; lia|]); rewrite PV_S;
    pose proof (reads_first _ _ _ _ _ _ HR) as Hk; cbn [tok_is] in Hk;
    (assert (HT : exists b, transient_class E tf type = Ok b /\ (forall ty y, type = Some ty -> nth_error E ty = Some y -> b = match rt_kind y with K_class fa _ => is_transient fa tf | _ => false end))
      by (destruct type as [ty|]; [destruct (in_type ty Hty) as [y Hy]; unfold transient_class, get_type; rewrite Hy; eexists; split; [reflexivity|]; intros ty' y' He Hy'; injection He as <-; rewrite Hy in Hy'; injection Hy' as <-; reflexivity | exists false; split; [reflexivity|discriminate]]));
    destruct HT as [tr [HT HTR]]; rewrite HT, bind_Ok; cbn [ps_t ps_m].
  - destruct Hk as [Hk1 Hk2]. rewrite Hk1. eapply HS; [exact HR|exact Hk1|]. cbv beta. destruct type as [ty|]; [apply parser_string_ok; split; assumption|apply parser_string_none].
  - destruct Hk as [Hk1 Hk2]. rewrite Hk1. eapply HS; [exact HR|exact Hk1|]. cbv beta. unfold ParserInteger. rewrite (valid_type _ _ Hk1) by discriminate. destruct type as [ty|]; [|reflexivity].
    cbn [store hash_of]. rewrite bind_assoc. apply bind_ext. intros y. rewrite bind_Ok, Hk2. reflexivity.
  - destruct Hk as [Hk1 Hk2]. rewrite Hk1. eapply HS; [exact HR|exact Hk1|]. cbv beta. unfold ParserDecimal. rewrite (valid_type _ _ Hk1) by discriminate. destruct type as [ty|]; [|reflexivity].
    cbn [store hash_of]. rewrite bind_assoc. apply bind_ext. intros y. rewrite bind_Ok, Hk2. reflexivity.
  - rewrite Hk. eapply HS; [exact HR|exact Hk|]. cbv beta. unfold ParserLiteralValue. rewrite (valid_type _ _ Hk) by discriminate. destruct type as [ty|]; [|reflexivity].
    cbn [store hash_of]. rewrite bind_assoc. apply bind_ext. intros y. rewrite bind_Ok. reflexivity.
  - rewrite Hk. eapply HS; [exact HR|exact Hk|]. cbv beta. unfold ParserLiteralValue. rewrite (valid_type _ _ Hk) by discriminate. destruct type as [ty|]; [|reflexivity].
    cbn [store hash_of]. rewrite bind_assoc. apply bind_ext. intros y. rewrite bind_Ok. reflexivity.
  - rewrite Hk. eapply HS; [exact HR|exact Hk|]. cbv beta. unfold ParserLiteralValue. rewrite (valid_type _ _ Hk) by discriminate. destruct type as [ty|]; [|reflexivity].
    cbn [store hash_of]. rewrite bind_assoc. apply bind_ext. intros y. rewrite bind_Ok. reflexivity.
  - rewrite Hk. rewrite tokens_array in Hn, HR. cbn [length] in Hn. rewrite app_length in Hn. cbn [length] in Hn. destruct n as [|n]; [lia|]. rewrite PA_S.
    destruct (expect_ok _ _ _ _ m _ _ T_LBRACKET HR Hk) as [t1 [c1 [HX HR1]]]. rewrite HX, bind_Ok. cbn [fst snd ps_t]. rewrite (valid_type t _ Hk) by discriminate. cbn [negb].
    destruct l as [|x l].
    + cbn [map commas app] in HR1. pose proof (reads_first _ _ _ _ _ _ HR1) as Hk1. cbn [tok_is] in Hk1. rewrite Hk1. cbn [jtype_eqb]. destruct (next_ok _ _ _ _ m _ _ HR1) as [t2 [c2 [HN HR2]]]. inversion HR2; subst. rewrite HN.
      destruct type as [ty|]; [|reflexivity]. destruct (in_type ty Hty) as [y Hy]. cbn [store]. unfold get_type. rewrite Hy. reflexivity.
    + remember (x :: l) as l2 eqn:El2. assert (Hl2 : l2 <> []) by (subst; discriminate).
      destruct (reads_app _ _ _ _ _ _ HR1) as [t2 [c2 [HR2 HR3]]]. pose proof (reads_first _ _ _ _ _ _ HR3) as Hk2. cbn [tok_is] in Hk2.
      assert (Hk1 : jtype_eqb (jt_type t1) T_RBRACKET = false).
      { assert (HH : exists k ks, commas (map tokens l2) = k :: ks /\ k <> SChar T_RBRACKET /\ (forall x, k <> SWord x \/ x = T_TRUE \/ x = T_FALSE \/ x = T_NULL)).
        { subst l2. destruct l as [|x' l']; cbn [map commas]; (destruct x; cbn [tokens app]; do 2 eexists; (split; [reflexivity|]); (split; [discriminate|]); intros z; try (left; discriminate); destruct z; auto; left; discriminate). }
        destruct HH as [k [ks [Hcs [Hk3 Hk4]]]]. rewrite Hcs in HR2. pose proof (reads_first _ _ _ _ _ _ HR2) as Hk5. destruct k as [x0|x0|x0|x0|x0]; cbn [tok_is] in Hk5.
        - rewrite Hk5. destruct x0; try reflexivity. contradiction.
        - rewrite Hk5. destruct (Hk4 x0) as [HH|[ -> |[ -> | -> ]]]; [contradiction|reflexivity..].
        - rewrite (proj1 Hk5). reflexivity. - rewrite (proj1 Hk5). reflexivity. - rewrite (proj1 Hk5). reflexivity. }
      rewrite Hk1. assert (Hc2 : jt_type t2 <> T_COMMA) by congruence.
      destruct (expect_ok _ _ _ _ m _ _ T_RBRACKET HR3 Hk2) as [t3 [c3 [HX3 HR4]]]. destruct (reads_nil _ _ _ _ HR4) as [-> ->].
      destruct (elements_ok l2 IH Hl2 n t1 c1 m t2 c2 ltac:(lia) HR2 Hc2) as [HE1 HE2].
      assert (Hskip : (do s <- PE n (mk_ps t1 c1 m) None None false; do x <- Expect F data s T_RBRACKET; Ok (snd x)) = Ok (mk_ps t' c' m)) by (rewrite HE2, bind_Ok, HX3; reflexivity).
      destruct field as [[nm off fl fty is_ptr [count|]]|].
      * destruct type as [ty|].
        -- destruct (in_type ty Hty) as [y Hy]. cbn [store]. unfold get_type at 1. rewrite Hy, bind_Ok. rewrite El2 at 1. cbn [in_field rf_type] in Hfd.
           unfold ended. rewrite !bind_assoc. apply bind_ext. intros af. rewrite !bind_assoc. apply bind_ext. intros it.
           rewrite (HE1 it fty is_ptr Hfd). unfold ended. rewrite !bind_assoc. apply bind_ext. intros m'. rewrite bind_Ok.
           destruct (expect_ok _ _ _ _ m' _ _ T_RBRACKET HR3 Hk2) as [t4 [c4 [HX4 HR5]]]. destruct (reads_nil _ _ _ _ HR5) as [-> ->]. rewrite HX4. reflexivity.
        -- discriminate (Hnf eq_refl).
      * cbn [rf_count]. rewrite Hskip. destruct type as [ty|]; [|reflexivity]. destruct (in_type ty Hty) as [y Hy]. cbn [store]. unfold get_type. rewrite Hy, El2. reflexivity.
      * rewrite Hskip. destruct type as [ty|]; [|reflexivity]. destruct (in_type ty Hty) as [y Hy]. cbn [store]. unfold get_type. rewrite Hy, El2. reflexivity.
  - rewrite Hk. rewrite tokens_object in HR, Hn. rewrite app_length in Hn. cbn [length] in Hn. destruct (reads_app _ _ _ _ _ _ HR) as [t1 [c1 [HR1 HR2]]]. pose proof (reads_first _ _ _ _ _ _ HR2) as Hk2. cbn [tok_is] in Hk2.
    assert (HX : forall m, (do x <- Expect F data (mk_ps t1 c1 m) T_RBRACE; Ok (snd x)) = Ok (mk_ps t' c' m)).
    { intros m0. destruct (expect_ok _ _ _ _ m0 _ _ T_RBRACE HR2 Hk2) as [t3 [c3 [HX3 HR4]]]. destruct (reads_nil _ _ _ _ HR4) as [-> ->]. rewrite HX3. reflexivity. }
    destruct type as [ty|].
    + destruct (in_type ty Hty) as [y Hy]. rewrite (HTR ty y eq_refl Hy). cbn [store]. unfold get_type. rewrite Hy, bind_Ok. unfold is_transient.
      assert (HPO : PO n (mk_ps t c m) object (Some ty) = ended t1 c1 (put_members l m object (Some ty))) by (apply object_ok; try assumption; [lia|congruence|auto]).
      assert (HPN : PO n (mk_ps t c m) 0 None = ended t1 c1 (Ok m)) by (apply (object_ok l IH n t c m 0 None t1 c1 I ltac:(lia) HR1 ltac:(congruence) (fun _ => Hk2))).
      destruct (rt_kind y) as [|fl cs|fa fs] eqn:Ek.
      * rewrite HPO. cbn [put_members]. rewrite (store_each_other ty y object l m Hy) by (rewrite Ek; exact I). rewrite ended_ok, bind_Ok. apply HX.
      * rewrite HPO. cbn [put_members]. rewrite (store_each_other ty y object l m Hy) by (rewrite Ek; exact I). rewrite ended_ok, bind_Ok. apply HX.
      * destruct (has_flag fa tf).
        -- rewrite HPN, ended_ok, bind_Ok. apply HX.
        -- rewrite HPO. unfold ended. rewrite bind_assoc. cbn [put_members]. apply bind_ext. intros m'. rewrite bind_Ok. apply HX.
    + rewrite (object_ok l IH n t c m 0 None t1 c1 I ltac:(lia) HR1 ltac:(congruence) (fun _ => Hk2)). cbn [put_members]. rewrite ended_ok, bind_Ok. apply HX.
Qed.

(* ---- from text to tokens ---- *)
Lemma rest_bytes : forall c a s r, at_rest data c (a ++ s ++ r) -> rd_bytes data (jc_pos c + zlen a) (zlen s) = Ok s.
Proof.
  intros c a s r [[H0 H1] HU]. unfold unread in HU. assert (HD : data = (firstn (Z.to_nat (jc_pos c)) data ++ a) ++ s ++ r) by (rewrite <- app_assoc, <- HU; symmetry; apply firstn_skipn).
  assert (zlen (firstn (Z.to_nat (jc_pos c)) data) = jc_pos c) by (unfold zlen in *; rewrite firstn_length; lia).
  replace (jc_pos c + zlen a) with (zlen (firstn (Z.to_nat (jc_pos c)) data ++ a)) by (rewrite zlen_app; lia). rewrite HD at 1. apply rd_bytes_app; reflexivity.
Qed.
Lemma token_is : forall c k s r t, spelled sd k s -> at_rest data c (s ++ r) -> token_at (jc_pos c) k t -> tok_is t k.
Proof.
  intros c k s r t Hs HR Ht. destruct k as [x|x|x|x|x]; cbn [token_at tok_is] in *; [rewrite Ht; reflexivity|exact Ht| |exact Ht..].
  rewrite Ht. cbn [jt_type jt_val jt_length]. split; [reflexivity|]. inversion Hs; subst. change ((34 :: x ++ [34]) ++ r) with ([34] ++ (x ++ [34]) ++ r) in HR. rewrite <- app_assoc in HR. apply (rest_bytes c [34] x ([34] ++ r)). exact HR.
Qed.
Lemma layout_reads : forall p text l, layout sd p text l -> forall c, at_rest data c text -> jc_pos c = p -> no_error c ->
  exists t1 c1 t' c', LexerNextToken sd data c = Ok (t1, c1) /\ reads t1 c1 (map snd l) t' c' /\ jt_type t' = T_NONE.
Proof.
  intros p text l HL. induction HL as [p w Hw|p w k s r ks Hw Hsp Hf _ IH]; intros c H Hp Hn.
  - destruct H as [Hi HU]. rewrite <- HU in Hw. destruct (next_end data Hsmall sd c Hi Hw) as [c' [HE1 [HP [HS HC]]]]. exists no_token, c', no_token, c'. split; [exact HE1|]. split; [|reflexivity]. constructor. unfold no_error in *. congruence.
  - destruct (next_split data Hsmall sd c _ _ H Hw) as [n [c1 [HE1 [[M1 [M2 M3]] HR]]]]. destruct (token_ok data Hsmall sd n k s r c1 Hsp Hf HR) as [t [HT [Ht Hv]]]. pose proof (at_adv _ _ _ _ HR) as HR2.
    destruct (IH (adv c1 (zlen s)) HR2) as [t2 [c2 [t' [c' [HE2 [HRD HN]]]]]]; [cbn; lia|unfold no_error in *; cbn; rewrite M2; exact Hn|].
    exists t, (adv c1 (zlen s)), t', c'. split; [rewrite HE1; exact HT|]. split; [|exact HN]. cbn [map snd]. econstructor; [unfold no_error in *; cbn; rewrite M2; exact Hn| |exact HE2|exact HRD].
    exact (token_is c1 k s r t Hsp HR Ht).
Qed.

(* ---- more fuel changes nothing ---- *)
Definition below {A} (a b : outcome A) : Prop := a = Fuel \/ a = b.
Lemma below_refl : forall A (a : outcome A), below a a.
Proof. right. reflexivity. Qed.
Lemma bind_below : forall A B (a b : outcome A) (f g : A -> outcome B), below a b -> (forall x, below (f x) (g x)) -> below (obind a f) (obind b g).
Proof. intros A B a b f g [->| ->] Hf; [left; reflexivity|]. destruct b; cbn [obind]; [apply Hf|right; reflexivity..]. Qed.
Lemma more_fuel1 : forall n,
  (forall s object type pointer field, below (PV n s object type pointer field) (PV (S n) s object type pointer field)) /\
  (forall s it type pointer, below (PE n s it type pointer) (PE (S n) s it type pointer)) /\
  (forall s object type field, below (PA n s object type field) (PA (S n) s object type field)) /\
  (forall s object type, below (PP n s object type) (PP (S n) s object type)) /\
  (forall s object type, below (PM n s object type) (PM (S n) s object type)) /\
  (forall s object type, below (PO n s object type) (PO (S n) s object type)).
Proof.
  induction n as [|n [IV [IE [IA [IP [IM IO]]]]]]; [repeat split; intros; left; reflexivity|].
  repeat split; intros.
  - rewrite (PV_S n), (PV_S (S n)). apply bind_below; [apply below_refl|]. intros tr. destruct (jt_type (ps_t s)); try apply below_refl; [|apply IA].
    apply bind_below; [|intros; apply below_refl]. destruct type; [destruct tr|]; apply IO.
  - rewrite (PE_S n), (PE_S (S n)). apply bind_below.
    + destruct it as [it|]; [apply bind_below; [apply below_refl|]; intros e|]; (apply bind_below; [apply IV|intros; apply below_refl]).
    + intros x. destruct (jtype_eqb _ _); [|apply below_refl]. apply bind_below; [apply below_refl|]. intros. apply IE.
  - rewrite (PA_S n), (PA_S (S n)). apply bind_below; [apply below_refl|]. intros x. destruct (negb _); [apply below_refl|]. destruct (jtype_eqb _ _); [apply below_refl|].
    apply bind_below; [|intros; apply below_refl]. destruct field as [[nm off fl fty ip [cnt|]]|]; [|apply IE..]. apply bind_below; [apply below_refl|]. intros af. apply bind_below; [apply below_refl|]. intros. apply IE.
  - rewrite (PP_S n), (PP_S (S n)). apply bind_below; [apply below_refl|]. intros x. destruct (negb _); [apply below_refl|]. apply bind_below; [apply below_refl|]. intros fd.
    apply bind_below; [apply below_refl|]. intros y. destruct (negb _); [apply below_refl|]. destruct fd; apply IV.
  - rewrite (PM_S n), (PM_S (S n)). apply bind_below; [apply IP|]. intros x. destruct (jtype_eqb _ _); [|apply below_refl]. apply bind_below; [apply below_refl|]. intros. apply IM.
  - rewrite (PO_S n), (PO_S (S n)). apply bind_below; [apply below_refl|]. intros x. destruct (negb _); [apply below_refl|]. destruct (jtype_eqb _ _); [apply below_refl|]. apply IM.
Qed.
Lemma more_fuel : forall k n s object type r, PO n s object type = r -> r <> Fuel -> PO (n + k) s object type = r.
Proof.
  induction k as [|k IH]; intros n s object type r H Hr; [rewrite Nat.add_0_r; exact H|]. rewrite Nat.add_succ_r. pose proof (IH n s object type r H Hr) as H1.
  destruct (proj2 (proj2 (proj2 (proj2 (proj2 (more_fuel1 (n + k)))))) s object type) as [H2|H2]; congruence.
Qed.

(* ---- a load without error has read complete values ---- *)
Definition kind_ok (k : stoken) : Prop := match k with SChar x => exists c, punct x c | SWord x => exists s, word x s | _ => True end.
Definition good (s : pstate) : Prop := inside data (ps_c s) /\ (no_error (ps_c s) -> exists c0, inside data c0 /\ LexerNextToken sd data c0 = Ok (ps_t s, ps_c s)).
Lemma spelled_kind : forall k s, spelled sd k s -> kind_ok k.
Proof. intros k s H. inversion H; subst; cbn [kind_ok]; eauto. Qed.
Lemma good_token : forall s, good s -> no_error (ps_c s) -> IsValid (ps_t s) = true -> exists k, tok_is (ps_t s) k /\ kind_ok k.
Proof.
  intros s [_ Hg] Hn Hv. destruct (Hg Hn) as [c0 [Hi HL]]. destruct (next_any data Hsmall sd c0 Hi) as [[HU _]|[t [c' [HL2 [_ [_ [_ Hx]]]]]]]; [congruence|]. rewrite HL in HL2. injection HL2 as <- <-.
  destruct (Hx Hv) as [He|[w [x [r [HU [Hw [Hne [Hr [[k [Hk Ht]]|Hb]]]]]]]]]; [contradiction| |].
  - exists k. split; [|eapply spelled_kind; exact Hk]. pose proof (at_any _ _ Hi) as HR. rewrite HU in HR. destruct (next_split data Hsmall sd c0 _ _ HR Hw) as [n [c1 [_ [[M1 _] HR1]]]]. rewrite <- M1 in Ht. exact (token_is c1 k x r _ Hk HR1 Ht).
  - destruct Hb as [sign [ds [e [r' [_ [_ [_ [_ [_ [_ [Ht Hv']]]]]]]]]]]. exists (SDecimal (sd x)). split; [split; assumption|exact I].
Qed.
Lemma good_next : forall s s', good s -> next F data s = Ok s' -> good s' /\ (no_error (ps_c s') -> no_error (ps_c s)) /\ LexerNextToken sd data (ps_c s) = Ok (ps_t s', ps_c s') /\ ps_m s' = ps_m s.
Proof.
  intros s s' [Hi Hg] H. unfold next in H. destruct (LexerNextToken sd data (ps_c s)) as [[t c]| | |] eqn:HL; try discriminate. cbn [obind fst snd] in H. injection H as <-. cbn [ps_c ps_t ps_m].
  destruct (next_any data Hsmall sd (ps_c s) Hi) as [[HU _]|[t2 [c2 [HL2 [[HO1 [_ [_ HO2]]] _]]]]]; [congruence|]. rewrite HL in HL2. injection HL2 as <- <-.
  split; [split; [exact HO1|intros _; exists (ps_c s); auto]|]. split; [|auto]. intros Hn. unfold no_error in *. destruct (je_code (jc_err (ps_c s))) eqn:EC; [reflexivity|exfalso; apply HO2; [discriminate|exact Hn]..].
Qed.
Lemma good_fail : forall s, good s -> good (fail s) /\ ~ no_error (ps_c (fail s)).
Proof.
  intros s [Hi Hg]. assert (HN : ~ no_error (ps_c (fail s))) by (unfold no_error, fail; cbn [ps_c]; apply SetError_code; discriminate).
  split; [|exact HN]. split; [unfold fail; cbn [ps_c]; unfold inside in *; rewrite SetError_pos; exact Hi|contradiction].
Qed.
(* one token *)
Lemma good_reads : forall s s', good s -> next F data s = Ok s' -> no_error (ps_c s') -> forall k, tok_is (ps_t s) k -> reads (ps_t s) (ps_c s) [k] (ps_t s') (ps_c s').
Proof.
  intros s s' Hg H Hn k Hk. destruct (good_next s s' Hg H) as [Hg' [He [HL _]]]. econstructor; [apply He; exact Hn|exact Hk|exact HL|]. constructor. exact Hn.
Qed.
Lemma jtype_eqb_eq : forall a b, jtype_eqb a b = true -> a = b.
Proof. intros a b H. destruct a, b; try discriminate; reflexivity. Qed.
Lemma jtype_eqb_ne : forall a b, jtype_eqb a b = false -> a <> b.
Proof. intros a b H ->. destruct b; discriminate. Qed.
Lemma expect_inv : forall s ty t s', good s -> Expect F data s ty = Ok (t, s') -> ty <> T_NONE ->
  good s' /\ (no_error (ps_c s') -> no_error (ps_c s) /\ jt_type (ps_t s) = ty /\ t = ps_t s /\ (forall k, tok_is (ps_t s) k -> reads (ps_t s) (ps_c s) [k] (ps_t s') (ps_c s'))) /\ (IsValid t = false -> ~ no_error (ps_c s')).
Proof.
  intros s ty t s' Hg H Hty. unfold Expect in H. destruct (jtype_eqb (jt_type (ps_t s)) ty) eqn:Ht.
  - apply jtype_eqb_eq in Ht. destruct (next F data s) as [s1| | |] eqn:HN; try discriminate. cbn [obind] in H. injection H as <- <-. destruct (good_next s s1 Hg HN) as [Hg1 [He [HL _]]].
    split; [exact Hg1|]. split; [|intros HV; unfold IsValid in HV; rewrite Ht in HV; destruct ty; try discriminate; contradiction]. intros Hn. split; [auto|]. split; [exact Ht|]. split; [reflexivity|]. apply good_reads; assumption.
  - injection H as <- <-. destruct (good_fail s Hg) as [H1 H2]. split; [exact H1|]. split; [contradiction|auto].
Qed.
Lemma bind_inv : forall A B (a : outcome A) (f : A -> outcome B) r, obind a f = Ok r -> exists x, a = Ok x /\ f x = Ok r.
Proof. intros A B [x| | |] f r H; try discriminate. eauto. Qed.
Lemma reads_start : forall ks t c t' c', reads t c ks t' c' -> no_error c.
Proof. intros ks t c t' c' H. inversion H; assumption. Qed.

Lemma syntax : forall n,
  (forall s object type pointer field s', good s -> PV n s object type pointer field = Ok s' -> good s' /\ (no_error (ps_c s') -> exists j, reads (ps_t s) (ps_c s) (tokens j) (ps_t s') (ps_c s'))) /\
  (forall s it type pointer s', good s -> PE n s it type pointer = Ok s' -> good s' /\ (no_error (ps_c s') -> exists l, l <> [] /\ reads (ps_t s) (ps_c s) (commas (map tokens l)) (ps_t s') (ps_c s'))) /\
  (forall s object type field s', good s -> PA n s object type field = Ok s' -> good s' /\ (no_error (ps_c s') -> exists j, reads (ps_t s) (ps_c s) (tokens j) (ps_t s') (ps_c s'))) /\
  (forall s object type s', good s -> PP n s object type = Ok s' -> good s' /\ (no_error (ps_c s') -> exists x, reads (ps_t s) (ps_c s) (pair_tokens x) (ps_t s') (ps_c s'))) /\
  (forall s object type s', good s -> PM n s object type = Ok s' -> good s' /\ (no_error (ps_c s') -> exists l, l <> [] /\ jt_type (ps_t s') <> T_COMMA /\ reads (ps_t s) (ps_c s) (commas (map pair_tokens l)) (ps_t s') (ps_c s'))) /\
  (forall s object type s', good s -> PO n s object type = Ok s' -> good s' /\ (no_error (ps_c s') -> exists l, jt_type (ps_t s') <> T_COMMA /\ (l = [] -> jt_type (ps_t s') = T_RBRACE) /\ reads (ps_t s) (ps_c s) (SChar T_LBRACE :: commas (map pair_tokens l)) (ps_t s') (ps_c s'))).
Proof.
  induction n as [|n [IV [IE [IA [IP [IM IO]]]]]]; [repeat apply conj; intros; discriminate|].
  assert (HSC : forall s tok use s', good s -> scalar s tok use = Ok s' -> tok <> T_NONE -> good s' /\ (no_error (ps_c s') -> no_error (ps_c s) /\ jt_type (ps_t s) = tok /\ forall k, tok_is (ps_t s) k -> reads (ps_t s) (ps_c s) [k] (ps_t s') (ps_c s'))).
  { intros s tok use s' Hg H Htok. unfold scalar in H. apply bind_inv in H. destruct H as [[t s1] [HX H]]. apply bind_inv in H. destruct H as [m [_ H]]. cbn [fst snd] in *. injection H as <-. cbn [ps_t ps_c].
    destruct (expect_inv s tok t s1 Hg HX Htok) as [Hg1 [Hr _]]. split; [exact Hg1|]. intros Hn. destruct (Hr Hn) as [Hn0 [Ht [_ Hrd]]]. auto. }
  repeat apply conj.
  - intros s object type pointer field s' Hg H. rewrite PV_S in H. apply bind_inv in H. destruct H as [tr [_ H]].
    destruct (jt_type (ps_t s)) eqn:Ht;
      try (injection H as <-; destruct (good_fail s Hg); split; [assumption|contradiction]);
      try (destruct (HSC _ _ _ _ Hg H ltac:(discriminate)) as [Hg' Hr]; split; [exact Hg'|]; intros Hn; destruct (Hr Hn) as [Hn0 [Hty Hk]];
           destruct (good_token s Hg Hn0 (valid_type _ _ Ht ltac:(discriminate))) as [k [Hk1 Hk2]]; specialize (Hk k Hk1)).
    + destruct (bind_inv _ _ _ _ _ H) as [s1 [HO HX]]. apply bind_inv in HX. destruct HX as [[t s2] [HX HE2]]. injection HE2 as <-.
      assert (HOO : good s1 /\ (no_error (ps_c s1) -> exists l, jt_type (ps_t s1) <> T_COMMA /\ (l = [] -> jt_type (ps_t s1) = T_RBRACE) /\ reads (ps_t s) (ps_c s) (SChar T_LBRACE :: commas (map pair_tokens l)) (ps_t s1) (ps_c s1)))
        by (destruct type; [destruct tr|]; eapply IO; eassumption).
      destruct HOO as [Hg1 Hr1]. destruct (expect_inv s1 _ _ _ Hg1 HX ltac:(discriminate)) as [Hg2 [Hr2 _]]. cbn [snd]. split; [exact Hg2|]. intros Hn. destruct (Hr2 Hn) as [Hn1 [Ht1 [_ Hrd]]]. destruct (Hr1 Hn1) as [l [_ [_ HRD]]].
      exists (J_object l). rewrite tokens_object. eapply reads_join; [exact HRD|]. apply Hrd. exact Ht1.
    + eapply IA; eassumption.
    + exists (J_string match k with SString x => x | _ => [] end). destruct k as [x|x|x|x|x]; cbn [tok_is kind_ok] in *; try exact Hk; exfalso; rewrite Ht in Hk1; try (destruct Hk1; congruence); destruct Hk2 as [z Hz]; subst x; inversion Hz.
    + exists J_true. replace (tokens J_true) with [k]; [exact Hk|]. destruct k as [x|x|x|x|x]; cbn [tok_is kind_ok] in *; rewrite Ht in Hk1; try (destruct Hk1; congruence); destruct Hk2 as [z Hz]; subst x; [inversion Hz|reflexivity].
    + exists J_false. replace (tokens J_false) with [k]; [exact Hk|]. destruct k as [x|x|x|x|x]; cbn [tok_is kind_ok] in *; rewrite Ht in Hk1; try (destruct Hk1; congruence); destruct Hk2 as [z Hz]; subst x; [inversion Hz|reflexivity].
    + exists J_null. replace (tokens J_null) with [k]; [exact Hk|]. destruct k as [x|x|x|x|x]; cbn [tok_is kind_ok] in *; rewrite Ht in Hk1; try (destruct Hk1; congruence); destruct Hk2 as [z Hz]; subst x; [inversion Hz|reflexivity].
    + exists (J_int match k with SInteger x => x | _ => 0 end). destruct k as [x|x|x|x|x]; cbn [tok_is kind_ok] in *; try exact Hk; exfalso; rewrite Ht in Hk1; try (destruct Hk1; congruence); destruct Hk2 as [z Hz]; subst x; inversion Hz.
    + exists (J_dec match k with SDecimal x => x | _ => 0 end). destruct k as [x|x|x|x|x]; cbn [tok_is kind_ok] in *; try exact Hk; exfalso; rewrite Ht in Hk1; try (destruct Hk1; congruence); destruct Hk2 as [z Hz]; subst x; inversion Hz.
  - intros s it type pointer s' Hg H. rewrite PE_S in H. apply bind_inv in H. destruct H as [[s1 it1] [HA H]]. cbn [fst snd] in H.
    assert (HV : good s1 /\ (no_error (ps_c s1) -> exists j, reads (ps_t s) (ps_c s) (tokens j) (ps_t s1) (ps_c s1))).
    { destruct it as [it|]; [apply bind_inv in HA; destruct HA as [e [_ HA]]|]; apply bind_inv in HA; destruct HA as [s2 [HA HA2]]; injection HA2 as <- _; eapply IV; eassumption. }
    destruct HV as [Hg1 Hr1]. destruct (jtype_eqb (jt_type (ps_t s1)) T_COMMA) eqn:Hc.
    + apply jtype_eqb_eq in Hc. apply bind_inv in H. destruct H as [s2 [HN H]]. destruct (good_next _ _ Hg1 HN) as [Hg2 [He [HL _]]]. destruct (IE _ _ _ _ _ Hg2 H) as [Hg' Hr]. split; [exact Hg'|]. intros Hn.
      destruct (Hr Hn) as [l [Hl HRD]]. pose proof (reads_start _ _ _ _ _ HRD) as Hn2. destruct (Hr1 (He Hn2)) as [j HRD1]. exists (j :: l). split; [discriminate|].
      cbn [map]. rewrite commas_cons by (apply map_nonnil; exact Hl). eapply reads_join; [exact HRD1|]. econstructor; [apply He; exact Hn2|exact Hc|exact HL|exact HRD].
    + injection H as <-. split; [exact Hg1|]. intros Hn. destruct (Hr1 Hn) as [j HRD]. exists [j]. split; [discriminate|exact HRD].
  - intros s object type field s' Hg H. rewrite PA_S in H. apply bind_inv in H. destruct H as [[t s1] [HX H]]. cbn [fst snd] in H. destruct (expect_inv s _ _ _ Hg HX ltac:(discriminate)) as [Hg1 [Hr1 Hv1]].
    destruct (IsValid t) eqn:Hv; cbn [negb] in H.
    + destruct (jtype_eqb (jt_type (ps_t s1)) T_RBRACKET) eqn:Hc.
      * apply jtype_eqb_eq in Hc. destruct (good_next _ _ Hg1 H) as [Hg' [He _]]. split; [exact Hg'|]. intros Hn. pose proof (good_reads _ _ Hg1 H Hn (SChar T_RBRACKET) Hc) as HRD2. destruct (Hr1 (He Hn)) as [Hn0 [Ht [_ Hrd]]].
        exists (J_array []). rewrite tokens_array. cbn [map commas app]. eapply (reads_join [SChar T_LBRACKET]); [apply Hrd; exact Ht|exact HRD2].
      * destruct (bind_inv _ _ _ _ _ H) as [s2 [HA HX2]]. apply bind_inv in HX2. destruct HX2 as [[t3 s3] [HX2 HE3]]. injection HE3 as <-. cbn [snd].
        assert (HEE : good s2 /\ (no_error (ps_c s2) -> exists l, l <> [] /\ reads (ps_t s1) (ps_c s1) (commas (map tokens l)) (ps_t s2) (ps_c s2))).
        { destruct field as [[nm off fl fty ip [cnt|]]|]; [apply bind_inv in HA; destruct HA as [af [_ HA]]; apply bind_inv in HA; destruct HA as [it [_ HA]]|..]; eapply IE; eassumption. }
        destruct HEE as [Hg2 Hr2]. destruct (expect_inv s2 _ _ _ Hg2 HX2 ltac:(discriminate)) as [Hg3 [Hr3 _]]. split; [exact Hg3|]. intros Hn. destruct (Hr3 Hn) as [Hn2 [Ht2 [_ Hrd2]]]. destruct (Hr2 Hn2) as [l [_ HRD]].
        destruct (Hr1 (reads_start _ _ _ _ _ HRD)) as [_ [Ht [_ Hrd]]]. exists (J_array l). rewrite tokens_array. eapply (reads_join [SChar T_LBRACKET]); [apply Hrd; exact Ht|]. eapply reads_join; [exact HRD|]. apply Hrd2. exact Ht2.
    + injection H as <-. split; [exact Hg1|]. intros Hn. destruct (Hv1 eq_refl Hn).
  - intros s object type s' Hg H. rewrite PP_S in H. apply bind_inv in H. destruct H as [[t s1] [HX H]]. cbn [fst snd] in H. destruct (expect_inv s _ _ _ Hg HX ltac:(discriminate)) as [Hg1 [Hr1 Hv1]].
    destruct (IsValid t) eqn:Hv; cbn [negb] in H; [|injection H as <-; split; [exact Hg1|]; intros Hn; destruct (Hv1 eq_refl Hn)].
    apply bind_inv in H. destruct H as [fd [_ H]]. apply bind_inv in H. destruct H as [[t2 s2] [HX2 H]]. cbn [fst snd] in H. destruct (expect_inv s1 _ _ _ Hg1 HX2 ltac:(discriminate)) as [Hg2 [Hr2 Hv2]].
    destruct (IsValid t2) eqn:Hv3; cbn [negb] in H; [|injection H as <-; split; [exact Hg2|]; intros Hn; destruct (Hv2 eq_refl Hn)].
    assert (HVV : good s' /\ (no_error (ps_c s') -> exists j, reads (ps_t s2) (ps_c s2) (tokens j) (ps_t s') (ps_c s'))) by (destruct fd; eapply IV; eassumption).
    destruct HVV as [Hg3 Hr3]. split; [exact Hg3|]. intros Hn. destruct (Hr3 Hn) as [j HRD]. destruct (Hr2 (reads_start _ _ _ _ _ HRD)) as [Hn1 [Ht2 [_ Hrd2]]]. destruct (Hr1 Hn1) as [Hn0 [Ht [_ Hrd]]].
    destruct (good_token s Hg Hn0 (valid_type _ _ Ht ltac:(discriminate))) as [k [Hk1 Hk2]]. specialize (Hrd k Hk1).
    destruct k as [x|x|x|x|x]; cbn [tok_is kind_ok] in *; rewrite Ht in Hk1; try (destruct Hk1; congruence); try (destruct Hk2 as [z Hz]; subst x; inversion Hz; fail).
    exists (x, j). unfold pair_tokens. cbn [fst snd]. eapply (reads_join [SString x]); [exact Hrd|]. eapply (reads_join [SChar T_COLON]); [apply Hrd2; exact Ht2|exact HRD].
  - intros s object type s' Hg H. rewrite PM_S in H. apply bind_inv in H. destruct H as [s1 [HA H]]. destruct (IP _ _ _ _ Hg HA) as [Hg1 Hr1].
    destruct (jtype_eqb (jt_type (ps_t s1)) T_COMMA) eqn:Hc.
    + apply jtype_eqb_eq in Hc. apply bind_inv in H. destruct H as [s2 [HN H]]. destruct (good_next _ _ Hg1 HN) as [Hg2 [He [HL _]]]. destruct (IM _ _ _ _ Hg2 H) as [Hg' Hr]. split; [exact Hg'|]. intros Hn.
      destruct (Hr Hn) as [l [Hl [Hnc HRD]]]. pose proof (reads_start _ _ _ _ _ HRD) as Hn2. destruct (Hr1 (He Hn2)) as [j HRD1]. exists (j :: l). split; [discriminate|]. split; [exact Hnc|].
      cbn [map]. rewrite commas_cons by (apply map_nonnil; exact Hl). eapply reads_join; [exact HRD1|]. econstructor; [apply He; exact Hn2|exact Hc|exact HL|exact HRD].
    + injection H as <-. split; [exact Hg1|]. intros Hn. destruct (Hr1 Hn) as [j HRD]. exists [j]. split; [discriminate|]. split; [apply jtype_eqb_ne; exact Hc|exact HRD].
  - intros s object type s' Hg H. rewrite PO_S in H. apply bind_inv in H. destruct H as [[t s1] [HX H]]. cbn [fst snd] in H. destruct (expect_inv s _ _ _ Hg HX ltac:(discriminate)) as [Hg1 [Hr1 Hv1]].
    destruct (IsValid t) eqn:Hv; cbn [negb] in H; [|injection H as <-; split; [exact Hg1|]; intros Hn; destruct (Hv1 eq_refl Hn)].
    destruct (jtype_eqb (jt_type (ps_t s1)) T_RBRACE) eqn:Hc.
    + injection H as <-. apply jtype_eqb_eq in Hc. split; [exact Hg1|]. intros Hn. destruct (Hr1 Hn) as [_ [Ht [_ Hrd]]]. exists []. split; [congruence|]. split; [auto|]. apply Hrd. exact Ht.
    + destruct (IM _ _ _ _ Hg1 H) as [Hg2 Hr2]. split; [exact Hg2|]. intros Hn. destruct (Hr2 Hn) as [l [Hl [Hnc HRD]]]. destruct (Hr1 (reads_start _ _ _ _ _ HRD)) as [_ [Ht [_ Hrd]]].
      exists l. split; [exact Hnc|]. split; [contradiction|]. eapply (reads_join [SChar T_LBRACE]); [apply Hrd; exact Ht|exact HRD].
Qed.

(* ---- from tokens back to text ---- *)
Lemma tokens_kind : forall j, Forall kind_ok (tokens j).
Proof.
  assert (HC : forall l, Forall (Forall kind_ok) l -> Forall kind_ok (commas l)).
  { induction 1 as [|x l Hx Hl IH]; [constructor|]. destruct l as [|y l]; [exact Hx|]. rewrite commas_cons by discriminate. apply Forall_app. split; [exact Hx|]. constructor; [exists 44; constructor|exact IH]. }
  induction j as [s|v|b| | | |l IH|l IH] using json_ind2; cbn [tokens]; try (constructor; [cbn; eauto using word|constructor]; fail).
  - constructor; [exists 91; constructor|]. apply Forall_app. split; [|constructor; [exists 93; constructor|constructor]]. apply HC. apply Forall_map. exact IH.
  - constructor; [exists 123; constructor|]. apply Forall_app. split; [|constructor; [exists 125; constructor|constructor]]. apply HC. apply Forall_map. eapply Forall_impl; [|exact IH]. intros x Hx. constructor; [exact I|]. constructor; [exists 58; constructor|exact Hx].
Qed.
Lemma members_kind : forall l, Forall kind_ok (commas (map pair_tokens l)).
Proof. intros l. pose proof (tokens_kind (J_object l)) as H. rewrite tokens_object in H. apply Forall_app in H. destruct H as [H _]. inversion H; assumption. Qed.
Lemma same_token : forall c k k' s r t, spelled sd k' s -> at_rest data c (s ++ r) -> token_at (jc_pos c) k' t -> tok_is t k -> kind_ok k -> k = k'.
Proof.
  intros c k k' s r t Hsp HR Ht Hk Hko. pose proof (token_is _ _ _ _ _ Hsp HR Ht) as Hk'. pose proof (spelled_kind _ _ Hsp) as Hko'. clear Ht HR Hsp.
  destruct k as [x|x|x|x|x], k' as [y|y|y|y|y]; cbn [tok_is kind_ok] in *; repeat match goal with H : _ /\ _ |- _ => destruct H | H : ex _ |- _ => destruct H end; try congruence;
    subst; repeat match goal with H : punct _ _ |- _ => inversion H; subst; clear H | H : word _ _ |- _ => inversion H; subst; clear H end; congruence.
Qed.
Lemma not_e : forall e r c t c', inside data c -> unread data c = e :: r -> e = 101 \/ e = 69 -> LexerNextToken sd data c = Ok (t, c') -> ~ no_error c'.
Proof.
  intros e r c t c' Hi HU He HL Hn. destruct (next_any data Hsmall sd c Hi) as [[HX _]|[t2 [c2 [HL2 [_ [_ [Hf Hx]]]]]]]; [congruence|]. rewrite HL in HL2. injection HL2 as <- <-. destruct (IsValid t) eqn:Hv.
  - destruct (Hx eq_refl) as [H|[w [s [r2 [HU2 [Hw [Hne [_ Hs]]]]]]]]; [contradiction|]. rewrite HU in HU2. destruct w as [|x w]; [|inversion Hw as [|? ? Hx' _]; subst; injection HU2 as <- _; unfold white in Hx'; lia].
    destruct s as [|x s]; [contradiction|]. cbn [app] in HU2. injection HU2 as <- _. assert (HB : ~ digit e /\ e <> 45 /\ e <> 48) by (unfold digit; lia).
    assert (HX : forall sign ds, (sign = [] \/ sign = [45]) -> ds <> [] -> Forall digit ds -> forall q l, sign ++ ds ++ q = e :: l -> False).
    { intros sign ds [->| ->] Hds Hd q l HH; [|cbn [app] in HH; injection HH as HH _; lia]. destruct ds as [|d ds]; [contradiction|]. cbn [app] in HH. injection HH as -> _. inversion Hd; tauto. }
    destruct Hs as [[k [Hk _]]|Hb].
    + assert (HDN : forall ds v, dec_number ds = Some v -> ds = e :: s -> False).
      { intros ds v Hdn ->. unfold dec_number in Hdn. cbn [number] in Hdn. unfold dec_digit in Hdn at 1. replace ((48 <=? e) && (e <=? 57)) with false in Hdn by (unfold digit in HB; lia). discriminate. }
      clear HU Hx Hne Hn HL. destruct He as [-> | ->]; inversion Hk; subst; try (match goal with H : punct _ _ |- _ => inversion H; fail | H : word _ _ |- _ => inversion H; subst; discriminate end); try (eapply HDN; eauto; fail).
      all: match goal with H : ?a ++ ?b ++ _ = _ :: _ |- _ => eapply (HX a b); eauto end.
    + destruct Hb as [sign [ds [e2 [r' [HS [Hsg [Hds [Hd _]]]]]]]]. apply (HX sign ds Hsg Hds Hd [] s). rewrite app_nil_r. symmetry. exact HS.
  - destruct (Hf eq_refl) as [H|[Hw _]]; [contradiction|]. rewrite HU in Hw. inversion Hw as [|? ? Hx' _]; subst. unfold white in Hx'. lia.
Qed.
Lemma reads_text : forall ks t c t' c', reads t c ks t' c' -> Forall kind_ok ks -> forall c0, inside data c0 -> LexerNextToken sd data c0 = Ok (t, c) ->
  exists text cl, begins sd text ks /\ unread data c0 = text ++ unread data cl /\ inside data cl /\ LexerNextToken sd data cl = Ok (t', c').
Proof.
  induction 1 as [t c Hn|t c k t1 c1 ks t' c' Hn Hk HL HR IH]; intros Hko c0 Hi HL0.
  - exists [], c0. split; [constructor|]. auto.
  - inversion Hko as [|? ? Hk0 Hks]; subst. destruct (next_any data Hsmall sd c0 Hi) as [[HX _]|[t2 [c2 [HL2 [[HO _] [_ [Hf Hx]]]]]]]; [congruence|]. rewrite HL0 in HL2. injection HL2 as <- <-.
    assert (Hv : IsValid t = true).
    { unfold IsValid. destruct k as [x|x|x|x|x]; cbn [tok_is kind_ok] in *; [destruct Hk0 as [z Hz]; subst x; inversion Hz; reflexivity|destruct Hk0 as [z Hz]; subst x; inversion Hz; reflexivity|destruct Hk as [-> _]; reflexivity..]. }
    destruct (Hx Hv) as [He|[w [s [r [HU [Hw [Hne [Hr Hs]]]]]]]]; [contradiction|]. destruct (IH Hks c HO HL) as [text [cl [HB [HU2 [Hil HLl]]]]].
    destruct Hs as [[k' [Hk' Ht]]|Hb].
    + pose proof (at_any _ _ Hi) as HRR. rewrite HU in HRR. destruct (next_split data Hsmall sd c0 _ _ HRR Hw) as [n [c3 [_ [[M1 _] HR3]]]]. rewrite <- M1 in Ht. rewrite (same_token c3 k k' s r t Hk' HR3 Ht Hk Hk0) in *.
      exists (w ++ s ++ text), cl. split; [constructor; assumption|]. split; [|auto]. rewrite HU, <- Hr, HU2, <- !app_assoc. reflexivity.
    + exfalso. destruct Hb as [sign [ds [e [r' [_ [_ [_ [_ [Hr' [He _]]]]]]]]]]. rewrite Hr' in Hr. apply (not_e e r' c t1 c1 HO Hr He HL). eapply reads_start; exact HR.
Qed.
Lemma at_begin : inside data (JSONContext 0) /\ unread data (JSONContext 0) = data /\ no_error (JSONContext 0).
Proof. unfold inside, unread, no_error, JSONContext. cbn. pose proof (zlen_nonneg _ data). repeat split; try lia; reflexivity. Qed.
Lemma all_members : forall l : list (list Z * json), Forall (fun x => value_ok (snd x)) l.
Proof. induction l; constructor; [apply all_values|assumption]. Qed.
(* LoadJSON after the first token *)
Lemma load_reads : forall n s m object ty s', (ty < length E)%nat -> next F data (mk_ps no_token (JSONContext 0) m) = Ok s -> PO n s object (Some ty) = Ok s' -> no_error (ps_c s') ->
  exists l, LexerNextToken sd data (JSONContext 0) = Ok (ps_t s, ps_c s) /\ jt_type (ps_t s') <> T_COMMA /\ (l = [] -> jt_type (ps_t s') = T_RBRACE) /\
    reads (ps_t s) (ps_c s) (SChar T_LBRACE :: commas (map pair_tokens l)) (ps_t s') (ps_c s') /\ store_members E F lut tf l m object ty = Ok (ps_m s').
Proof.
  intros n s m object ty s' Hty HN H Hn. destruct at_begin as [HB1 [HB2 HB3]]. set (c0 := JSONContext 0) in *.
  assert (HL0 : LexerNextToken sd data c0 = Ok (ps_t s, ps_c s) /\ ps_m s = m).
  { unfold next in HN. cbn [ps_c ps_m] in HN. destruct (LexerNextToken sd data c0) as [[t c]| | |]; try discriminate. cbn in HN. injection HN as <-. auto. }
  destruct HL0 as [HL0 Hm]. assert (Hg : good s).
  { destruct (next_any data Hsmall sd c0 HB1) as [[HX _]|[t2 [c2 [HL2 [[HO _] _]]]]]; [congruence|]. rewrite HL0 in HL2. injection HL2 as <- <-. split; [exact HO|]. intros _. exists c0. auto. }
  destruct (proj2 (proj2 (proj2 (proj2 (proj2 (syntax n))))) s object (Some ty) s' Hg H) as [Hg' Hr]. destruct (Hr Hn) as [l [Hnc [Hnil HRD]]].
  exists l. split; [exact HL0|]. split; [exact Hnc|]. split; [exact Hnil|]. split; [exact HRD|].
  destruct s as [t c m0], s' as [t' c' m']. cbn [ps_t ps_c ps_m] in *. subst m0.
  pose proof (more_fuel (2 * length (commas (map pair_tokens l)) + 1) n _ _ _ _ H ltac:(discriminate)) as HM.
  rewrite (object_ok l (all_members l) (n + (2 * length (commas (map pair_tokens l)) + 1))%nat t c m object (Some ty) t' c' Hty ltac:(lia) HRD Hnc Hnil) in HM. cbn [put_members] in HM. unfold ended in HM. apply bind_inv in HM. destruct HM as [m2 [HM HM2]]. injection HM2 as <-. exact HM.
Qed.
Lemma load_sound : forall n s m object ty s', (ty < length E)%nat -> next F data (mk_ps no_token (JSONContext 0) m) = Ok s -> PO n s object (Some ty) = Ok s' -> no_error (ps_c s') ->
  exists l text rest, data = text ++ rest /\ begins sd text (SChar T_LBRACE :: commas (map pair_tokens l)) /\ (~ exists w r, rest = w ++ 44 :: r /\ Forall white w) /\
    (l = [] -> exists w r, rest = w ++ 125 :: r /\ Forall white w) /\ store_members E F lut tf l m object ty = Ok (ps_m s').
Proof.
  intros n s m object ty s' Hty HN H Hn. destruct at_begin as [HB1 [HB2 HB3]]. destruct (load_reads n s m object ty s' Hty HN H Hn) as [l [HL0 [Hnc [Hnil [HRD HST]]]]]. set (c0 := JSONContext 0) in *.
  assert (HK : Forall kind_ok (SChar T_LBRACE :: commas (map pair_tokens l))) by (constructor; [exists 123; constructor|apply members_kind]).
  destruct (reads_text _ _ _ _ _ HRD HK c0 HB1 HL0) as [text [cl [HBG [HU [Hil HLl]]]]]. rewrite HB2 in HU. exists l, text, (unread data cl). split; [exact HU|]. split; [exact HBG|].
  split; [|split].
  - intros [w [r [HW Hw]]]. pose proof (at_any _ _ Hil) as HR. rewrite HW in HR. destruct (next_split data Hsmall sd cl w (44 :: r) HR Hw) as [k [c1 [HE1 [_ HR1]]]].
    destruct (token_ok data Hsmall sd k (SChar T_COMMA) [44] r c1 (sp_char sd _ _ p_comma) I HR1) as [t [HT [Ht _]]]. rewrite HE1, HT in HLl. injection HLl as HLt _. cbn [token_at] in Ht. apply Hnc. rewrite <- HLt, Ht. reflexivity.
  - intros Hl. specialize (Hnil Hl). destruct (next_any data Hsmall sd cl Hil) as [[HX _]|[t2 [c2 [HL2 [_ [_ [_ Hx]]]]]]]; [congruence|]. rewrite HLl in HL2. injection HL2 as <- <-.
    destruct (Hx (valid_type _ _ Hnil ltac:(discriminate))) as [He|[w [x [r [HU2 [Hw [_ [_ Hs]]]]]]]]; [contradiction|]. exists w, r. split; [|exact Hw].
    destruct Hs as [[k [Hk Ht]]|Hb]; [|destruct Hb as [? [? [? [? [_ [_ [_ [_ [_ [_ [Hb _]]]]]]]]]]]; congruence].
    assert (x = [125]); [|subst x; exact HU2]. inversion Hk; subst; cbn [token_at] in Ht; try (destruct Ht; congruence); try (rewrite Ht in Hnil; cbn in Hnil; try discriminate; subst).
    + match goal with HP : punct _ _ |- _ => inversion HP; reflexivity end.
    + match goal with HP : word _ _ |- _ => inversion HP; congruence end.
  - exact HST.
Qed.
Lemma load_document : forall ms m object ty fuel, (ty < length E)%nat -> document sd data (J_object ms) -> (2 * length data <= fuel)%nat ->
  exists s t' c', next F data (mk_ps no_token (JSONContext 0) m) = Ok s /\ no_error c' /\ PO fuel s object (Some ty) = ended t' c' (store_members E F lut tf ms m object ty).
Proof.
  intros ms m object ty fuel Hty [pl [HL HM]] Hfu. destruct at_begin as [HB1 [HB2 HB3]]. set (c0 := JSONContext 0) in *.
  assert (HA : at_rest data c0 data) by (split; assumption). destruct (layout_reads 0 data pl HL c0 HA eq_refl HB3) as [t1 [c1 [t' [c' [HL0 [HRD _]]]]]]. rewrite HM, tokens_object in HRD.
  destruct (reads_app _ _ _ _ _ _ HRD) as [t2 [c2 [HR1 HR2]]]. pose proof (reads_first _ _ _ _ _ _ HR2) as Hk2. cbn [tok_is] in Hk2.
  assert (HLen : forall p text l, layout sd p text l -> (length l <= length text)%nat).
  { clear. intros p text l H. induction H as [|p w k s r ks Hw Hsp Hf _ IH]; [apply Nat.le_0_l|]. pose proof (spelled_nonempty _ _ _ Hsp). rewrite !app_length. cbn [length]. destruct s; [contradiction|cbn [length]; lia]. }
  pose proof (HLen _ _ _ HL) as HLL. rewrite <- (map_length snd), HM, tokens_object, app_length in HLL. cbn [length] in HLL.
  exists (mk_ps t1 c1 m), t2, c2. split; [unfold next; cbn [ps_c ps_m]; fold c0; rewrite HL0; reflexivity|]. split; [eapply reads_no_error; exact HR1|].
  rewrite (object_ok ms (all_members ms) fuel t1 c1 m object (Some ty) t2 c2 Hty ltac:(lia) HR1 ltac:(congruence) (fun _ => Hk2)). reflexivity.
Qed.
End Env.
