(* Whole generated files. *)
From Coq Require Import Permutation.
From Verif Require Import Base BaseProofs Text Maps HashModel HashSpec HashProofs FileUtilsModel FileUtilsSpec JsonNumSpec DatabaseModel
  CodeGenModel CodeGenSpec CodeGenProofs CodeGenTreeProofs CodeGenDeclProofs CodeGenFwdProofs.

(* ---- slots and specialisations ---- *)
Definition entry_of (p : cprim) : entry := mk_entry (NameWithGlobalScope p) (cp_hash p) (cp_type p =? PT_Enum).
Definition slot_text (ie : Z * entry) : list Z := str "clcppTypePtrs[" ++ fmt_d (fst ie) ++ str "] = db->GetType(0x" ++ fmt_x (en_hash (snd ie)) ++ str ");".
Definition get_text (ie : Z * entry) : list Z := str "template <> const Type* GetType< " ++ en_name (snd ie) ++ str " >() { return clcppTypePtrs[" ++ fmt_d (fst ie) ++ str "]; }".
Definition hash_text (e : entry) : list Z := str "template <> unsigned int GetTypeNameHash< " ++ en_name e ++ str " >() { return 0x" ++ fmt_x (en_hash e) ++ str "; }".
Definition const_text (e : entry) : list Z := str "template <> constexpr unsigned int clcppTypeHash< " ++ en_name e ++ str " >() { return 0x" ++ fmt_x (en_hash e) ++ str "; }".
Definition spec_texts (l : list (Z * entry)) : list (list Z) := flat_map (fun ie => [get_text ie; hash_text (snd ie)]) l.
Definition entry_ok (e : entry) : Prop := (length (en_name e) <= 402)%nat /\ Forall char_ok (en_name e) /\ is_u32 (en_hash e).
Definition slot_ok (ie : Z * entry) : Prop := 0 <= fst ie < 2 ^ 31 /\ entry_ok (snd ie).
Lemma digits_chars : forall ds, digits_only ds -> Forall char_ok ds.
Proof. intros ds H. eapply Forall_impl; [|exact H]. cbn. intros. lia. Qed.
Lemma piece_chars : forall s, piece s = true -> Forall char_ok s.
Proof. intros s H. apply piece_ok in H. tauto. Qed.
Ltac chars := repeat (apply Forall_app; split); first [apply piece_chars; reflexivity | apply digits_chars; assumption | assumption].
Lemma entry_of_ok : forall p, prim_ok p -> entry_ok (entry_of p).
Proof.
  intros p [[N1 N2] [H _]]. unfold entry_of, NameWithGlobalScope. split; [|split; [|exact H]]; cbn [en_name]; destruct (negb (cp_type p =? PT_Type) && (cp_parent p =? 0)).
  - rewrite app_length. cbn [length str list_ascii_of_string map]. lia.
  - lia.
  - apply Forall_app. split; [apply piece_chars; reflexivity|exact N2].
  - exact N2.
Qed.
Lemma slot_text_ok : forall ie, slot_ok ie -> line_ok (slot_text ie) /\ special (slot_text ie) = false.
Proof.
  intros [i e] [Hi [_ [_ Hh]]]. cbn [fst snd] in *. destruct (fmt_d_ok i Hi) as [_ [D1 D2]]. destruct (fmt_x_ok _ Hh) as [_ [X1 X2]]. unfold slot_text. cbn [fst snd]. apply opening_line; [reflexivity|chars|].
  rewrite !app_length. change (length (str "] = db->GetType(0x")) with 18%nat. change (length (str ");")) with 2%nat. lia.
Qed.
Lemma get_text_ok : forall ie, slot_ok ie -> line_ok (get_text ie) /\ special (get_text ie) = false.
Proof.
  intros [i e] [Hi [E1 [E2 Hh]]]. cbn [fst snd] in *. destruct (fmt_d_ok i Hi) as [_ [D1 D2]]. unfold get_text. cbn [fst snd]. apply opening_line; [reflexivity|chars|].
  rewrite !app_length. change (length (str " >() { return clcppTypePtrs[")) with 28%nat. change (length (str "]; }")) with 4%nat. lia.
Qed.
Lemma hash_text_ok : forall e, entry_ok e -> line_ok (hash_text e) /\ special (hash_text e) = false.
Proof.
  intros e [E1 [E2 Hh]]. destruct (fmt_x_ok _ Hh) as [_ [X1 X2]]. unfold hash_text. apply opening_line; [reflexivity|chars|].
  rewrite !app_length. change (length (str " >() { return 0x")) with 16%nat. change (length (str "; }")) with 3%nat. lia.
Qed.
Lemma const_text_ok : forall e, entry_ok e -> line_ok (const_text e) /\ special (const_text e) = false.
Proof.
  intros e [E1 [E2 Hh]]. destruct (fmt_x_ok _ Hh) as [_ [X1 X2]]. unfold const_text. apply opening_line; [reflexivity|chars|].
  rewrite !app_length. change (length (str " >() { return 0x")) with 16%nat. change (length (str "; }")) with 3%nat. lia.
Qed.
Lemma numbered_In : forall A (l : list A) i x, In x (numbered i l) -> i <= fst x < i + zlen l /\ In (snd x) l.
Proof.
  induction l as [|a l IH]; intros i x H; [contradiction|]. cbn [numbered] in H. rewrite zlen_cons. pose proof (zlen_nonneg _ l). destruct H as [<-|H]; [cbn [fst snd]; split; [lia|left; reflexivity]|].
  apply IH in H. destruct H as [H1 H2]. split; [lia|right; exact H2].
Qed.
Lemma init_emits : forall ps i cg, (forall ie, In ie (numbered i (map entry_of ps)) -> slot_ok ie) -> emits cg (map slot_text (numbered i (map entry_of ps))) (init_lines cg ps i).
Proof.
  induction ps as [|p ps IH]; intros i cg H; [apply emits_nil|]. cbn [map numbered init_lines] in *.
  apply (emits_app cg [slot_text (i, entry_of p)] (Line cg (slot_text (i, entry_of p)))); [apply emits_line, slot_text_ok, H; left; reflexivity|].
  apply IH. intros; apply H; right; assumption.
Qed.
Lemma get_emits : forall ps i cg types (f : entry -> bool), (forall ie, In ie (numbered i (map entry_of ps)) -> slot_ok ie) -> (forall p, In p ps -> negb (Z.land (cp_type p) types =? 0) = f (entry_of p)) ->
  emits cg (spec_texts (filter (fun ie => f (snd ie)) (numbered i (map entry_of ps)))) (GenGetTypes cg ps i types).
Proof.
  induction ps as [|p ps IH]; intros i cg types f H Hf; [apply emits_nil|]. cbn [map numbered GenGetTypes filter snd] in *. rewrite (Hf p (or_introl eq_refl)).
  assert (H' : forall ie, In ie (numbered (i + 1) (map entry_of ps)) -> slot_ok ie) by (intros; apply H; right; assumption).
  assert (Hf' : forall p, In p ps -> negb (Z.land (cp_type p) types =? 0) = f (entry_of p)) by (intros; apply Hf; right; assumption).
  destruct (f (entry_of p)); [|apply IH; assumption]. pose proof (H (i, entry_of p) (or_introl eq_refl)) as HS.
  apply (emits_app cg [get_text (i, entry_of p); hash_text (entry_of p)] (Line (Line cg (get_text (i, entry_of p))) (hash_text (entry_of p)))); [|apply IH; assumption].
  apply (emits_snoc cg [get_text (i, entry_of p)]); [apply emits_line, get_text_ok, HS|apply hash_text_ok, HS].
Qed.
Lemma const_emits : forall ps cg types (f : entry -> bool), (forall p, In p ps -> prim_ok p) -> (forall p, In p ps -> negb (Z.land (cp_type p) types =? 0) = f (entry_of p)) ->
  emits cg (map const_text (filter f (map entry_of ps))) (GenGetTypesConstexpr cg ps types).
Proof.
  induction ps as [|p ps IH]; intros cg types f H Hf; [apply emits_nil|]. cbn [map GenGetTypesConstexpr filter] in *. rewrite (Hf p (or_introl eq_refl)).
  assert (H' : forall p, In p ps -> prim_ok p) by (intros; apply H; right; assumption).
  assert (Hf' : forall p, In p ps -> negb (Z.land (cp_type p) types =? 0) = f (entry_of p)) by (intros; apply Hf; right; assumption).
  destruct (f (entry_of p)); [|apply IH; assumption].
  apply (emits_app cg [const_text (entry_of p)] (Line cg (const_text (entry_of p)))); [apply emits_line, const_text_ok, entry_of_ok, H; left; reflexivity|apply IH; assumption].
Qed.
Lemma spec_texts_ok : forall l, Forall slot_ok l -> Forall line_ok (spec_texts l) /\ Forall (fun s => special s = false) (spec_texts l).
Proof.
  intros l H. induction H as [|ie l H1 _ [I1 I2]]; [split; constructor|]. destruct (get_text_ok ie H1) as [A1 A2]. destruct (hash_text_ok (snd ie) (proj2 H1)) as [B1 B2].
  split; (constructor; [assumption|]; constructor; assumption).
Qed.
Lemma spec_specialises : forall c l, Forall slot_ok l -> specialises c l (map (mk_item [str "namespace clcpp"] c) (spec_texts l)).
Proof.
  intros c l H. induction H as [|[i e] l [H1 H2] _ IH]; [constructor|]. cbn [spec_texts flat_map app map]. cbn [fst snd] in *. constructor; [| |exact IH].
  - exists (fmt_d i). split; [apply fmt_d_ok, H1|]. unfold get_text. cbn [fst snd]. rewrite <- !app_assoc. reflexivity.
  - exists (fmt_x (en_hash e)). split; [apply fmt_x_ok, H2|]. unfold hash_text. cbn [fst snd]. rewrite <- !app_assoc. reflexivity.
Qed.

(* ---- the hash in the first line ---- *)
Lemma hex_val_digit : forall c, hex_val c = hex_digit c.
Proof. reflexivity. Qed.
Lemma scan_digits_ok : forall ds r acc v any, number hex_digit 16 ds acc = Some v -> (ds <> [] \/ any = true) -> (forall c r', r = c :: r' -> hex_digit c = None) -> scan_digits (ds ++ r) acc any = Some v.
Proof.
  induction ds as [|d ds IH]; intros r acc v any H N Hr; cbn [app number scan_digits] in *.
  - injection H as <-. destruct N as [N| -> ]; [congruence|]. destruct r as [|c r]; [reflexivity|]. cbn [scan_digits]. rewrite hex_val_digit, (Hr c r eq_refl). reflexivity.
  - rewrite hex_val_digit. destruct (hex_digit d); [|discriminate]. apply IH; auto.
Qed.
Lemma hex_digit_chars : forall c d, hex_digit c = Some d -> 48 <= c <= 57 \/ 97 <= c <= 102 \/ 65 <= c <= 70.
Proof. intros c d H. unfold hex_digit in H. repeat match type of H with context [if ?b then _ else _] => destruct b eqn:?; try discriminate; try lia end. Qed.
Lemma scan_begins : forall file h, begins_with_hash file h -> scan_hash file = Some h.
Proof.
  intros file h [hx [r [[[P1 P2] P3] [Hh [-> Hr]]]]]. change (str "// " ++ hx ++ r) with (47 :: 47 :: 32 :: hx ++ r). unfold scan_hash. cbn [Z.eqb Pos.eqb andb].
  destruct hx as [|c hx]; [congruence|]. assert (HD : exists d, hex_digit c = Some d) by (unfold hex_number in P3; cbn [number] in P3; destruct (hex_digit c); [eauto|discriminate]).
  destruct HD as [d HD]. pose proof (hex_digit_chars c d HD) as HC.
  assert (HW : skip_white (32 :: (c :: hx) ++ r) = (c :: hx) ++ r) by (cbn [skip_white app]; unfold is_white; replace ((32 =? 32) || _) with true by lia; cbn [skip_white]; unfold is_white; replace ((c =? 32) || _) with false by lia; reflexivity).
  rewrite HW. unfold strtoul16. cbn [app]. replace (c =? 45) with false by lia. replace (c =? 43) with false by lia. cbn [orb].
  assert (HX : match c :: hx ++ r with
           | a :: b :: c0 :: r0 => if (a =? 48) && ((b =? 120) || (b =? 88)) then match hex_val c0 with Some _ => c0 :: r0 | None => c :: hx ++ r end else c :: hx ++ r
           | _ => c :: hx ++ r end = (c :: hx) ++ r).
  { cbn [app]. destruct (hx ++ r) as [|b [|x l]] eqn:E; try reflexivity. destruct (Z.eqb_spec c 48) as [->|]; [|reflexivity]. assert (hx = []) by (apply P2; reflexivity). subst hx. cbn [app] in E.
    destruct (Hr b (x :: l) E) as [_ [B1 B2]]. replace (b =? 120) with false by lia. replace (b =? 88) with false by lia. reflexivity. }
  rewrite HX. rewrite (scan_digits_ok (c :: hx) r 0 h false); [|exact P3|left; discriminate|intros x l E; apply (Hr x l E)].
  unfold is_u32 in Hh. replace (2 ^ 64 <=? h) with false by lia. f_equal. apply Z.mod_small. exact Hh.
Qed.
Lemma scan_foreign : forall file, (forall r, file <> str "//" ++ r) -> scan_hash file = None.
Proof.
  intros file H. unfold scan_hash. destruct file as [|a [|b r]]; try reflexivity. destruct (Z.eqb_spec a 47) as [->|]; [|reflexivity]. destruct (Z.eqb_spec b 47) as [->|]; [|reflexivity]. exfalso. apply (H r). reflexivity.
Qed.
Lemma text_chars : forall ls, Forall line_ok (map snd ls) -> Forall (fun c => 1 <= c <= 255) (text_of ls).
Proof.
  induction ls as [|[i s] ls IH]; intros H; [constructor|]. cbn [map snd] in H. inversion H as [|? ? H1 H2]; subst. unfold text_of. cbn [map concat fst snd]. fold (text_of ls). rewrite <- !app_assoc.
  apply Forall_app. split; [apply Forall_forall; intros c Hc; apply repeat_spec in Hc; lia|]. apply Forall_app. split; [destruct H1 as [_ [H1 _]]; eapply Forall_impl; [|exact H1]; cbn; lia|].
  constructor; [lia|]. constructor; [lia|]. apply IH. exact H2.
Qed.
(* what WriteFile leaves *)
Lemma write_ok : forall ts cg its, emits cg_new ts cg -> reads ts its ->
  exists file h, hashed_file file h /\ (exists hash, source file (hash :: its)) /\
    (forall before, exists after, WriteFile cg before = Ok after /\ left_by file h (Some before) (Some after)).
Proof.
  intros ts cg its [ls [E1 [E2 [E3 _]]]] HR. cbn [cg_new cg_text app] in E3. rewrite <- E1 in E2, HR.
  assert (HH : exists h, GenerateHash cg = Ok h /\ is_u32 h).
  { unfold GenerateHash. rewrite E3. exists (hash32 (text_of ls) 0). pose proof (text_chars ls E2) as TC. split.
    - apply hash_name_correct; [eapply Forall_impl; [|exact TC]; unfold is_byte; cbn; lia| |unfold is_u32; lia]. intros Hin. rewrite Forall_forall in TC. apply TC in Hin. lia.
    - unfold hash32, final. assert (HM : forall a b, is_u32 (mul a b)) by (intros; unfold mul, W, is_u32; apply Z.mod_pos_bound; lia).
      unfold xsh at 1. apply lxor_range; [apply HM|]. match goal with |- is_u32 (?x / _) => assert (HX : is_u32 x) by apply HM end. unfold is_u32 in *. split; [apply Z.div_pos; lia|]. apply Z.div_lt_upper_bound; lia. }
  destruct HH as [h [Hh Hu]]. destruct (fmt_x_ok h Hu) as [X1 [X2 X3]].
  assert (HL : line_ok (str "// " ++ fmt_x h) /\ special (str "// " ++ fmt_x h) = false) by (apply opening_line; [reflexivity|apply digits_chars; exact X2|lia]).
  assert (HF : cg_text (PrefixLine cg (str "// " ++ fmt_x h)) = text_of ((O, str "// " ++ fmt_x h) :: ls)).
  { unfold PrefixLine. cbn [cg_text]. rewrite firstn_all2 by apply HL. rewrite E3. unfold text_of. cbn [map concat fst snd repeat app]. rewrite <- !app_assoc. reflexivity. }
  exists (text_of ((O, str "// " ++ fmt_x h) :: ls)), h. split; [|split].
  - exists (fmt_x h), (text_of ls). split; [exact X1|]. split; [exact Hu|]. split; [unfold text_of; cbn [map concat fst snd repeat app]; rewrite <- !app_assoc; reflexivity|]. unfold GenerateHash in Hh. rewrite E3 in Hh. exact Hh.
  - exists (plain_item (str "// " ++ fmt_x h)). apply reads_source; [cbn [map snd]; constructor; [apply HL|exact E2]|]. apply (reads_app false [str "// " ++ fmt_x h] [plain_item (str "// " ++ fmt_x h)]); [apply reads_line; apply HL|exact HR].
  - assert (HN : (u32 (h + 1) =? h) = false).
    { unfold is_u32, u32 in *. destruct (Z.eq_dec h (2 ^ 32 - 1)) as [->|N]; [reflexivity|]. rewrite Z.mod_small by lia. lia. }
    intros before. unfold WriteFile. rewrite Hh. cbn [obind]. rewrite HF. eexists. split; [reflexivity|]. destruct before as [old|].
    + destruct (scan_hash old) as [e|] eqn:ES.
      * destruct (Z.eqb_spec e h) as [->|NE]; cbn [negb left_by].
        -- split; [reflexivity|]. split; [intros h' B N; apply scan_begins in B; congruence|]. split; [intros F; apply scan_foreign in F; congruence|auto].
        -- split; [intros B; apply scan_begins in B; congruence|]. split; [reflexivity|]. split; [reflexivity|auto].
      * rewrite HN. cbn [negb left_by]. split; [intros B; apply scan_begins in B; congruence|]. split; [reflexivity|]. split; [reflexivity|auto].
    + rewrite HN. reflexivity.
Qed.

Section Files.
Variable db : database.
Hypothesis Hok : db_ok db.
Notation PS := (prims db).
Lemma entries_prims : entries db = map entry_of PS.
Proof.
  unfold entries, prims. rewrite !map_app, !map_map. f_equal; [|f_equal].
  - apply map_ext. intros c. unfold entry_of, class_prim, NameWithGlobalScope, global_name. cbn [cp_type cp_parent cp_name cp_hash]. destruct (c_is_class c); reflexivity.
  - apply map_ext. intros e. unfold entry_of, enum_prim, NameWithGlobalScope, global_name. cbn [cp_type cp_parent cp_name cp_hash].
    destruct (e_scoped e =? 0); [reflexivity|]. destruct (e_scoped e =? 1); reflexivity.
Qed.
Lemma prims_count : zlen PS < 2 ^ 31.
Proof.
  destruct Hok as [_ [_ [_ [_ [_ H]]]]]. eapply Z.le_lt_trans; [|exact H]. unfold prims, zlen. rewrite !app_length, !map_length.
  assert (FL : forall A (f : A -> bool) l, (length (filter f l) <= length l)%nat) by (induction l; cbn; [lia|]; destruct (f a); cbn; lia).
  pose proof (FL class (fun c => in_namespace db (c_prim c)) (map snd (m_classes db))) as F1. pose proof (FL enum (fun e => in_namespace db (e_prim e)) (map snd (m_enums db))) as F2. rewrite map_length in F1, F2. lia.
Qed.
Lemma slots_ok : forall ie, In ie (numbered 0 (map entry_of PS)) -> slot_ok ie.
Proof.
  intros ie H. apply numbered_In in H. destruct H as [H1 H2]. unfold zlen in H1. rewrite map_length in H1. fold (zlen PS) in H1. pose proof prims_count. split; [lia|].
  apply in_map_iff in H2. destruct H2 as [p [<- Hp]]. apply entry_of_ok, (prims_ok db Hok), Hp.
Qed.
Lemma always_filter : forall p, In p PS -> negb (Z.land (cp_type p) always_types =? 0) = negb (en_plain_enum (entry_of p)).
Proof.
  intros p Hp. apply (prims_ok db Hok) in Hp. destruct Hp as [_ [_ Ht]]. unfold entry_of. cbn [en_plain_enum In] in *. destruct Ht as [<-|[<-|[<-|[<-|[<-|[<-|[]]]]]]]; reflexivity.
Qed.
Lemma enum_filter : forall p, In p PS -> negb (Z.land (cp_type p) PT_Enum =? 0) = en_plain_enum (entry_of p).
Proof.
  intros p Hp. apply (prims_ok db Hok) in Hp. destruct Hp as [_ [_ Ht]]. unfold entry_of. cbn [en_plain_enum In] in *. destruct Ht as [<-|[<-|[<-|[<-|[<-|[<-|[]]]]]]]; reflexivity.
Qed.
Definition numbered_entries := numbered 0 (map entry_of PS).
Definition always_texts := spec_texts (filter other_than_plain_enum numbered_entries).
Definition enum_texts := spec_texts (filter plain_enum numbered_entries).
Definition include_texts : list (list Z) := [str "// Generated by clmerge.exe - do not edit!"; str "#include <clcpp/clcpp.h>"; []].
Definition count_text : list Z := str "static const int clcppNbTypes = " ++ fmt_d (zlen PS) ++ str ";".
Definition cpp_texts (fwd : list (list Z)) : list (list Z) :=
  include_texts ++
  [str "// Array of type name pointers"; count_text; str "static const clcpp::Type* clcppTypePtrs[clcppNbTypes] = { 0 };"; []] ++
  ([str "void clcppInitGetType(const clcpp::Database* db)"; str "{"] ++
    ([str "// Populate the type pointer array if a database is specified"] ++ ([str "if (db != 0)"; str "{"] ++ map slot_text numbered_entries ++ [str "}"])) ++ [str "}"]) ++
  [[]] ++ [str "// Forward declarations for all known types"] ++ fwd ++ [[]] ++
  [str "// Specialisations for GetType and GetTypeNameHash"] ++
  ([str "namespace clcpp"; str "{"] ++ (always_texts ++ ([str "#if defined(CLCPP_USING_MSVC)"] ++ enum_texts ++ [str "#endif"])) ++ [str "}"]).
Definition h_texts (fwd : list (list Z)) : list (list Z) :=
  include_texts ++ [str "// Forward declarations for all known types"] ++ fwd ++ [[]] ++
  [str "// Specialisations for constexpr clcppTypeHash"] ++
  (map const_text (filter (fun e => negb (en_plain_enum e)) (map entry_of PS)) ++
   ([str "#if defined(CLCPP_USING_MSVC)"] ++ map const_text (filter en_plain_enum (map entry_of PS)) ++ [str "#endif"])).
Ltac fixed := apply line_okb_ok; reflexivity.
Lemma count_ok : line_ok count_text /\ special count_text = false.
Proof.
  pose proof (zlen_nonneg _ PS). destruct (fmt_d_ok (zlen PS)) as [_ [D1 D2]]; [pose proof prims_count; lia|]. apply opening_line; [reflexivity|chars|]. rewrite app_length. change (length (str ";")) with 1%nat. lia.
Qed.
Lemma include_emits : forall cg, emits cg include_texts (IncludeDependencies cg).
Proof. intros cg. apply (emits_snoc cg [_; _] _ []); [apply (emits_snoc cg [_]); [apply emits_line|]|]; fixed. Qed.
Lemma emits_line_then : forall cg a b cg', line_ok a -> emits (Line cg a) b cg' -> emits cg ([a] ++ b) cg'.
Proof. intros cg a b cg' Ha Hb. eapply emits_app; [apply emits_line; exact Ha|exact Hb]. Qed.

(* the two files, when the forward declarations are *)
Lemma cpp_emits : forall n m fwd, (forall cg, exists cg', GenNamespaceForwardDeclare n m 0 true cg = Ok cg' /\ emits cg fwd cg') ->
  exists cg, cpp_code n m PS = Ok cg /\ emits cg_new (cpp_texts fwd) cg.
Proof.
  intros n m fwd HF. unfold cpp_code.
  set (c1 := IncludeDependencies cg_new). set (c2 := Line c1 _). set (c3 := Line c2 _). set (c4 := Line c3 _). set (c5 := Line c4 _). set (c6 := Line c5 _).
  set (c7 := Line (EnterScope c6) _). set (c8 := Line c7 _).
  pose proof (init_emits PS 0 (EnterScope c8) slots_ok) as HI. destruct (emits_block c8 _ _ HI) as [c9 [X1 X2]]. rewrite X1. cbn [obind].
  assert (HB : emits (EnterScope c6) ([str "// Populate the type pointer array if a database is specified"] ++ ([str "if (db != 0)"; str "{"] ++ map slot_text numbered_entries ++ [str "}"])) c9).
  { apply emits_line_then; [fixed|]. apply (emits_line_then _ (str "if (db != 0)")); [fixed|]. exact X2. }
  destruct (emits_block c6 _ _ HB) as [c10 [Y1 Y2]]. rewrite Y1. cbn [obind]. unfold ForwardDeclareTypes.
  set (c11 := Line (Line c10 []) _). destruct (HF c11) as [c12 [Z1 Z2]]. rewrite Z1. cbn [obind].
  set (c13 := Line c12 []). set (c14 := Line c13 _). set (c15 := Line c14 _).
  assert (HG : emits (EnterScope c15) (always_texts ++ ([str "#if defined(CLCPP_USING_MSVC)"] ++ enum_texts ++ [str "#endif"]))
     (Line (GenGetTypes (Line (GenGetTypes (EnterScope c15) PS 0 always_types) (str "#if defined(CLCPP_USING_MSVC)")) PS 0 PT_Enum) (str "#endif"))).
  { eapply emits_app; [apply (get_emits PS 0 (EnterScope c15) always_types (fun e => negb (en_plain_enum e)) slots_ok always_filter)|].
    apply emits_line_then; [fixed|]. apply emits_snoc; [apply (get_emits PS 0 _ PT_Enum en_plain_enum slots_ok enum_filter)|fixed]. }
  destruct (emits_block c15 _ _ HG) as [c16 [W1 W2]]. rewrite W1. exists c16. split; [reflexivity|]. unfold cpp_texts.
  eapply emits_app; [apply include_emits|]. fold c1.
  apply (emits_line_then c1 _ ([_; _; _] ++ _)); [fixed|]. fold c2. apply (emits_line_then c2 _ ([_; _] ++ _)); [apply count_ok|]. fold count_text in c3. fold c3.
  apply (emits_line_then c3 _ ([_] ++ _)); [fixed|]. fold c4. apply (emits_line_then c4 []); [fixed|]. fold c5.
  eapply emits_app; [apply (emits_line_then c5 _ ([str "{"] ++ _)); [fixed|exact Y2]|].
  apply emits_line_then; [fixed|]. apply emits_line_then; [fixed|]. fold c11. eapply emits_app; [exact Z2|]. apply emits_line_then; [fixed|]. fold c13. apply emits_line_then; [fixed|]. fold c14.
  apply (emits_line_then c14 _ ([str "{"] ++ _)); [fixed|exact W2].
Qed.
Lemma h_emits : forall n m fwd, (forall cg, exists cg', GenNamespaceForwardDeclare n m 0 true cg = Ok cg' /\ emits cg fwd cg') ->
  exists cg, h_code n m PS = Ok cg /\ emits cg_new (h_texts fwd) cg.
Proof.
  intros n m fwd HF. unfold h_code, ForwardDeclareTypes. set (c1 := IncludeDependencies cg_new). destruct (HF (Line c1 (str "// Forward declarations for all known types"))) as [c2 [Z1 Z2]]. rewrite Z1. cbn [obind].
  eexists. split; [reflexivity|]. unfold h_texts. eapply emits_app; [apply include_emits|]. fold c1. apply emits_line_then; [fixed|]. eapply emits_app; [exact Z2|]. apply emits_line_then; [fixed|]. apply emits_line_then; [fixed|].
  eapply emits_app; [apply (const_emits PS _ always_types (fun e => negb (en_plain_enum e)) (prims_ok db Hok) always_filter)|].
  apply emits_line_then; [fixed|]. apply emits_snoc; [apply (const_emits PS _ PT_Enum en_plain_enum (prims_ok db Hok) enum_filter)|fixed].
Qed.
Lemma reads_fixed : forall c s, line_okb s && negb (special s) = true -> reads_in c [s] [plain_item s].
Proof. intros c s H. apply andb_true_iff in H. destruct H as [H1 H2]. apply reads_line; [apply line_okb_ok; exact H1|apply negb_true_iff; exact H2]. Qed.
Lemma reads_cons : forall c a ia b ib, reads_in c [a] [ia] -> reads_in c b ib -> reads_in c (a :: b) (ia :: ib).
Proof. intros. apply (reads_app c [a] [ia] b ib); assumption. Qed.
Lemma include_reads : reads include_texts preamble.
Proof.
  unfold include_texts. apply reads_cons; [apply reads_fixed; reflexivity|]. apply reads_cons; [apply reads_fixed; reflexivity|]. apply reads_fixed. reflexivity.
Qed.
Lemma cpp_reads : forall fwd fits, reads fwd fits -> exists its, reads (cpp_texts fwd) its /\ forall hash, cpp_source db fits (hash :: its).
Proof.
  intros fwd fits HF.
  assert (HN : Forall slot_ok numbered_entries) by (apply Forall_forall; exact slots_ok).
  assert (HFl : forall f, Forall slot_ok (filter f numbered_entries)) by (intros f; apply Forall_forall; intros x Hx; apply slots_ok; apply filter_In in Hx; apply Hx).
  assert (RS : reads (map slot_text numbered_entries) (map plain_item (map slot_text numbered_entries))).
  { apply reads_lines; apply Forall_map; (eapply Forall_impl; [|exact HN]); intros x Hx; apply slot_text_ok, Hx. }
  assert (RI := reads_block (str "if (db != 0)") _ _ ltac:(fixed) eq_refl RS).
  assert (RF := reads_block (str "void clcppInitGetType(const clcpp::Database* db)") _ _ ltac:(fixed) eq_refl
                 (reads_app false _ _ _ _ (reads_fixed false (str "// Populate the type pointer array if a database is specified") eq_refl) RI)).
  assert (RA : reads always_texts (map plain_item always_texts)) by (apply reads_lines; apply spec_texts_ok, HFl).
  assert (RE : reads_in true enum_texts (map plain_item enum_texts)) by (apply reads_lines; apply spec_texts_ok, HFl).
  assert (RG := reads_block (str "namespace clcpp") _ _ ltac:(fixed) eq_refl (reads_app false _ _ _ _ RA (reads_msvc _ _ RE))).
  eexists. split.
  - unfold cpp_texts. apply reads_app; [apply include_reads|].
    apply reads_app; [apply reads_cons; [apply reads_fixed; reflexivity|]; apply reads_cons; [apply reads_line; apply count_ok|]; apply reads_cons; [apply reads_fixed; reflexivity|]; apply reads_cons; [apply reads_fixed; reflexivity|apply reads_nil]|].
    apply reads_app; [exact RF|]. apply reads_app; [apply reads_fixed; reflexivity|]. apply reads_app; [apply reads_fixed; reflexivity|]. apply reads_app; [exact HF|]. apply reads_app; [apply reads_fixed; reflexivity|].
    apply reads_app; [apply reads_fixed; reflexivity|exact RG].
  - intros hash. exists hash, (plain_item count_text), (map (mk_item init_block false) (map slot_text numbered_entries)),
      (map (mk_item [str "namespace clcpp"] false) always_texts), (map (mk_item [str "namespace clcpp"] true) enum_texts). split; [|split; [|split; [|split]]].
    + cbn [map app]. rewrite ?map_app, !map_map. unfold preamble, under, msvc_item, plain_item. cbn [it_in it_msvc it_text map app orb]. rewrite <- ?app_assoc. reflexivity.
    + exists (fmt_d (zlen PS)). pose proof (zlen_nonneg _ PS). rewrite entries_prims. split; [|reflexivity]. unfold zlen. rewrite map_length. fold (zlen PS). apply fmt_d_ok. pose proof prims_count. lia.
    + rewrite entries_prims. fold numbered_entries. rewrite <- (map_id numbered_entries) at 1. rewrite map_map. apply Forall2_map_both. intros [i e] Hin. destruct (slots_ok _ Hin) as [S1 [_ [_ S2]]]. cbn [fst snd] in *.
      exists (fmt_d i). split; [apply fmt_d_ok, S1|]. exists (fmt_x (en_hash e)). split; [apply fmt_x_ok, S2|]. unfold slot_text. cbn [fst snd]. rewrite <- !app_assoc. reflexivity.
    + rewrite entries_prims. apply spec_specialises. apply HFl.
    + rewrite entries_prims. apply spec_specialises. apply HFl.
Qed.
Lemma h_reads : forall fwd fits, reads fwd fits -> exists its, reads (h_texts fwd) its /\ forall hash, h_source db fits (hash :: its).
Proof.
  intros fwd fits HF.
  assert (HE : forall f, Forall entry_ok (filter f (map entry_of PS))).
  { intros f. apply Forall_forall. intros e He. apply filter_In in He. destruct He as [He _]. apply in_map_iff in He. destruct He as [p [<- Hp]]. apply entry_of_ok, (prims_ok db Hok), Hp. }
  assert (RA : forall c f, reads_in c (map const_text (filter f (map entry_of PS))) (map plain_item (map const_text (filter f (map entry_of PS))))).
  { intros c f. apply reads_lines; apply Forall_map; (eapply Forall_impl; [|apply HE]); intros e He; apply const_text_ok, He. }
  eexists. split.
  - unfold h_texts. apply reads_app; [apply include_reads|]. apply reads_app; [apply reads_fixed; reflexivity|]. apply reads_app; [exact HF|].
    apply reads_app; [apply reads_fixed; reflexivity|]. apply reads_app; [apply reads_fixed; reflexivity|]. apply reads_app; [apply RA|]. apply reads_msvc. apply RA.
  - intros hash. exists hash, (map plain_item (map const_text (filter (fun e => negb (en_plain_enum e)) (map entry_of PS)))), (map msvc_item (map plain_item (map const_text (filter en_plain_enum (map entry_of PS))))).
    assert (HC : forall c e, entry_ok e -> constexpr_hash c e (mk_item [] c (const_text e))).
    { intros c e [_ [_ H]]. exists (fmt_x (en_hash e)). split; [apply fmt_x_ok, H|]. unfold const_text. rewrite <- !app_assoc. reflexivity. }
    split; [reflexivity|]. rewrite entries_prims. rewrite !map_map. split.
    + rewrite <- (map_id (filter _ _)) at 1. apply Forall2_map_both. intros e He. apply HC. pose proof (HE (fun e => negb (en_plain_enum e))) as X. rewrite Forall_forall in X. apply X, He.
    + rewrite <- (map_id (filter en_plain_enum _)) at 1. apply Forall2_map_both. intros e He. apply HC. pose proof (HE en_plain_enum) as X. rewrite Forall_forall in X. apply X, He.
Qed.

(* ---- everything ---- *)
Lemma count_keys : (length (keys (copy_namespaces db)) <= length (namespaces db))%nat.
Proof.
  rewrite <- (map_length (fun ns => n_hash (p_name ns)) (namespaces db)). apply NoDup_incl_length; [apply ssorted_NoDup, copy_ok; exact Hok|].
  intros k Hk. apply (in_K db Hok) in Hk. destruct Hk as [ns [A <-]]. apply (in_map (fun ns => n_hash (p_name ns))). exact A.
Qed.
Lemma in_items_lines : forall t, Forall declaration_line (in_items db PS t).
Proof.
  induction t as [k ts IH] using tree_rect'. cbn [in_items]. apply Forall_app. split.
  - apply Forall_forall. intros it Hit. apply in_flat_map in Hit. destruct Hit as [t [Ht Hit]]. rewrite Forall_forall in IH. destruct Hit as [<-|Hit].
    + exists (str "namespace "), (UnscopeName (nm db (key t))). split; [left; reflexivity|reflexivity].
    + apply in_map_iff in Hit. destruct Hit as [x [<- Hx]]. specialize (IH t Ht). rewrite Forall_forall in IH. destruct (IH x Hx) as [kw [s [A B]]]. exists kw, s. split; [exact A|exact B].
  - unfold own_items. apply Forall_app. split; apply Forall_map, Forall_forall; intros p _.
    + exists (str "enum "). eexists. split; [right; right; right; left; reflexivity|reflexivity].
    + unfold declaration_line. cbn [it_text]. unfold class_text, class_keyword. destruct (cp_type p =? PT_Class); [exists (str "class "); eexists; split; [right; left; reflexivity|reflexivity]|].
      destruct (cp_type p =? PT_Struct); [exists (str "struct "); eexists; split; [right; right; left; reflexivity|reflexivity]|].
      exists (str "enum "). destruct (cp_type p =? PT_EnumClass); eexists; (split; [right; right; right; left; reflexivity|]).
      * change (str "enum class ") with (str "enum " ++ str "class "). rewrite <- app_assoc. reflexivity.
      * change (str "enum struct ") with (str "enum " ++ str "struct "). rewrite <- app_assoc. reflexivity.
Qed.
Theorem codegen_ok : forall n, (length (namespaces db) + 2 <= n)%nat ->
  exists cpp hdr hc hh cits hits fwd,
    hashed_file cpp hc /\ hashed_file hdr hh /\
    source cpp cits /\ cpp_source db fwd cits /\ source hdr hits /\ h_source db fwd hits /\
    Forall declaration_line fwd /\ forward_declarations db fwd /\
    forall a b, exists a' b', GenMergedCppImpl n a b db = Ok (a', b') /\ left_by cpp hc a a' /\ left_by hdr hh b b'.
Proof.
  intros n Hn. pose proof count_keys as HC. set (N := S (length (keys (copy_namespaces db)))).
  destruct (BuildNamespaceContents_ok db Hok) as [m [B1 B2]].
  assert (DT : (depth (build db N 0) <= n)%nat) by (pose proof (build_depth db N 0); unfold N in *; lia).
  assert (RT : rep (kids db) (build db N 0)) by (apply (build_rep db Hok N 0 []); [constructor|unfold N; cbn; lia]).
  assert (KT : forall k, In k (tkeys (build db N 0)) -> known db k = true).
  { intros k Hk. destruct (build_path db N 0 [] k (path_0 db) Hk) as [l [P _]]. apply (path_known db _ _ P). }
  destruct (RemoveEmpty_ok db PS n (build db N 0) DT m (kids db) B2 RT (build_nodup db Hok N 0 [] (path_0 db)) KT) as [m' [ch' [t' [R1 [R2 [R3 [R4 _]]]]]]].
  rewrite build_key in R1.
  assert (W' : wf db t') by (apply (pruned_wf db _ _ R4), rep_wf, RT).
  assert (Et : key t' = 0) by (rewrite (pruned_key _ _ _ R4); apply build_key).
  assert (KS : forall k, In k (flat_map tkeys (subs t')) -> In k (keys (copy_namespaces db))).
  { intros k Hk. rewrite <- (nodes_snd db t' []) in Hk. apply in_map_iff in Hk. destruct Hk as [[s x] [<- Hin]]. destruct (nodes_path db t' [] W') with (s := s) (k := x) as [_ [_ [P _]]]; [rewrite Et; constructor|exact Hin|exact P]. }
  assert (HD : (depth t' <= n)%nat).
  { assert (HDD : forall t t', pruned PS t t' -> (depth t' <= depth t)%nat).
    { clear. induction t as [k ts IH] using tree_rect'; intros t' H. inversion H as [? ? us ts' H1 H2]; subst. rewrite Forall_forall in IH. cbn [depth]. apply le_n_S.
      assert (HM : forall l b, (forall t, In t l -> (depth t <= b)%nat) -> (fold_right (fun t d => Nat.max (depth t) d) 0 l <= b)%nat).
      { induction l as [|x l IHl]; intros b Hb; cbn [fold_right]; [lia|]. pose proof (Hb x (or_introl eq_refl)). specialize (IHl b ltac:(intros; apply Hb; right; assumption)). lia. }
      apply HM. intros u Hu. apply (Permutation_in _ (Permutation_sym H2)) in Hu. apply filter_In in Hu. destruct Hu as [Hu _]. destruct (Forall2_In_r _ _ _ _ _ _ H1 Hu) as [c [C1 C2]].
      specialize (IH c C1 u C2). pose proof (depth_sub k ts c C1) as X. cbn [depth] in X. lia. }
    specialize (HDD _ _ R4). lia. }
  destruct (gen_ok db Hok PS (prims_ok db Hok) n t' m' ch' HD R2 R3 KS ltac:(left; exact Et)) as [HG _]. rewrite Et in HG.
  pose proof (in_reads db Hok PS (prims_ok db Hok) t' KS) as HR.
  destruct (cpp_emits n m' _ HG) as [cg1 [C1 C2]]. destruct (h_emits n m' _ HG) as [cg2 [H1 H2]].
  destruct (cpp_reads _ _ HR) as [its1 [I1 I2]]. destruct (h_reads _ _ HR) as [its2 [J1 J2]].
  destruct (write_ok _ _ _ C2 I1) as [cpp [hc [F1 [[x1 F2] F3]]]]. destruct (write_ok _ _ _ H2 J1) as [hdr [hh [G1 [[x2 G2] G3]]]].
  exists cpp, hdr, hc, hh, (x1 :: its1), (x2 :: its2), (in_items db PS t'). split; [exact F1|]. split; [exact G1|]. split; [exact F2|]. split; [apply I2|]. split; [exact G2|]. split; [apply J2|].
  split; [apply in_items_lines|]. split; [apply (fwd_ok db Hok N t'); [unfold N; lia|exact R4]|].
  intros a b. unfold GenMergedCppImpl. rewrite B1. cbn [obind fst snd]. rewrite R1. cbn [obind].
  assert (HA : exists a', (match a with None => Ok None | Some f => do cg <- cpp_code n m' PS; do f <- WriteFile cg f; Ok (Some f) end) = Ok a' /\ left_by cpp hc a a').
  { destruct a as [f|]; [|exists None; split; [reflexivity|exact I]]. rewrite C1. cbn [obind]. destruct (F3 f) as [f' [E1 E2]]. rewrite E1. cbn [obind]. exists (Some f'). auto. }
  assert (HB : exists b', (match b with None => Ok None | Some f => do cg <- h_code n m' PS; do f <- WriteFile cg f; Ok (Some f) end) = Ok b' /\ left_by hdr hh b b').
  { destruct b as [f|]; [|exists None; split; [reflexivity|exact I]]. rewrite H1. cbn [obind]. destruct (G3 f) as [f' [E1 E2]]. rewrite E1. cbn [obind]. exists (Some f'). auto. }
  destruct HA as [a' [A1 A2]]. destruct HB as [b' [BB1 BB2]]. rewrite A1. cbn [obind]. rewrite BB1. cbn [obind]. exists a', b'. auto.
Qed.
End Files.
