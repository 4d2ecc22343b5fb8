(* The namespaces that can be reached and the forward declarations written for them. *)
From Coq Require Import Permutation.
From Verif Require Import Base BaseProofs Text Maps HashModel FileUtilsModel DatabaseModel CodeGenModel CodeGenSpec CodeGenProofs CodeGenTreeProofs.

(* ---- names ---- *)
Lemma scope2 : str "::" = [58; 58].
Proof. reflexivity. Qed.
Lemma rfind_spec : forall s, match rfind_scope s with
  | Some (a, b) => s = a ++ [58; 58] ++ b /\ ~ has_scope_operator (58 :: b)
  | None => ~ has_scope_operator s end.
Proof.
  induction s as [|c s IH]; cbn [rfind_scope].
  - intros [a [b H]]. destruct a; discriminate.
  - destruct (rfind_scope s) as [[a b]|].
    + destruct IH as [-> H]. split; [reflexivity|exact H].
    + assert (HC : (exists r, c = 58 /\ s = 58 :: r) \/ ~ (exists r, c = 58 /\ s = 58 :: r)).
      { destruct (Z.eq_dec c 58) as [->|N]; [|right; intros [r [E _]]; congruence]. destruct s as [|d s]; [right; intros [r [_ E]]; discriminate|].
        destruct (Z.eq_dec d 58) as [->|N]; [left; eauto|right; intros [r [_ E]]; congruence]. }
      destruct HC as [[r [-> ->]]|HC].
      * split; [reflexivity|]. exact IH.
      * assert (G : ~ has_scope_operator (c :: s)).
        { intros [a [b E]]. rewrite scope2 in E. destruct a as [|x a]; [cbn in E; injection E as -> ->; apply HC; eauto|]. cbn in E. injection E as -> ->. apply IH. exists a, b. reflexivity. }
        destruct (Z.eq_dec c 58) as [->|N].
        -- destruct s as [|d s]; [exact G|]. destruct (Z.eq_dec d 58) as [->|N]; [exfalso; apply HC; eauto|].
           destruct d as [|p|]; try exact G. repeat (destruct p as [p|p|]; try exact G). congruence.
        -- destruct c as [|p|]; try exact G. repeat (destruct p as [p|p|]; try exact G). congruence.
Qed.
Lemma unscope_short : forall s, short_name s (UnscopeName s).
Proof.
  intros s. unfold UnscopeName. pose proof (rfind_spec s) as H. destruct (rfind_scope s) as [[a b]|].
  - left. exists a. rewrite scope2. destruct H as [H1 H2]. split; [exact H1|exact H2].
  - right. auto.
Qed.
Lemma unscope_ok : forall s, name_ok s -> name_ok (UnscopeName s).
Proof.
  intros s [H1 H2]. unfold UnscopeName. pose proof (rfind_spec s) as H. destruct (rfind_scope s) as [[a b]|]; [|split; assumption]. destruct H as [-> _].
  rewrite !app_length in H1. apply Forall_app in H2. destruct H2 as [_ H2]. apply Forall_app in H2. split; [cbn in H1; lia|apply H2].
Qed.

Section Paths.
Variable db : database.
Hypothesis Hok : db_ok db.
Notation K := (keys (copy_namespaces db)).
Notation par := (par db).
Notation kids := (kids db).

(* ---- the way down from the global namespace ---- *)
Inductive path : Z -> list Z -> Prop :=
| path_0 : path 0 []
| path_S : forall k l, In k K -> path (par k) l -> path k (k :: l).
Lemma path_unique : forall l k l', path k l -> path k l' -> l = l'.
Proof.
  induction l as [|a l IH]; intros k l' H H'.
  - inversion H; subst. inversion H'; subst; [reflexivity|]. exfalso. apply (zero_not_K db Hok). assumption.
  - inversion H; subst. inversion H'; subst; [exfalso; apply (zero_not_K db Hok); assumption|]. f_equal. eapply IH; eassumption.
Qed.
Lemma path_suffix : forall l k a b, path k l -> l = a ++ b -> b <> [] -> path (hd 0 b) b.
Proof.
  induction l as [|x l IH]; intros k a b H E N; [destruct a, b; try discriminate; congruence|].
  destruct a as [|y a]; cbn in E; [subst b; inversion H; subst; exact H|]. injection E as -> E. inversion H; subst. eapply IH; [eassumption|reflexivity|exact N].
Qed.
Lemma path_nodup : forall l k, path k l -> NoDup l.
Proof.
  induction l as [|x l IH]; intros k H; [constructor|]. inversion H; subst. constructor; [|eapply IH; eassumption].
  intros Hin. apply in_split in Hin. destruct Hin as [a [b E]]. assert (P : path x (x :: b)) by (apply (path_suffix l (par x) a (x :: b)); [assumption|exact E|discriminate]).
  pose proof (path_unique _ _ _ H P) as E'. injection E' as E'. rewrite E' in E. apply (f_equal (@List.length Z)) in E. rewrite app_length in E. cbn in E. lia.
Qed.
Lemma path_incl : forall l k, path k l -> incl l K.
Proof. induction l as [|x l IH]; intros k H y Hy; [contradiction|]. inversion H; subst. destruct Hy as [<-|Hy]; [assumption|]. eapply IH; eassumption. Qed.
Lemma path_length : forall l k, path k l -> (length l <= length K)%nat.
Proof. intros l k H. apply NoDup_incl_length; [apply (path_nodup l k H)|apply (path_incl l k H)]. Qed.
Lemma path_known : forall l k, path k l -> known db k = true.
Proof. intros l k H. apply known_spec. inversion H; subst; auto. Qed.
Lemma in_kids : forall c h, In c (kids h) <-> In c K /\ par c = h.
Proof. intros. unfold CodeGenTreeProofs.kids. rewrite filter_In. rewrite Z.eqb_eq. tauto. Qed.

(* ---- the whole tree ---- *)
Fixpoint build (n : nat) (k : Z) : tree := match n with O => T k [] | S n => T k (map (build n) (kids k)) end.
Lemma build_key : forall n k, key (build n k) = k.
Proof. destruct n; reflexivity. Qed.
Lemma build_depth : forall n k, (depth (build n k) <= S n)%nat.
Proof.
  induction n as [|n IH]; intros k; [cbn; lia|]. cbn [build depth]. apply le_n_S. induction (kids k) as [|c l IHl]; cbn [map fold_right]; [lia|]. pose proof (IH c). lia.
Qed.
Lemma build_rep : forall n k l, path k l -> (length K < length l + n)%nat -> rep kids (build n k).
Proof.
  induction n as [|n IH]; intros k l H Hl; [pose proof (path_length l k H); lia|]. cbn [build]. constructor.
  - rewrite map_map. rewrite <- (map_id (kids k)) at 1. apply map_ext. intros. symmetry. apply build_key.
  - apply Forall_forall. intros t Ht. apply in_map_iff in Ht. destruct Ht as [c [<- Hc]]. apply in_kids in Hc. destruct Hc as [C1 C2]. apply (IH c (c :: l)); [constructor; [exact C1|rewrite C2; exact H]|cbn; lia].
Qed.
Lemma build_path : forall n k l x, path k l -> In x (tkeys (build n k)) -> exists l', path x (l' ++ l) /\ (x = k \/ l' <> []).
Proof.
  induction n as [|n IH]; intros k l x H Hx; cbn [build tkeys flat_map] in Hx.
  - destruct Hx as [<-|[]]. exists []. auto.
  - destruct Hx as [<-|Hx]; [exists []; auto|]. apply in_flat_map in Hx. destruct Hx as [t [Ht Hx]]. apply in_map_iff in Ht. destruct Ht as [c [<- Hc]]. apply in_kids in Hc. destruct Hc as [C1 C2].
    destruct (IH c (c :: l) x) as [l' [P _]]; [constructor; [exact C1|rewrite C2; exact H]|exact Hx|]. exists (l' ++ [c]). rewrite <- app_assoc. split; [exact P|]. right. destruct l'; discriminate.
Qed.
Lemma app_same_length : forall A (a b c d : list A), a ++ b = c ++ d -> length b = length d -> b = d.
Proof.
  intros A a b c d E L. assert (La : length a = length c) by (apply (f_equal (@List.length A)) in E; rewrite !app_length in E; lia).
  apply (f_equal (skipn (length a))) in E. rewrite skipn_app, skipn_all, Nat.sub_diag in E. rewrite La, skipn_app, skipn_all, Nat.sub_diag in E. exact E.
Qed.
Lemma build_nodup : forall n k l, path k l -> NoDup (tkeys (build n k)).
Proof.
  induction n as [|n IH]; intros k l H; cbn [build tkeys flat_map]; [constructor; [intros []|constructor]|]. constructor.
  - intros Hin. apply in_flat_map in Hin. destruct Hin as [t [Ht Hx]]. apply in_map_iff in Ht. destruct Ht as [c [<- Hc]]. apply in_kids in Hc. destruct Hc as [C1 C2].
    destruct (build_path n c (c :: l) k) as [l' [P _]]; [constructor; [exact C1|rewrite C2; exact H]|exact Hx|]. pose proof (path_unique _ _ _ H P) as E. apply (f_equal (@List.length Z)) in E. rewrite app_length in E. cbn in E. lia.
  - assert (HK : NoDup (kids k)) by (apply NoDup_filter, ssorted_NoDup, copy_ok; exact Hok).
    assert (HC : forall c, In c (kids k) -> path c (c :: l)) by (intros c Hc; apply in_kids in Hc; destruct Hc as [C1 C2]; constructor; [exact C1|rewrite C2; exact H]).
    induction (kids k) as [|c cs IHc]; cbn [map flat_map]; [constructor|]. inversion HK as [|? ? K1 K2]; subst. apply NoDup_app_intro.
    + apply (IH c (c :: l)). apply HC. left. reflexivity.
    + apply IHc; [exact K2|]. intros; apply HC; right; assumption.
    + intros x Hx Hy. apply in_flat_map in Hy. destruct Hy as [t [Ht Hy]]. apply in_map_iff in Ht. destruct Ht as [d [<- Hd]].
      destruct (build_path n c (c :: l) x (HC c (or_introl eq_refl)) Hx) as [l1 [P1 _]]. destruct (build_path n d (d :: l) x (HC d (or_intror Hd)) Hy) as [l2 [P2 _]].
      pose proof (path_unique _ _ _ P1 P2) as E. apply app_same_length in E; [|reflexivity]. injection E as ->. contradiction.
Qed.
(* every namespace with a path is in a tree from the global one *)
Lemma rep_closed : forall t k c, rep kids t -> In k (tkeys t) -> In c (kids k) -> In c (tkeys t).
Proof.
  induction t as [h ts IH] using tree_rect'; intros k c H Hk Hc. inversion H as [? ? R1 R2]; subst. cbn [tkeys] in *. right. apply in_flat_map. destruct Hk as [->|Hk].
  - rewrite R1 in Hc. apply in_map_iff in Hc. destruct Hc as [t [<- Ht]]. exists t. split; [exact Ht|apply key_in].
  - apply in_flat_map in Hk. destruct Hk as [t [Ht Hk]]. rewrite Forall_forall in IH, R2. exists t. split; [exact Ht|]. apply (IH t Ht k c); auto.
Qed.
Lemma path_in_tree : forall t l k, rep kids t -> key t = 0 -> path k l -> In k (tkeys t).
Proof.
  intros t l k R E H. induction H as [|k l Hk _ IH]; [rewrite <- E; apply key_in|]. apply (rep_closed t (par k) k R IH). apply in_kids. auto.
Qed.

(* ---- paths and scopes ---- *)
Lemma scope_path : forall k sc, scope db k sc -> exists l, path k l.
Proof.
  intros k sc H. induction H as [|ns sc s Hin _ [l IH] _]; [exists []; constructor|]. exists (n_hash (p_name ns) :: l). constructor; [apply (in_K db Hok); eauto|].
  rewrite (proj1 (ns_find db Hok ns Hin)). exact IH.
Qed.
Lemma path_scope : forall l k, path k l -> scope db k (rev (map (fun x => UnscopeName (nm db x)) l)).
Proof.
  induction l as [|x l IH]; intros k H; inversion H; subst; [constructor|]. cbn [map rev].
  match goal with H : In x K |- _ => apply (in_K db Hok) in H; destruct H as [ns [A <-]] end. destruct (ns_find db Hok ns A) as [E1 E2].
  apply scope_in; [exact A|rewrite <- E1; apply IH; assumption|rewrite E2; apply unscope_short].
Qed.
End Paths.

(* ---- lines around a name ---- *)
Definition piece (s : list Z) : bool := (length s <=? 60)%nat && forallb (fun c => (1 <=? c) && (c <=? 255) && negb (c =? 10)) s.
Definition opening (s : list Z) : bool :=
  piece s && match s with [] => false | c :: _ => negb (c =? 9) && negb (c =? 123) && negb (c =? 125) && negb (c =? 35) end.
Lemma piece_ok : forall s, piece s = true -> (length s <= 60)%nat /\ Forall char_ok s.
Proof.
  intros s H. unfold piece in H. rewrite andb_true_iff, forallb_forall in H. destruct H as [H1 H2]. split; [apply Nat.leb_le; exact H1|].
  apply Forall_forall. intros c Hc. apply H2 in Hc. lia.
Qed.
Lemma special_hd : forall s, match s with [] => false | c :: _ => (c =? 123) || (c =? 125) || (c =? 35) end = false -> special s = false.
Proof.
  intros [|c s] H; [reflexivity|]. rewrite !orb_false_iff in H. destruct H as [[H1 H2] H3]. unfold special.
  change (str "{") with [123]. change (str "}") with [125]. rewrite !orb_false_iff. cbn [list_eqb]. rewrite H1, H2. cbn [andb].
  change (str "#if defined(CLCPP_USING_MSVC)") with (35 :: tl (str "#if defined(CLCPP_USING_MSVC)")). change (str "#endif") with (35 :: tl (str "#endif")). cbn [list_eqb]. rewrite H3. auto.
Qed.
(* a line that begins with fixed text, then pieces and one name *)
Lemma opening_line : forall a r, opening a = true -> Forall char_ok r -> (length r <= 451)%nat -> line_ok (a ++ r) /\ special (a ++ r) = false.
Proof.
  intros a r Ha Hr Hl. unfold opening in Ha. apply andb_true_iff in Ha. destruct Ha as [Ha Hc]. apply piece_ok in Ha. destruct Ha as [A1 A2]. split.
  - split; [rewrite app_length; lia|]. split; [apply Forall_app; auto|]. destruct a as [|c a]; [discriminate|]. cbn. lia.
  - apply special_hd. destruct a as [|c a]; [discriminate|]. cbn. lia.
Qed.
Lemma name_line : forall a s b, opening a = true -> name_ok s -> piece b = true -> (length b <= 51)%nat -> line_ok (a ++ s ++ b) /\ special (a ++ s ++ b) = false.
Proof.
  intros a s b Ha [S1 S2] Hb Lb. apply piece_ok in Hb. destruct Hb as [B1 B2]. apply opening_line; [exact Ha|apply Forall_app; auto|rewrite app_length; lia].
Qed.

(* ---- declarations written ---- *)
Definition enum_text (p : cprim) : list Z := str "enum " ++ UnscopeName (cp_name p) ++ str ";".
Definition class_keyword (p : cprim) : list Z :=
  if cp_type p =? PT_Class then str "class " else if cp_type p =? PT_Struct then str "struct " else if cp_type p =? PT_EnumClass then str "enum class " else str "enum struct ".
Definition class_text (p : cprim) : list Z := class_keyword p ++ UnscopeName (cp_name p) ++ str ";".
Definition prim_ok (p : cprim) : Prop := name_ok (cp_name p) /\ is_u32 (cp_hash p) /\ In (cp_type p) [PT_Type; PT_Class; PT_Struct; PT_Enum; PT_EnumClass; PT_EnumStruct].
Definition plain_item (s : list Z) : item := mk_item [] false s.

Lemma enum_text_ok : forall p, prim_ok p -> line_ok (enum_text p) /\ special (enum_text p) = false.
Proof. intros p [H _]. apply name_line; [reflexivity|apply unscope_ok; exact H|reflexivity|cbn; lia]. Qed.
Lemma class_text_ok : forall p, prim_ok p -> line_ok (class_text p) /\ special (class_text p) = false.
Proof.
  intros p [H _]. unfold class_text, class_keyword. apply name_line; [|apply unscope_ok; exact H|reflexivity|cbn; lia].
  destruct (cp_type p =? PT_Class); [reflexivity|]. destruct (cp_type p =? PT_Struct); [reflexivity|]. destruct (cp_type p =? PT_EnumClass); reflexivity.
Qed.
Lemma each_lines : forall A (f : A -> codegen -> outcome codegen) (g : A -> list Z) l cg,
  (forall a cg, In a l -> f a cg = Ok (Line cg (g a)) /\ line_ok (g a)) -> exists cg', each f l cg = Ok cg' /\ emits cg (map g l) cg'.
Proof.
  induction l as [|a l IH]; intros cg H; cbn [each map]; [exists cg; split; [reflexivity|apply emits_nil]|].
  destruct (H a cg (or_introl eq_refl)) as [H1 H2]. rewrite H1. cbn [obind]. destruct (IH (Line cg (g a))) as [cg' [E1 E2]]; [intros; apply H; right; assumption|].
  exists cg'. split; [exact E1|]. apply (emits_app cg [g a] (Line cg (g a)) (map g l)); [apply emits_line; exact H2|exact E2].
Qed.

Section Gen.
Variable db : database.
Hypothesis Hok : db_ok db.
Variable ps : list cprim.
Hypothesis Hps : forall p, In p ps -> prim_ok p.
Notation K := (keys (copy_namespaces db)).

Definition ns_header (k : Z) : list Z := header (UnscopeName (nm db k)).
Definition own_texts (k : Z) : list (list Z) :=
  match filter (is_enum_in k) ps with [] => [] | es => [str "#if defined(CLCPP_USING_MSVC)"] ++ map enum_text es ++ [str "#endif"] end ++
  map class_text (filter (is_class_in k) ps).
Definition own_items (k : Z) : list item :=
  map (fun p => mk_item [] true (enum_text p)) (filter (is_enum_in k) ps) ++ map (fun p => mk_item [] false (class_text p)) (filter (is_class_in k) ps).
Fixpoint in_texts (t : tree) : list (list Z) :=
  match t with T k ts => flat_map (fun t => [ns_header (key t); str "{"] ++ in_texts t ++ [str "}"]) ts ++ own_texts k end.
Fixpoint in_items (t : tree) : list item :=
  match t with T k ts => flat_map (fun t => plain_item (ns_header (key t)) :: map (under [ns_header (key t)] false) (in_items t)) ts ++ own_items k end.

Lemma nm_ok : forall k, In k K -> name_ok (nm db k).
Proof.
  intros k H. apply (in_K db Hok) in H. destruct H as [ns [A <-]]. rewrite (proj2 (ns_find db Hok ns A)). destruct Hok as [_ [H _]]. apply H in A. tauto.
Qed.
Lemma header_ok : forall k, In k K -> line_ok (ns_header k) /\ special (ns_header k) = false.
Proof.
  intros k H. unfold ns_header, header. rewrite <- (app_nil_r (UnscopeName (nm db k))). apply name_line; [reflexivity|apply unscope_ok, nm_ok, H|reflexivity|cbn; lia].
Qed.
Lemma own_emits : forall k cg, exists cg1 cg2,
  (match filter (is_enum_in k) ps with
   | [] => Ok cg
   | _ => do cg <- each declare_enum (filter (is_enum_in k) ps) (Line cg (str "#if defined(CLCPP_USING_MSVC)")); Ok (Line cg (str "#endif"))
   end) = Ok cg1 /\ each declare_class (filter (is_class_in k) ps) cg1 = Ok cg2 /\ emits cg (own_texts k) cg2.
Proof.
  intros k cg.
  assert (HE : exists cg1, (match filter (is_enum_in k) ps with
   | [] => Ok cg
   | _ => do cg <- each declare_enum (filter (is_enum_in k) ps) (Line cg (str "#if defined(CLCPP_USING_MSVC)")); Ok (Line cg (str "#endif"))
   end) = Ok cg1 /\ emits cg (match filter (is_enum_in k) ps with [] => [] | es => [str "#if defined(CLCPP_USING_MSVC)"] ++ map enum_text es ++ [str "#endif"] end) cg1).
  { destruct (filter (is_enum_in k) ps) as [|e es] eqn:E; [exists cg; split; [reflexivity|apply emits_nil]|]. rewrite <- E.
    destruct (each_lines cprim declare_enum enum_text (filter (is_enum_in k) ps) (Line cg (str "#if defined(CLCPP_USING_MSVC)"))) as [cg1 [E1 E2]].
    { intros p cg' Hp. split; [reflexivity|]. apply enum_text_ok, Hps. apply filter_In in Hp. tauto. }
    rewrite E1. cbn [obind]. exists (Line cg1 (str "#endif")). split; [reflexivity|].
    eapply emits_app; [apply emits_line, line_okb_ok; reflexivity|]. apply emits_snoc; [exact E2|apply line_okb_ok; reflexivity]. }
  destruct HE as [cg1 [E1 E2]]. destruct (each_lines cprim declare_class class_text (filter (is_class_in k) ps) cg1) as [cg2 [E3 E4]].
  { intros p cg' Hp. apply filter_In in Hp. destruct Hp as [Hp Hc]. split; [|apply class_text_ok, Hps, Hp]. destruct (Hps p Hp) as [_ [_ Ht]]. unfold declare_class, class_text, class_keyword.
    unfold is_class_in in Hc. rewrite !andb_true_iff, !negb_true_iff in Hc. destruct Hc as [[_ C1] C2]. cbn [In] in Ht.
    destruct Ht as [Ht|[Ht|[Ht|[Ht|[Ht|[Ht|[]]]]]]]; rewrite <- Ht in *; try discriminate; reflexivity. }
  exists cg1, cg2. split; [exact E1|]. split; [exact E3|]. eapply emits_app; eassumption.
Qed.
Lemma own_reads : forall k, reads (own_texts k) (own_items k).
Proof.
  intros k. unfold own_texts, own_items.
  assert (HP : forall f, Forall prim_ok (filter f ps)) by (intros f; apply Forall_forall; intros p Hp; apply Hps; apply filter_In in Hp; tauto). apply reads_app.
  - assert (HR : reads_in true (map enum_text (filter (is_enum_in k) ps)) (map plain_item (map enum_text (filter (is_enum_in k) ps)))).
    { apply reads_lines; apply Forall_map; (eapply Forall_impl; [|apply HP]); intros p Hp; apply enum_text_ok, Hp. }
    apply reads_msvc in HR. rewrite !map_map in HR. destruct (filter (is_enum_in k) ps); [apply reads_nil|exact HR].
  - rewrite <- (map_map class_text plain_item). apply reads_lines; apply Forall_map; (eapply Forall_impl; [|apply HP]); intros p Hp; apply class_text_ok, Hp.
Qed.
Definition in_db (t : tree) : Prop := forall k, In k (tkeys t) -> k = 0 \/ In k K.
Lemma gen_ok : forall n t m ch, (depth t <= n)%nat -> heap db m ch ps -> rep ch t -> (forall k, In k (flat_map tkeys (subs t)) -> In k K) -> (key t = 0 \/ In (key t) K) ->
  (forall cg, exists cg', GenNamespaceForwardDeclare n m (key t) true cg = Ok cg' /\ emits cg (in_texts t) cg') /\
  (In (key t) K -> forall cg, exists cg', GenNamespaceForwardDeclare n m (key t) false cg = Ok cg' /\ emits cg ([ns_header (key t); str "{"] ++ in_texts t ++ [str "}"]) cg').
Proof.
  induction n as [|n IH]; intros [k ts] m ch Hd Hh Hr Hin Hk; [cbn in Hd; lia|]. inversion Hr as [? ? R1 R2]; subst. cbn [key subs] in *.
  assert (HK : known db k = true) by (apply known_spec; exact Hk).
  assert (Hcs : forall cg, exists cg', each (fun c => GenNamespaceForwardDeclare n m c false) (map key ts) cg = Ok cg' /\
            emits cg (flat_map (fun t => [ns_header (key t); str "{"] ++ in_texts t ++ [str "}"]) ts) cg').
  { assert (HD : forall t, In t ts -> (depth t <= n)%nat) by (intros t Ht; pose proof (depth_sub k ts t Ht); lia). clear Hd Hr R1. induction ts as [|t ts IHt]; intros cg; cbn [map each flat_map]; [exists cg; split; [reflexivity|apply emits_nil]|].
    inversion R2 as [|? ? R3 R4]; subst. cbn [flat_map] in Hin.
    destruct (IH t m ch (HD t (or_introl eq_refl)) Hh R3) as [_ G].
    { intros x Hx. apply Hin, in_or_app. left. destruct t. right. exact Hx. }
    { right. apply Hin, in_or_app. left. apply key_in. }
    destruct (G ltac:(apply Hin, in_or_app; left; apply key_in) cg) as [cg1 [E1 E2]]. rewrite E1. cbn [obind].
    destruct (IHt ltac:(intros; apply Hin, in_or_app; right; assumption) R4 ltac:(intros; apply HD; right; assumption) cg1) as [cg2 [E3 E4]]. exists cg2. split; [exact E3|]. eapply emits_app; eassumption. }
  assert (Hbody : forall cg, exists cg1 cg2 cg3, each (fun c => GenNamespaceForwardDeclare n m c false) (map key ts) cg = Ok cg1 /\
     (match filter (is_enum_in k) ps with
      | [] => Ok cg1
      | _ => do cg <- each declare_enum (filter (is_enum_in k) ps) (Line cg1 (str "#if defined(CLCPP_USING_MSVC)")); Ok (Line cg (str "#endif"))
      end) = Ok cg2 /\ each declare_class (filter (is_class_in k) ps) cg2 = Ok cg3 /\ emits cg (in_texts (T k ts)) cg3).
  { intros cg. destruct (Hcs cg) as [cg1 [E1 E2]]. destruct (own_emits k cg1) as [cg2 [cg3 [E3 [E4 E5]]]]. exists cg1, cg2, cg3. repeat (split; [assumption|]). cbn [in_texts]. eapply emits_app; eassumption. }
  split.
  - intros cg. cbn [GenNamespaceForwardDeclare]. rewrite (Hh k), HK. unfold the_node. cbn [nd_children nd_enums nd_classes]. rewrite R1.
    destruct (Hbody cg) as [cg1 [cg2 [cg3 [E1 [E2 [E3 E4]]]]]]. rewrite E1. cbn [obind]. rewrite E2. cbn [obind]. rewrite E3. cbn [obind]. exists cg3. auto.
  - intros HkK cg. cbn [GenNamespaceForwardDeclare]. rewrite (Hh k), HK. unfold the_node. cbn [nd_children nd_enums nd_classes nd_name]. rewrite R1.
    change (str "namespace " ++ UnscopeName (nm db k)) with (ns_header k).
    destruct (Hbody (EnterScope (Line cg (ns_header k)))) as [cg1 [cg2 [cg3 [E1 [E2 [E3 E4]]]]]]. rewrite E1. cbn [obind]. rewrite E2. cbn [obind]. rewrite E3. cbn [obind].
    destruct (emits_block _ _ _ E4) as [cg4 [E5 E6]]. exists cg4. split; [exact E5|]. apply (emits_app cg [ns_header k] (Line cg (ns_header k)) ([str "{"] ++ in_texts (T k ts) ++ [str "}"])); [apply emits_line, header_ok, HkK|exact E6].
Qed.
Lemma in_reads : forall t, (forall k, In k (flat_map tkeys (subs t)) -> In k K) -> reads (in_texts t) (in_items t).
Proof.
  induction t as [k ts IH] using tree_rect'; intros Hin. cbn [in_texts in_items subs] in *. apply reads_app; [|apply own_reads].
  induction ts as [|t ts IHt]; cbn [flat_map]; [apply reads_nil|]. inversion IH as [|? ? I1 I2]; subst. cbn [flat_map] in Hin. apply reads_app.
  - apply reads_block; [apply header_ok|apply header_ok|]; try (apply Hin, in_or_app; left; apply key_in). apply I1. intros x Hx. apply Hin, in_or_app. left. destruct t. right. exact Hx.
  - apply IHt; [exact I2|]. intros x Hx. apply Hin, in_or_app. right. exact Hx.
Qed.

(* ---- the items as one list over the namespaces, each with its scope ---- *)
Fixpoint nodes (sc : list (list Z)) (t : tree) : list (list (list Z) * Z) :=
  match t with T k ts => flat_map (fun t => (sc ++ [UnscopeName (nm db (key t))], key t) :: nodes (sc ++ [UnscopeName (nm db (key t))]) t) ts end.
Definition node_items (x : list (list Z) * Z) : list item :=
  mk_item (map header (removelast (fst x))) false (ns_header (snd x)) :: map (under (map header (fst x)) false) (own_items (snd x)).
Lemma under_nil : forall l, map (under [] false) l = l.
Proof. intros l. rewrite <- (map_id l) at 2. apply map_ext. intros [a b c]. reflexivity. Qed.
Lemma under_under : forall a b l, map (under a false) (map (under b false) l) = map (under (a ++ b) false) l.
Proof. intros. rewrite map_map. apply map_ext. intros [x y z]. unfold under. cbn. rewrite app_assoc. reflexivity. Qed.
Lemma map_flat_map : forall A B C (f : B -> C) (g : A -> list B) l, map f (flat_map g l) = flat_map (fun a => map f (g a)) l.
Proof. induction l as [|a l IH]; cbn; [reflexivity|]. rewrite map_app, IH. reflexivity. Qed.
Lemma flat_map_flat_map : forall A B C (f : B -> list C) (g : A -> list B) l, flat_map f (flat_map g l) = flat_map (fun a => flat_map f (g a)) l.
Proof. induction l as [|a l IH]; cbn; [reflexivity|]. rewrite flat_map_app, IH. reflexivity. Qed.
Lemma perm_flat_map_ext : forall A B (f g : A -> list B) l, (forall a, In a l -> Permutation (f a) (g a)) -> Permutation (flat_map f l) (flat_map g l).
Proof. induction l as [|a l IH]; intros H; cbn; [constructor|]. apply Permutation_app; [apply H; left; reflexivity|apply IH; intros; apply H; right; assumption]. Qed.
Lemma items_nodes : forall t sc, Permutation (map (under (map header sc) false) (in_items t)) (map (under (map header sc) false) (own_items (key t)) ++ flat_map node_items (nodes sc t)).
Proof.
  induction t as [k ts IH] using tree_rect'; intros sc. cbn [in_items nodes key]. rewrite map_app. eapply perm_trans; [apply Permutation_app_comm|]. apply Permutation_app_head.
  rewrite map_flat_map, flat_map_flat_map. apply perm_flat_map_ext. intros t Ht. rewrite Forall_forall in IH. cbn [map flat_map]. unfold node_items at 1. cbn [fst snd]. rewrite removelast_snoc.
  cbn [app]. unfold under at 1, plain_item. cbn [it_in it_msvc it_text]. rewrite app_nil_r. apply perm_skip. rewrite under_under.
  specialize (IH t Ht (sc ++ [UnscopeName (nm db (key t))])). 
  replace (map header sc ++ [ns_header (key t)]) with (map header (sc ++ [UnscopeName (nm db (key t))])) by (rewrite map_app; reflexivity). exact IH.
Qed.
End Gen.
