(* A function and its parameters are recorded together. *)
From Verif Require Import Base BaseProofs Text HashModel Maps FileUtilsModel FileUtilsSpec DatabaseModel AttrModel ScanModel ScanSpec ScanTableProofs.
Local Open Scope string_scope.
Local Open Scope list_scope.
Local Open Scope Z_scope.

Definition quiet (ev : event) : Prop := match ev with Function_ _ | Field_ _ => False | _ => True end.
Definition all_quiet (evs : list event) : Prop := forall ev, In ev evs -> quiet ev.
Lemma quiet_nil : all_quiet []. Proof. intros ev []. Qed.
Lemma quiet_cons : forall e l, quiet e -> all_quiet l -> all_quiet (e :: l).
Proof. intros e l He Hl ev [<-|H]; [exact He|exact (Hl ev H)]. Qed.
Lemma quiet_app : forall a b, all_quiet a -> all_quiet b -> all_quiet (a ++ b).
Proof. intros a b Ha Hb ev H. apply in_app_or in H. destruct H as [H|H]; [exact (Ha ev H)|exact (Hb ev H)]. Qed.
Lemma used_quiet : forall E u evs, used E u evs -> all_quiet evs.
Proof. intros E u evs H. destruct H; [apply quiet_nil|]. apply quiet_cons; [exact I|apply quiet_nil]. Qed.
Lemma made_quiet : forall E q nm owner i f evs, made E q nm owner i f evs -> all_quiet evs.
Proof.
  intros E q nm owner i f evs H. destruct H. apply quiet_app; [eapply used_quiet; eassumption|]. destruct (pi_count i =? 0); [apply quiet_nil|].
  apply quiet_cons; [exact I|apply quiet_nil].
Qed.
Lemma derives_quiet : forall E nm l all evs, derives E nm l all evs -> all_quiet evs.
Proof. induction 1; [apply quiet_nil| |apply quiet_nil]. apply quiet_app; [eapply used_quiet; eassumption|]. apply quiet_cons; [exact I|assumption]. Qed.
Lemma params_quiet : forall E owner i l r evs, params E owner i l r evs -> all_quiet evs.
Proof. induction 1; try apply quiet_nil; (apply quiet_app; [eapply made_quiet; eassumption|assumption]). Qed.

(* numbered l i nm: l are fields of nm, numbered from i *)
Definition numbered (l : list field) (i : Z) (nm : name) : Prop :=
  forall j p, nth_error l j = Some p -> f_offset p = i + Z.of_nat j /\ p_parent (f_prim p) = nm.
Lemma numbered_nil : forall i nm, numbered [] i nm.
Proof. intros i nm j p H. destruct j; discriminate H. Qed.
Lemma numbered_cons : forall f l i nm, f_offset f = i -> p_parent (f_prim f) = nm -> numbered l (i + 1) nm -> numbered (f :: l) i nm.
Proof.
  intros f l i nm H1 H2 H3 [|j] p Hp; cbn [nth_error] in Hp.
  - assert (f = p) by congruence. subst p. split; [rewrite H1; lia|exact H2].
  - destruct (H3 j p Hp) as [A B]. split; [rewrite A; lia|exact B].
Qed.
Lemma numbered_uid : forall uid l i nm, numbered l i nm -> numbered (map (set_uid uid) l) i nm.
Proof.
  intros uid l i nm H j p Hp. rewrite nth_error_map in Hp. destruct (nth_error l j) as [q|] eqn:E; [|discriminate Hp].
  assert (p = set_uid uid q) by (cbn in Hp; congruence). subst p. exact (H j q E).
Qed.
Lemma made_field_is : forall E q nm owner i f evs, made E q nm owner i f evs -> f_offset f = i /\ f_prim f = prim_of nm owner /\ f_parent_uid f = 0.
Proof. intros E q nm owner i f evs H. destruct H. auto. Qed.
Lemma params_numbered : forall E owner i l r evs, params E owner i l r evs -> forall ps, r = Some ps -> numbered ps i (name_of owner).
Proof.
  induction 1 as [i|i nm q r Hu|i nm q r f ev fs evs Hm Hp IH|i nm q r f ev evs Hm Hp IH]; intros ps Hs; try discriminate Hs.
  - assert (ps = []) by congruence. subst. apply numbered_nil.
  - assert (ps = f :: fs) by congruence. subst. destruct (made_field_is _ _ _ _ _ _ _ Hm) as [A [B _]]. apply numbered_cons; [exact A|rewrite B; reflexivity|apply IH; reflexivity].
Qed.
Lemma unique_id_set : forall uid l acc, unique_id acc (map (set_uid uid) l) = unique_id acc l.
Proof.
  intros uid. induction l as [|f l IH]; intros acc; [reflexivity|]. cbn [map unique_id]. change (CalcFieldHash (set_uid uid f)) with (CalcFieldHash f).
  destruct (CalcFieldHash f) as [h| | | ]; cbn [obind]; try reflexivity. destruct (MixHashes acc h); cbn [obind]; try reflexivity. apply IH.
Qed.

(* the function f with its parameters ps and its return value *)
Definition group (f : function) (ps : list field) (ret : field) : Prop :=
  fn_address f = 0 /\ CalculateFunctionUniqueID ps = Ok (fn_uid f) /\ numbered ps 0 (p_name (fn_prim f)) /\
  (forall p, In p (ret :: ps) -> f_parent_uid p = fn_uid f) /\
  f_offset ret = -1 /\ p_parent (f_prim ret) = p_name (fn_prim f).
Definition returned (ret : field) : list field := if list_eqb (n_text (f_type ret)) (str "void") then [] else [ret].
Lemma function_group : forall E f nm parent this evs, (this = [] \/ exists t, this = [t] /\ f_offset t = 0 /\ p_parent (f_prim t) = name_of nm) ->
  function_events E f nm parent this evs ->
  all_quiet evs \/ exists q fn ps ret, evs = q ++ Function_ fn :: map Field_ (returned ret ++ ps) /\ all_quiet q /\ group fn ps ret.
Proof.
  intros E f nm parent this evs Ht H. destruct H as [H|H1 H2|ret ev evs H1 H2 H3|ret ev ps evs uid H1 H2 H3 H4]; try (left; apply quiet_nil).
  - left. apply quiet_app; [eapply made_quiet; eassumption|eapply params_quiet; eassumption].
  - right. exists (ev ++ evs), (mk_func (prim_of nm parent) uid 0), (map (set_uid uid) (this ++ ps)), (set_uid uid ret). split.
    + rewrite <- app_assoc. f_equal. f_equal. f_equal. unfold returned. change (f_type (set_uid uid ret)) with (f_type ret).
      rewrite (map_app Field_). apply f_equal2; [destruct (list_eqb _ _); reflexivity|]. rewrite map_map. reflexivity.
    + split; [apply quiet_app; [eapply made_quiet; eassumption|eapply params_quiet; eassumption]|].
      pose proof (params_numbered _ _ _ _ _ _ H3 ps eq_refl) as Hn. destruct (made_field_is _ _ _ _ _ _ _ H2) as [A [B _]].
      split; [reflexivity|]. split; [unfold CalculateFunctionUniqueID in *; rewrite unique_id_set; exact H4|]. split; [|split; [|split]].
      * apply numbered_uid. cbn [fn_prim prim_of p_name]. destruct Ht as [->|[t [-> [T1 T2]]]]; [exact Hn|]. cbn [app]. apply numbered_cons; [exact T1|exact T2|]. exact Hn.
      * intros p [<-|Hp]; [reflexivity|]. apply in_map_iff in Hp. destruct Hp as [p' [<- _]]. reflexivity.
      * exact A.
      * cbn [set_uid f_prim]. rewrite B. reflexivity.
Qed.
Lemma leaf_group : forall E nm parent layout k evs, leaf_events E nm parent layout k evs ->
  all_quiet evs \/
  (exists q fn ps ret, evs = q ++ Function_ fn :: map Field_ (returned ret ++ ps) /\ all_quiet q /\ group fn ps ret) \/
  (exists q f, evs = q ++ [Field_ f] /\ all_quiet q /\ f_parent_uid f = 0 /\ p_parent (f_prim f) = name_of parent).
Proof.
  intros E nm parent layout k evs H.
  destruct H as [sc cs|f evs H|inst this f|this f evs H|this f H|this f t ev evs H1 H2|n bits q|n bits q H|n bits q f ev H1 H2|n fwd H|n fwd H| ]; try (left; apply quiet_nil).
  - left. apply quiet_cons; [exact I|]. intros e He. apply in_map_iff in He. destruct He as [c [<- _]]. exact I.
  - destruct (function_group _ _ _ _ _ _ (or_introl eq_refl) H) as [Hq|Hg]; [left; exact Hq|right; left; exact Hg].
  - destruct (function_group _ _ _ _ _ _ (or_introl eq_refl) H) as [Hq|Hg]; [left; exact Hq|right; left; exact Hg].
  - destruct (made_field_is _ _ _ _ _ _ _ H1) as [A [B _]].
    assert (Ht : [t] = [] \/ exists t', [t] = [t'] /\ f_offset t' = 0 /\ p_parent (f_prim t') = name_of nm).
    { right. exists t. split; [reflexivity|]. split; [exact A|]. rewrite B. reflexivity. }
    destruct (function_group _ _ _ _ _ _ Ht H2) as [Hq|[q [fn [ps [ret [G1 [G2 G3]]]]]]].
    + left. apply quiet_app; [eapply made_quiet; eassumption|exact Hq].
    + right. left. exists (ev ++ q), fn, ps, ret. split; [rewrite G1, app_assoc; reflexivity|]. split; [|exact G3]. apply quiet_app; [eapply made_quiet; eassumption|exact G2].
  - right. right. destruct (made_field_is _ _ _ _ _ _ _ H2) as [A [B C]]. exists ev, f. split; [reflexivity|]. split; [eapply made_quiet; eassumption|]. split; [exact C|]. rewrite B. reflexivity.
  - left. apply quiet_cons; [exact I|apply quiet_nil].
Qed.
Lemma given_group : forall sf tus ev, given sf tus ev -> quiet ev \/
  (exists fn ps ret, group fn ps ret /\ (ev = Function_ fn \/ exists p, ev = Field_ p /\ In p (returned ret ++ ps)) /\
     given sf tus (Function_ fn) /\ forall p, In p (returned ret ++ ps) -> given sf tus (Field_ p)) \/
  (exists f, ev = Field_ f /\ f_parent_uid f = 0).
Proof.
  intros sf tus ev [b [E [tu [a [al [p [l [d [H1 [H2 H3]]]]]]]]]]. 
  destruct H3 as [d h l' x Hh Hi Ha Hx|h l' al' Ht|h r l' al' all bs ev Ht Hd Hv Hb Hin|h r l' al' bs Ht Hd Hv Hb Hn|h r l' al' Ht Hd Hf Hn|h k al' evs ev Ht Hl Hin]; try (left; exact I).
  - left. eapply derives_quiet; eassumption.
  - destruct (leaf_group _ _ _ _ _ _ Hl) as [Hq|[[q [fn [ps [ret [G1 [G2 G3]]]]]]|[q [f [G1 [G2 [G3 _]]]]]]].
    + left. exact (Hq _ Hin).
    + assert (G : forall e, In e evs -> given sf tus e).
      { intros e He. exists b, E, tu, a, al, p, l, (D_leaf h k). split; [exact H1|]. split; [exact H2|]. eapply gv_leaf; eassumption. }
      subst evs. apply in_app_or in Hin. destruct Hin as [Hin|Hin]; [left; exact (G2 _ Hin)|]. right. left. exists fn, ps, ret. split; [exact G3|]. split; [|split].
      * destruct Hin as [Hin|Hin]; [left; symmetry; exact Hin|right]. apply in_map_iff in Hin. destruct Hin as [x [<- Hx]]. exists x. auto.
      * apply G. apply in_or_app. right. left. reflexivity.
      * intros x Hx. apply G. apply in_or_app. right. right. apply in_map. exact Hx.
    + subst evs. apply in_app_or in Hin. destruct Hin as [Hin|[<-|[]]]; [left; exact (G2 _ Hin)|]. right. right. exists f. auto.
Qed.
