From Verif Require Import Base BaseProofs Text HashModel Maps FileUtilsModel FileUtilsSpec FileUtilsProofs DatabaseModel AttrModel ScanModel ScanSpec ScanTypeProofs ScanParseProofs ScanAttrProofs ScanWalkProofs ScanRunProofs ScanFunProofs.
Local Open Scope string_scope.
Local Open Scope list_scope.
Local Open Scope Z_scope.

Definition picked {T} (pick : event -> option (name * T)) (evs : list event) : list (name * T) :=
  flat_map (fun ev => match pick ev with Some x => [x] | None => [] end) evs.
Definition of_key {T} (k : Z) (l : list (name * T)) : list T := map snd (filter (fun x => n_hash (fst x) =? k) l).
Lemma of_key_app : forall T k (a b : list (name * T)), of_key k (a ++ b) = of_key k a ++ of_key k b.
Proof. intros. unfold of_key. rewrite filter_app, map_app. reflexivity. Qed.
Lemma of_key_In : forall T k (l : list (name * T)) v, In v (of_key k l) <-> exists n, In (n, v) l /\ n_hash n = k.
Proof.
  intros T k l v. unfold of_key. rewrite in_map_iff. split.
  - intros [[n w] [E H]]. cbn in E. subst w. apply filter_In in H. destruct H as [H1 H2]. apply Z.eqb_eq in H2. eauto.
  - intros [n [H1 H2]]. exists (n, v). split; [reflexivity|]. apply filter_In. split; [exact H1|]. apply Z.eqb_eq. exact H2.
Qed.
Lemma of_key_named : forall T k (pick : event -> option (name * T)) evs, of_key k (picked pick evs) = named k pick evs.
Proof.
  intros T k pick evs. unfold picked, named. induction evs as [|ev evs IH]; [reflexivity|]. cbn [flat_map]. rewrite of_key_app, IH. f_equal.
  destruct (pick ev) as [[n v]|]; [|reflexivity]. unfold of_key. cbn [filter fst]. destruct (n_hash n =? k); reflexivity.
Qed.
Lemma picked_In : forall T (pick : event -> option (name * T)) evs x, In x (picked pick evs) <-> exists ev, In ev evs /\ pick ev = Some x.
Proof.
  intros T pick evs x. unfold picked. rewrite in_flat_map. split.
  - intros [ev [H1 H2]]. exists ev. split; [exact H1|]. destruct (pick ev) as [y|]; [destruct H2 as [->|[]]; reflexivity|destruct H2].
  - intros [ev [H1 H2]]. exists ev. split; [exact H1|]. rewrite H2. left. reflexivity.
Qed.
Section Tables.
Variable T : Type.
Variable P : database -> zmap T.
Variable pick : event -> option (name * T).
Lemma multi_noted : (forall ev d, P (note ev d) = match pick ev with Some (n, v) => insert_named n v (P d) | None => P d end) ->
  forall evs d, sorted (keys (P d)) -> sorted (keys (P (noted evs d))) /\ forall k, m_range k (P (noted evs d)) = m_range k (P d) ++ of_key k (picked pick evs).
Proof.
  intros Hs. induction evs as [|ev evs IH]; intros d Hd.
  - split; [exact Hd|]. intros k. cbn. rewrite app_nil_r. reflexivity.
  - change (noted (ev :: evs) d) with (noted evs (note ev d)). change (picked pick (ev :: evs)) with ((match pick ev with Some x => [x] | None => [] end) ++ picked pick evs).
    specialize (Hs ev d). destruct (pick ev) as [[n v]|].
    + assert (Hd' : sorted (keys (P (note ev d)))) by (rewrite Hs; apply mm_insert_sorted; exact Hd). destruct (IH _ Hd') as [I1 I2]. split; [exact I1|].
      intros k. rewrite I2, of_key_app, app_assoc. f_equal. rewrite Hs. unfold insert_named. rewrite m_range_insert by exact Hd.
      unfold of_key. cbn [filter fst]. destruct (n_hash n =? k); [reflexivity|]. cbn. rewrite app_nil_r. reflexivity.
    + rewrite <- Hs in Hd. destruct (IH _ Hd) as [I1 I2]. split; [exact I1|]. intros k. rewrite I2, Hs. reflexivity.
Qed.
Lemma once_noted : (forall ev d, P (note ev d) = match pick ev with Some (n, v) => insert_new n v (P d) | None => P d end) ->
  forall evs d, sorted (keys (P d)) -> sorted (keys (P (noted evs d))) /\
    forall k, m_range k (P (noted evs d)) = match m_range k (P d) with [] => firstn 1 (of_key k (picked pick evs)) | l => l end.
Proof.
  intros Hs. induction evs as [|ev evs IH]; intros d Hd.
  - split; [exact Hd|]. intros k. cbn. destruct (m_range k (P d)); reflexivity.
  - change (noted (ev :: evs) d) with (noted evs (note ev d)). change (picked pick (ev :: evs)) with ((match pick ev with Some x => [x] | None => [] end) ++ picked pick evs).
    specialize (Hs ev d). destruct (pick ev) as [[n v]|].
    + unfold insert_new, known in Hs. destruct (m_find (n_hash n) (P d)) as [w|] eqn:Ef.
      * rewrite <- Hs in Hd. destruct (IH _ Hd) as [I1 I2]. split; [exact I1|]. intros k. rewrite I2, Hs. destruct (m_range k (P d)) as [|x l] eqn:Er; [|reflexivity].
        unfold of_key. cbn [app filter fst]. destruct (Z.eqb_spec (n_hash n) k) as [<-|Hk]; [|reflexivity]. rewrite m_find_range, Er in Ef. discriminate Ef.
      * assert (Hd' : sorted (keys (P (note ev d)))) by (rewrite Hs; apply mm_insert_sorted; exact Hd). destruct (IH _ Hd') as [I1 I2]. split; [exact I1|].
        intros k. rewrite I2. rewrite Hs. unfold insert_named. rewrite m_range_insert by exact Hd.
        unfold of_key. cbn [app filter fst]. destruct (Z.eqb_spec (n_hash n) k) as [<-|Hk].
        -- rewrite m_find_range in Ef. destruct (m_range (n_hash n) (P d)); [reflexivity|discriminate Ef].
        -- destruct (m_range k (P d)); reflexivity.
    + rewrite <- Hs in Hd. destruct (IH _ Hd) as [I1 I2]. split; [exact I1|]. intros k. rewrite I2, Hs. reflexivity.
Qed.
Variable same : T -> T -> bool.
Lemma attr_noted : (forall ev d, P (note ev d) = match pick ev with Some (n, v) => insert_attr same n v (P d) | None => P d end) ->
  forall evs d,
    (forall k v, In (k, v) (P (noted evs d)) -> In (k, v) (P d) \/ exists n, In (n, v) (picked pick evs) /\ k = n_hash n) /\
    (forall k v, In (k, v) (P d) -> In (k, v) (P (noted evs d))) /\
    (forall n v, In (n, v) (picked pick evs) -> exists w, In (n_hash n, w) (P (noted evs d)) /\ (w = v \/ same w v = true)).
Proof.
  intros Hs. induction evs as [|ev evs IH]; intros d.
  - split; [auto|]. split; [auto|]. intros n v [].
  - change (noted (ev :: evs) d) with (noted evs (note ev d)). change (picked pick (ev :: evs)) with ((match pick ev with Some x => [x] | None => [] end) ++ picked pick evs).
    specialize (Hs ev d). destruct (IH (note ev d)) as [I1 [I2 I3]]. destruct (pick ev) as [[n v]|].
    + unfold insert_attr in Hs.
      assert (D : (exists w, m_find (n_hash n) (P d) = Some w /\ same w v = true /\ P (note ev d) = P d) \/ P (note ev d) = mm_insert (n_hash n) v (P d)).
      { destruct (m_find (n_hash n) (P d)) as [w|]; [|right; exact Hs]. destruct (same w v) eqn:Es; [|right; exact Hs]. left. exists w. auto. }
      destruct D as [[w [D1 [D2 D3]]]|D].
      * rewrite D3 in *. split; [|split].
        -- intros k x Hx. destruct (I1 _ _ Hx) as [Hx'|[n' [Hx' ->]]]; [auto|]. right. exists n'. split; [right; exact Hx'|reflexivity].
        -- exact I2.
        -- intros n' v' [Hin|Hin]; [|apply I3; exact Hin]. assert (n' = n /\ v' = v) as [-> ->] by (split; congruence). exists w. split; [|auto]. apply I2. apply m_find_In. exact D1.
      * rewrite D in *. split; [|split].
        -- intros k x Hx. destruct (I1 _ _ Hx) as [Hx'|[n' [Hx' ->]]].
           ++ apply mm_insert_In in Hx'. destruct Hx' as [Hx'|Hx']; [|auto]. right. exists n. split; [left; congruence|congruence].
           ++ right. exists n'. split; [right; exact Hx'|reflexivity].
        -- intros k x Hx. apply I2. apply mm_insert_In. auto.
        -- intros n' v' [Hin|Hin]; [|apply I3; exact Hin]. assert (n' = n /\ v' = v) as [-> ->] by (split; congruence). exists v. split; [|auto]. apply I2. apply mm_insert_In. auto.
    + rewrite Hs in *. split; [exact I1|]. split; [exact I2|exact I3].
Qed.
End Tables.

(* the tables *)
Definition flag_ev (ev : event) := match ev with Attribute_ o (FlagAttr n) => Some (n, mk_prim n (name_of o)) | _ => None end.
Definition int_ev (ev : event) := match ev with Attribute_ o (IntAttr n v) => Some (n, mk_int (mk_prim n (name_of o)) v) | _ => None end.
Definition float_ev (ev : event) := match ev with Attribute_ o (FloatAttr n v) => Some (n, mk_float (mk_prim n (name_of o)) v) | _ => None end.
Definition prim_ev (ev : event) := match ev with Attribute_ o (PrimAttr n v) => Some (n, mk_pattr (mk_prim n (name_of o)) v) | _ => None end.
Definition text_ev (ev : event) := match ev with Attribute_ o (TextAttr n v) => Some (n, mk_text (mk_prim n (name_of o)) v) | _ => None end.
Ltac by_events := intros [o [ | | | | ]|p|p c s|p|e|c|f|f|nm c|nm z|nm [[? ?] ?]|nm|b c] d; reflexivity.
Lemma field_step : forall ev d, m_fields (note ev d) = match a_field ev with Some (n, v) => insert_named n v (m_fields d) | None => m_fields d end.
Proof. by_events. Qed.
Lemma function_step : forall ev d, m_functions (note ev d) = match a_function ev with Some (n, v) => insert_named n v (m_functions d) | None => m_functions d end.
Proof. by_events. Qed.
Lemma enum_step : forall ev d, m_enums (note ev d) = match an_enum ev with Some (n, v) => insert_named n v (m_enums d) | None => m_enums d end.
Proof. by_events. Qed.
Lemma const_step : forall ev d, m_enum_consts (note ev d) = match a_constant ev with Some (n, v) => insert_named n v (m_enum_consts d) | None => m_enum_consts d end.
Proof. by_events. Qed.
Lemma type_step : forall ev d, m_types (note ev d) = match a_type ev with Some (n, v) => insert_named n v (m_types d) | None => m_types d end.
Proof. by_events. Qed.
Lemma namespace_step : forall ev d, m_namespaces (note ev d) = match a_namespace ev with Some (n, v) => insert_new n v (m_namespaces d) | None => m_namespaces d end.
Proof. by_events. Qed.
Lemma template_step : forall ev d, m_templates (note ev d) = match a_template ev with Some (n, v) => insert_new n v (m_templates d) | None => m_templates d end.
Proof. by_events. Qed.
Lemma flag_step : forall ev d, m_flag_attrs (note ev d) = match flag_ev ev with Some (n, v) => insert_attr prim_eqb n v (m_flag_attrs d) | None => m_flag_attrs d end.
Proof. by_events. Qed.
Lemma int_step : forall ev d, m_int_attrs (note ev d) = match int_ev ev with Some (n, v) => insert_attr int_attr_eqb n v (m_int_attrs d) | None => m_int_attrs d end.
Proof. by_events. Qed.
Lemma float_step : forall ev d, m_float_attrs (note ev d) = match float_ev ev with Some (n, v) => insert_attr float_attr_eqb n v (m_float_attrs d) | None => m_float_attrs d end.
Proof. by_events. Qed.
Lemma prim_step : forall ev d, m_prim_attrs (note ev d) = match prim_ev ev with Some (n, v) => insert_attr prim_attr_eqb n v (m_prim_attrs d) | None => m_prim_attrs d end.
Proof. by_events. Qed.
Lemma text_step : forall ev d, m_text_attrs (note ev d) = match text_ev ev with Some (n, v) => insert_attr text_attr_eqb n v (m_text_attrs d) | None => m_text_attrs d end.
Proof. by_events. Qed.

(* classes *)
Lemma m_update_range : forall T k (v : T) m k', m_range k' (m_update k v m) =
  if k =? k' then match m_range k' m with [] => [] | _ :: r => v :: r end else m_range k' m.
Proof.
  induction m as [|[a w] m IH]; intros k'; cbn [m_update]; [destruct (k =? k'); reflexivity|].
  unfold m_range in *. destruct (Z.eqb_spec a k) as [->|Ha]; cbn [filter fst].
  - destruct (k =? k'); reflexivity.
  - destruct (Z.eqb_spec a k') as [->|Ha']; cbn [map snd]; rewrite IH.
    + destruct (Z.eqb_spec k k'); [congruence|reflexivity].
    + reflexivity.
Qed.
Lemma m_update_keys : forall T k (v : T) m, keys (m_update k v m) = keys m.
Proof. induction m as [|[a w] m IH]; cbn [m_update]; [reflexivity|]. destruct (a =? k); [reflexivity|]. cbn [keys map fst]. f_equal. exact IH. Qed.
Definition resize (z : option Z) (c : class) : class := match z with Some s => mk_class (c_prim c) s (c_is_class c) | None => c end.
Definition step_class (p : prim) (c : bool) (s : option Z) (l : list class) : list class :=
  match l with [] => [resize s (mk_class p FORWARD_DECL_SIZE c)] | x :: r => resize s x :: r end.
Lemma sized_range : forall s h m k, m_range k (sized_class s h m) = if h =? k then match m_range k m with [] => [] | x :: r => resize s x :: r end else m_range k m.
Proof.
  intros s h m k. unfold sized_class. destruct s as [s|].
  - rewrite m_find_range. destruct (m_range h m) as [|x r] eqn:E; cbn [hd_error].
    + destruct (Z.eqb_spec h k) as [<-|]; [rewrite E; reflexivity|reflexivity].
    + rewrite m_update_range. destruct (Z.eqb_spec h k) as [<-|]; [rewrite E; reflexivity|reflexivity].
  - cbn [resize]. destruct (h =? k); [|reflexivity]. destruct (m_range k m); reflexivity.
Qed.
Lemma sized_keys : forall s h m, keys (sized_class s h m) = keys m.
Proof. intros s h m. unfold sized_class. destruct s; [|reflexivity]. destruct (m_find h m); [apply m_update_keys|reflexivity]. Qed.
Lemma new_range : forall T (n : name) (v : T) m k, sorted (keys m) -> m_range k (insert_new n v m) =
  if n_hash n =? k then match m_range k m with [] => [v] | l => l end else m_range k m.
Proof.
  intros T n v m k Hm. unfold insert_new, known. rewrite m_find_range. destruct (m_range (n_hash n) m) as [|x l] eqn:E; cbn [hd_error].
  - unfold insert_named. rewrite m_range_insert by exact Hm. destruct (Z.eqb_spec (n_hash n) k) as [<-|]; [rewrite E; reflexivity|reflexivity].
  - cbn. destruct (Z.eqb_spec (n_hash n) k) as [<-|]; [rewrite E; reflexivity|reflexivity].
Qed.
Lemma new_sorted : forall T (n : name) (v : T) m, sorted (keys m) -> sorted (keys (insert_new n v m)).
Proof. intros T n v m Hm. unfold insert_new. destruct (known (n_hash n) m); [exact Hm|]. apply mm_insert_sorted. exact Hm. Qed.
Lemma class_noted : forall evs d, sorted (keys (m_classes d)) ->
  forall k, m_range k (m_classes (noted evs d)) = fold_left (fun l e => step_class (fst (fst e)) (snd (fst e)) (snd e) l) (class_events k evs) (m_range k (m_classes d)).
Proof.
  induction evs as [|ev evs IH]; intros d Hd k; [reflexivity|].
  change (noted (ev :: evs) d) with (noted evs (note ev d)).
  destruct ev as [o [ | | | | ]|p|p c s|p|e|c|f|f|nm c|nm z|nm [[? ?] ?]|nm|b c]; try (rewrite IH by exact Hd; reflexivity).
  assert (Hm : m_classes (note (Class_ p c s) d) = sized_class s (n_hash (p_name p)) (insert_new (p_name p) (mk_class p FORWARD_DECL_SIZE c) (m_classes d))) by reflexivity.
  rewrite IH; rewrite Hm; [|rewrite sized_keys; apply new_sorted; exact Hd].
  rewrite sized_range, new_range by exact Hd. unfold class_events. cbn [flat_map].
  destruct (n_hash (p_name p) =? k); [|reflexivity]. cbn [app fold_left fst snd]. unfold step_class. destruct (m_range k (m_classes d)); reflexivity.
Qed.
Lemma class_fold : forall l p z c, fold_left (fun l e => step_class (fst (fst e)) (snd (fst e)) (snd e) l) l [mk_class p z c] =
  [mk_class p (fold_left (fun z (e : prim * bool * option Z) => match snd e with Some s => s | None => z end) l z) c].
Proof. induction l as [|[[p' c'] [s|]] l IH]; intros p z c; cbn [fold_left fst snd step_class resize]; [reflexivity| |]; apply IH. Qed.
Lemma classes_are : forall evs k, m_range k (m_classes (noted evs db_empty)) = class_of (class_events k evs).
Proof.
  intros evs k. rewrite class_noted by constructor. cbn [m_range db_empty m_classes filter map]. destruct (class_events k evs) as [|[[p c] s] l]; [reflexivity|].
  unfold class_of, last_size. cbn [fold_left fst snd step_class]. destruct s as [s|]; cbn [resize]; apply class_fold.
Qed.

(* containers *)
Definition array_infos (k : Z) (evs : list event) : list container_info := named k an_array evs.
Definition named_infos (k : Z) (evs : list event) : list container_info := named k a_container evs.
Lemma container_noted : forall evs d, ssorted (keys (m_containers d)) ->
  forall k, m_find k (m_containers (noted evs d)) = match rev (named_infos k evs) with c :: _ => Some c | [] => match m_find k (m_containers d) with Some c => Some c | None => hd_error (array_infos k evs) end end.
Proof.
  induction evs as [|ev evs IH]; intros d Hd k; [cbn; destruct (m_find k (m_containers d)); reflexivity|].
  change (noted (ev :: evs) d) with (noted evs (note ev d)).
  destruct ev as [o [ | | | | ]|p|p c s|p|e|c|f|f|nm c|nm z|nm [[rd wr] key]|nm|b c]; try (rewrite IH by exact Hd; reflexivity).
  - assert (Hm : m_containers (note (Array_ nm c) d) = m_insert (thash nm) (mk_cinfo (name_of nm) noname noname 2 c) (m_containers d)) by reflexivity.
    unfold m_insert in Hm. unfold array_infos, named_infos, named. cbn [flat_map an_array a_container n_hash]. fold (named k an_array evs). fold (named k a_container evs). fold (array_infos k evs). fold (named_infos k evs). cbn [app].
    destruct (m_find (thash nm) (m_containers d)) as [w|] eqn:Ef.
    + rewrite IH; rewrite Hm; [|exact Hd]. destruct (rev (named_infos k evs)); [|reflexivity]. destruct (m_find k (m_containers d)) eqn:Ek; [reflexivity|].
      destruct (Z.eqb_spec (thash nm) k) as [<-|]; [congruence|reflexivity].
    + rewrite IH; rewrite Hm; [|apply m_set_ssorted; exact Hd]. destruct (rev (named_infos k evs)); [|reflexivity]. rewrite m_find_set by exact Hd.
      destruct (Z.eqb_spec (thash nm) k) as [<-|]; [rewrite Ef; reflexivity|]. reflexivity.
  - assert (Hm : m_containers (note (Container_ nm (rd, wr, key)) d) = m_set (thash nm) (mk_cinfo (name_of nm) (name_of rd) (name_of wr) (if key then 1 else 0) 0) (m_containers d)) by reflexivity.
    unfold array_infos, named_infos, named. cbn [flat_map an_array a_container n_hash]. fold (named k an_array evs). fold (named k a_container evs). fold (array_infos k evs). fold (named_infos k evs). cbn [app].
    rewrite IH; rewrite Hm; [|apply m_set_ssorted; exact Hd]. rewrite rev_app_distr. destruct (rev (named_infos k evs)); [|reflexivity]. rewrite m_find_set by exact Hd.
    destruct (Z.eqb_spec (thash nm) k) as [<-|]; reflexivity.
Qed.
Lemma containers_are : forall evs k, m_find k (m_containers (noted evs db_empty)) = match rev (named_infos k evs) with c :: _ => Some c | [] => hd_error (array_infos k evs) end.
Proof. intros evs k. rewrite container_noted by constructor. cbn. destruct (rev (named_infos k evs)); reflexivity. Qed.

(* the events of a run *)
Lemma requests_cons : forall p l, requests (p :: l) = flat_map request (snd p) ++ requests l.
Proof. reflexivity. Qed.
Lemma requests_app : forall a b, requests (a ++ b) = requests a ++ requests b.
Proof. intros. unfold requests. apply flat_map_app. Qed.
Definition in_unit (sf : list Z -> Z) (asked : list (list Z)) (tus : list (env * list decl)) (ev : event) : Prop :=
  exists before E tu after, tus = before ++ (E, tu) :: after /\ out sf E (asked ++ requests (before ++ [(E, tu)])) tu ev.
Lemma run_events_In : forall sf asked tus evs, run_events sf asked tus evs -> forall ev, In ev evs <->
  in_unit sf asked tus ev \/ (tus <> [] /\ exists t, In t builtin_types /\ ev = Type_ (fst t) (snd t)) \/
  exists cs c, containers_of (asked ++ requests tus) cs /\ In c cs /\ ev = Container_ (fst c) (snd c).
Proof.
  induction 1 as [asked cs Hc|asked E tu evs r more Hu Hr IH]; intros ev.
  - cbn [requests flat_map]. rewrite app_nil_r. split.
    + intros H. apply in_map_iff in H. destruct H as [c [<- H]]. right. right. eauto.
    + intros [[b [E [tu [a [H _]]]]]|[[H _]|[cs' [c [H1 [H2 ->]]]]]].
      * destruct b; discriminate H.
      * exfalso. apply H. reflexivity.
      * apply (in_map (fun c => Container_ (fst c) (snd c))). destruct c as [nm v]. apply (proj2 Hc). apply (proj2 H1). exact H2.
  - rewrite !in_app_iff, IH, (unit_events_In _ _ _ _ _ Hu). rewrite requests_cons. cbn [snd]. rewrite app_assoc. split.
    + intros [H|[H|[H|[H|H]]]].
      * apply in_map_iff in H. destruct H as [t [<- H]]. right. left. split; [intro Hx; discriminate Hx|]. eauto.
      * left. exists [], E, tu, r. split; [reflexivity|]. cbn [app]. rewrite requests_cons. cbn [snd requests flat_map]. rewrite app_nil_r. exact H.
      * left. destruct H as [b [E' [tu' [a [H1 H2]]]]]. exists ((E, tu) :: b), E', tu', a. split; [rewrite H1; reflexivity|].
        cbn [app]. rewrite requests_cons. cbn [snd]. rewrite app_assoc. exact H2.
      * right. left. split; [intro Hx; discriminate Hx|]. exact (proj2 H).
      * right. right. exact H.
    + intros [H|[H|H]].
      * destruct H as [b [E' [tu' [a [H1 H2]]]]]. destruct b as [|x b].
        -- cbn [app] in H1. assert (E = E' /\ tu = tu') as [<- <-] by (split; congruence). right. left.
           cbn [app] in H2. rewrite requests_cons in H2. cbn [snd requests flat_map] in H2. rewrite app_nil_r in H2. exact H2.
        -- cbn [app] in H1. assert (x = (E, tu)) by congruence. assert (r = b ++ (E', tu') :: a) by congruence. subst x r.
           right. right. left. exists b, E', tu', a. split; [reflexivity|]. cbn [app] in H2. rewrite requests_cons in H2. cbn [snd] in H2. rewrite app_assoc in H2. exact H2.
      * left. destruct H as [_ [t [H ->]]]. apply (in_map (fun t => Type_ (fst t) (snd t))). exact H.
      * right. right. right. right. exact H.
Qed.
Lemma given_in_unit : forall sf tus ev, given sf tus ev <-> in_unit sf [] tus ev.
Proof.
  intros sf tus ev. unfold given, in_unit, out. split.
  - intros [b [E [tu [a [al [p [l [d [H1 [H2 H3]]]]]]]]]]. exists b, E, tu, a. split; [exact H1|]. exists al, p, l, d. split; [exact H2|exact H3].
  - intros [b [E [tu [a [H1 [al [p [l [d [H2 H3]]]]]]]]]]. exists b, E, tu, a, al, p, l, d. split; [exact H1|]. split; [exact H2|exact H3].
Qed.
Definition walked (ev : event) : bool := match ev with Type_ _ _ | Container_ _ _ => false | _ => true end.
Lemma run_events_given : forall sf tus evs, run_events sf [] tus evs -> forall ev, walked ev = true -> (In ev evs <-> given sf tus ev).
Proof.
  intros sf tus evs H ev Hw. rewrite (run_events_In _ _ _ _ H), given_in_unit. split; [|tauto].
  intros [Hx|[[_ [t [_ ->]]]|[cs [c [_ [_ ->]]]]]]; [exact Hx|discriminate Hw|discriminate Hw].
Qed.
(* what a declaration gives is never a builtin type or a container *)
Definition all_walked (evs : list event) : Prop := forall ev, In ev evs -> walked ev = true.
Lemma walked_nil : all_walked []. Proof. intros ev []. Qed.
Lemma walked_cons : forall e l, walked e = true -> all_walked l -> all_walked (e :: l).
Proof. intros e l He Hl ev [<-|H]; [exact He|exact (Hl ev H)]. Qed.
Lemma walked_app : forall a b, all_walked a -> all_walked b -> all_walked (a ++ b).
Proof. intros a b Ha Hb ev H. apply in_app_or in H. destruct H as [H|H]; [exact (Ha ev H)|exact (Hb ev H)]. Qed.
Lemma walked_map : forall T (f : T -> event) l, (forall x, walked (f x) = true) -> all_walked (map f l).
Proof. intros T f l Hf ev H. apply in_map_iff in H. destruct H as [x [<- _]]. apply Hf. Qed.
Lemma used_walked : forall E u evs, used E u evs -> all_walked evs.
Proof. intros E u evs H. destruct H; [apply walked_nil|]. apply walked_cons; [reflexivity|apply walked_nil]. Qed.
Lemma made_walked : forall E q nm owner i f evs, made E q nm owner i f evs -> all_walked evs.
Proof.
  intros E q nm owner i f evs H. destruct H. apply walked_app; [eapply used_walked; eassumption|]. destruct (pi_count i =? 0); [apply walked_nil|].
  apply walked_cons; [reflexivity|apply walked_nil].
Qed.
Lemma derives_walked : forall E nm l all evs, derives E nm l all evs -> all_walked evs.
Proof. induction 1; [apply walked_nil| |apply walked_nil]. apply walked_app; [eapply used_walked; eassumption|]. apply walked_cons; [reflexivity|assumption]. Qed.
Lemma params_walked : forall E owner i l r evs, params E owner i l r evs -> all_walked evs.
Proof. induction 1; try apply walked_nil; (apply walked_app; [eapply made_walked; eassumption|assumption]). Qed.
Lemma function_walked : forall E f nm parent this evs, function_events E f nm parent this evs -> all_walked evs.
Proof.
  intros E f nm parent this evs H. destruct H; try apply walked_nil.
  - apply walked_app; [eapply made_walked; eassumption|eapply params_walked; eassumption].
  - apply walked_app; [eapply made_walked; eassumption|]. apply walked_app; [eapply params_walked; eassumption|]. apply walked_cons; [reflexivity|].
    apply walked_app; [|apply walked_map; reflexivity]. destruct (list_eqb _ _); [apply walked_nil|]. apply walked_cons; [reflexivity|apply walked_nil].
Qed.
Lemma leaf_walked : forall E nm parent layout k evs, leaf_events E nm parent layout k evs -> all_walked evs.
Proof.
  intros E nm parent layout k evs H. destruct H; try apply walked_nil; try (eapply function_walked; eassumption).
  - apply walked_cons; [reflexivity|]. apply walked_map. reflexivity.
  - apply walked_app; [eapply made_walked; eassumption|eapply function_walked; eassumption].
  - apply walked_app; [eapply made_walked; eassumption|]. apply walked_cons; [reflexivity|apply walked_nil].
  - apply walked_cons; [reflexivity|apply walked_nil].
Qed.
Lemma gives_walked : forall sf E asked allow parent layout d ev, gives sf E asked allow parent layout d ev -> walked ev = true.
Proof.
  intros sf E asked allow parent layout d ev H. destruct H; try reflexivity.
  - eapply derives_walked; eassumption.
  - eapply leaf_walked; eassumption.
Qed.
