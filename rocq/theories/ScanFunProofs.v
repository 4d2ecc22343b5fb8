From Verif Require Import Base BaseProofs Text HashModel Maps FileUtilsModel FileUtilsSpec FileUtilsProofs DatabaseModel AttrModel ScanModel ScanSpec ScanTypeProofs ScanParseProofs ScanAttrProofs ScanWalkProofs.
Local Open Scope string_scope.
Local Open Scope list_scope.
Local Open Scope Z_scope.

Scheme walk_m := Minimality for walk Sort Prop
with inside_m := Minimality for inside Sort Prop
with walks_m := Minimality for walks Sort Prop.
Combined Scheme walk_mind from walk_m, inside_m, walks_m.

Section Fun.
Variables (sf : list Z -> Z) (E : env) (asked : list (list Z)).

Lemma uses_type_fun : forall q k k', uses_type q k -> uses_type q k' -> k = k'.
Proof.
  intros q k k' [n [e [op [c [t [H1 [H2 H3]]]]]]] U. apply (uses_type_spec q n e op c t H1 H2) in U. congruence.
Qed.
Lemma uses_base_fun : forall b k k', uses_base b k -> uses_base b k' -> k = k'.
Proof. intros b k k' [c [t [H1 H2]]] U. apply (uses_base_spec b c t H1) in U. congruence. Qed.
Lemma used_fun : forall (uses : Z -> Prop) us us', (forall k k', uses k -> uses k' -> k = k') -> used E uses us -> used E uses us' -> us = us'.
Proof.
  intros uses us us' Hf H H'. destruct (support_fun E) as [_ [_ [F _]]].
  destruct H as [Hn|k nm Hk Hi], H' as [Hn'|k' nm' Hk' Hi']; try reflexivity; try (exfalso; firstorder; fail).
  rewrite (Hf _ _ Hk Hk') in Hi. rewrite (F _ _ Hi _ Hi'). reflexivity.
Qed.
Lemma made_fun : forall q nm owner i f ev f' ev', made E q nm owner i f ev -> made E q nm owner i f' ev' -> f = f' /\ ev = ev'.
Proof.
  intros q nm owner i f ev f' ev' H H'. inversion H as [? ? ? ? x us D U]; subst. inversion H' as [? ? ? ? x' us' D' U']; subst.
  destruct (support_fun E) as [F _]. rewrite (F _ _ D _ D') in *. rewrite (used_fun _ _ _ (uses_type_fun q) U U'). auto.
Qed.
Lemma made_supported : forall q nm owner i f ev, made E q nm owner i f ev -> ~ unsupported E q.
Proof. intros q nm owner i f ev H Hn. inversion H; subst. eapply Hn. eassumption. Qed.
Lemma params_fun : forall owner i l o ev, params E owner i l o ev -> forall o' ev', params E owner i l o' ev' -> o = o' /\ ev = ev'.
Proof.
  intros owner i l o ev H. induction H as [i|i nm q r Hu|i nm q r f ev fs evs H1 H2 IH|i nm q r f ev evs H1 H2 IH]; intros o' ev' H'.
  - inversion H'. auto.
  - inversion H' as [|? ? ? ? G|? ? ? ? ? ? ? ? G1 G2|? ? ? ? ? ? ? G1 G2]; subst; [auto| |]; exfalso; eapply made_supported; eassumption.
  - inversion H' as [|? ? ? ? G|? ? ? ? ? ? ? ? G1 G2|? ? ? ? ? ? ? G1 G2]; subst.
    + exfalso. eapply made_supported; eassumption.
    + destruct (made_fun _ _ _ _ _ _ _ _ H1 G1) as [-> ->]. destruct (IH _ _ G2) as [E1 ->]. split; [congruence|reflexivity].
    + destruct (IH _ _ G2) as [E1 _]. discriminate E1.
  - inversion H' as [|? ? ? ? G|? ? ? ? ? ? ? ? G1 G2|? ? ? ? ? ? ? G1 G2]; subst.
    + exfalso. eapply made_supported; eassumption.
    + destruct (IH _ _ G2) as [E1 _]. discriminate E1.
    + destruct (made_fun _ _ _ _ _ _ _ _ H1 G1) as [-> ->]. destruct (IH _ _ G2) as [_ ->]. auto.
Qed.
Lemma function_events_fun : forall f nm parent this ev ev', function_events E f nm parent this ev -> function_events E f nm parent this ev' -> ev = ev'.
Proof.
  intros f nm parent this ev ev' H H'.
  inversion H as [H1|H1 H2|ret e1 e2 H1 H2 H3|ret e1 ps e2 uid H1 H2 H3 H4]; subst;
  inversion H' as [G1|G1 G2|ret' e1' e2' G1 G2 G3|ret' e1' ps' e2' uid' G1 G2 G3 G4]; subst; try congruence; try reflexivity;
    try (exfalso; eapply made_supported; eassumption);
    destruct (made_fun _ _ _ _ _ _ _ _ H2 G2) as [-> ->]; destruct (params_fun _ _ _ _ _ H3 _ _ G3) as [E1 E2]; try discriminate E1.
  - subst. reflexivity.
  - assert (ps' = ps) as -> by congruence. assert (uid' = uid) as -> by congruence. subst. reflexivity.
Qed.
Lemma leaf_events_fun : forall nm parent layout k ev ev', leaf_events E nm parent layout k ev -> leaf_events E nm parent layout k ev' -> ev = ev'.
Proof.
  intros nm parent layout k ev ev' H H'. destruct H; inversion H'; subst; try reflexivity; try lia;
    try (eapply function_events_fun; eassumption); try (exfalso; eapply made_supported; eassumption).
  - match goal with A : made _ this _ _ _ t ev, B : made _ this _ _ _ ?t' ?ev' |- _ => destruct (made_fun _ _ _ _ _ _ _ _ A B) as [-> ->] end.
    f_equal. eapply function_events_fun; eassumption.
  - match goal with A : made _ q _ _ _ f ev, B : made _ q _ _ _ ?f' ?ev' |- _ => destruct (made_fun _ _ _ _ _ _ _ _ A B) as [-> ->] end. reflexivity.
Qed.
Lemma derives_fun : forall nm l a ev, derives E nm l a ev -> forall a' ev', derives E nm l a' ev' -> a = a' /\ ev = ev'.
Proof.
  intros nm l a ev H. induction H as [|b r n us a evs H1 H2 H3 IH|b r H1]; intros a' ev' H'; inversion H' as [|? ? n' us' a1 evs' G1 G2 G3|? ? G1]; subst.
  - auto.
  - destruct (support_fun E) as [_ [_ [_ [_ F]]]]. pose proof (F _ _ H1 _ G1) as En. assert (n' = n) as -> by congruence.
    rewrite (used_fun _ _ _ (uses_base_fun b) H2 G2). destruct (IH _ _ G3) as [-> ->]. auto.
  - exfalso. eapply G1. exact H1.
  - exfalso. eapply H1. exact G1.
  - auto.
Qed.
Lemma walk_fun_all :
  (forall allow parent layout d ev, walk sf E asked allow parent layout d ev -> forall ev', walk sf E asked allow parent layout d ev' -> ev = ev') /\
  (forall allow parent layout d ev, inside sf E asked allow parent layout d ev -> forall ev', inside sf E asked allow parent layout d ev' -> ev = ev') /\
  (forall allow parent layout l ev, walks sf E asked allow parent layout l ev -> forall ev', walks sf E asked allow parent layout l ev' -> ev = ev').
Proof.
  apply walk_mind.
  - intros allow parent layout ev' H'. inversion H'; subst; try reflexivity; discriminate.
  - intros allow parent layout d h Hh Hi ev' H'. inversion H' as [| |? ? ? ? h' l m G1 G2 G3 G4 G5|? ? ? ? h' l m evs G1 G2 G3 G4 G5 G6]; subst; try reflexivity; congruence.
  - intros allow parent layout d h l m Hh Hi Hl Hm Hs ev' H'. subst m.
    inversion H' as [|? ? ? ? h' G1 G2|? ? ? ? h' l' m G1 G2 G3 G4 G5|? ? ? ? h' l' m evs G1 G2 G3 G4 G5 G6]; subst; try discriminate Hh;
      assert (h' = h) as -> by congruence; try congruence; rewrite (annotations_fun _ _ _ Hl _ G3) in *; [reflexivity|congruence].
  - intros allow parent layout d h l m evs Hh Hi Hl Hm Hs Hin IH ev' H'. subst m.
    inversion H' as [|? ? ? ? h' G1 G2|? ? ? ? h' l' m G1 G2 G3 G4 G5|? ? ? ? h' l' m evs' G1 G2 G3 G4 G5 G6]; subst; try discriminate Hh;
      assert (h' = h) as -> by congruence; try congruence; rewrite (annotations_fun _ _ _ Hl _ G3) in *; [congruence|].
    f_equal. apply IH. exact G6.
  - intros allow parent layout h l evs _ IH ev' H'. inversion H'; subst. f_equal. apply IH. assumption.
  - intros allow parent layout h r l H1 H2 ev' H'. inversion H'; subst; try reflexivity; congruence.
  - intros allow parent layout h r l H1 H2 ev' H'. inversion H'; subst; try reflexivity; congruence.
  - intros allow parent layout h r l bs H1 H2 H3 ev' H'. inversion H'; subst; try congruence;
      match goal with G : derives _ _ _ _ _ |- _ => destruct (derives_fun _ _ _ _ H3 _ _ G) as [E1 E2] end; try discriminate E1; exact E2.
  - intros allow parent layout h r l H1 H2 H3 ev' H'. inversion H'; subst; try congruence.
  - intros allow parent layout h r l evs H1 H2 H3 _ IH ev' H'. inversion H'; subst; try congruence. apply IH. assumption.
  - intros allow parent layout h r l bs evs H1 H2 H3 H4 _ IH ev' H'. inversion H'; subst; try congruence;
      match goal with G : derives _ _ _ _ _ |- _ => destruct (derives_fun _ _ _ _ H3 _ _ G) as [E1 E2] end; try discriminate E1. subst.
    do 2 f_equal. apply IH. assumption.
  - intros allow parent layout h r l bs evs H1 H2 H3 H4 _ IH ev' H'. inversion H'; subst; try congruence;
      match goal with G : derives _ _ _ _ _ |- _ => destruct (derives_fun _ _ _ _ H3 _ _ G) as [E1 E2] end; try discriminate E1. subst.
    f_equal. apply IH. assumption.
  - intros allow parent layout h k evs H ev' H'. inversion H'; subst. eapply leaf_events_fun; eassumption.
  - intros allow parent layout ev' H'. inversion H'. reflexivity.
  - intros allow parent layout d r ev evs _ IH1 _ IH2 ev' H'. inversion H'; subst. f_equal; [apply IH1|apply IH2]; assumption.
Qed.
Theorem unit_events_fun : forall tu ev ev', unit_events sf E asked tu ev -> unit_events sf E asked tu ev' -> ev = ev'.
Proof. intros tu ev ev' H H'. destruct walk_fun_all as [_ [_ F]]. exact (F _ _ _ _ _ H _ H'). Qed.

(* ---- declaration by declaration ---- *)
Section Reach.
Variable tu : list decl.
Definition out (ev : event) : Prop := exists allow parent layout d, reached sf E asked tu allow parent layout d /\ gives sf E asked allow parent layout d ev.
Lemma walk_out :
  (forall allow parent layout d evs, walk sf E asked allow parent layout d evs -> reached sf E asked tu allow parent layout d -> forall ev, In ev evs -> out ev) /\
  (forall allow' parent layout d evs, inside sf E asked allow' parent layout d evs -> forall allow, reached sf E asked tu allow parent layout d ->
     taken sf asked allow d allow' -> forall ev, In ev evs -> out ev) /\
  (forall allow parent layout l evs, walks sf E asked allow parent layout l evs -> (forall d, In d l -> reached sf E asked tu allow parent layout d) -> forall ev, In ev evs -> out ev).
Proof.
  apply walk_mind.
  - intros. destruct H0.
  - intros. destruct H2.
  - intros allow parent layout d h l m Hh Hi Hl Hm Hs Hr ev Hin. subst m. apply in_map_iff in Hin. destruct Hin as [a [<- Ha]].
    exists allow, parent, layout, d. split; [exact Hr|]. econstructor; eassumption.
  - intros allow parent layout d h l m evs Hh Hi Hl Hm Hs _ IH Hr ev Hin. subst m. apply in_app_or in Hin. destruct Hin as [Hin|Hin].
    + apply in_map_iff in Hin. destruct Hin as [a [<- Ha]]. exists allow, parent, layout, d. split; [exact Hr|]. econstructor; eassumption.
    + eapply IH; [exact Hr| |exact Hin]. econstructor; try eassumption. reflexivity.
  - intros allow' parent layout h l evs _ IH allow Hr Ht ev [<-|Hin].
    + exists allow, parent, layout, (D_namespace h l). split; [exact Hr|]. econstructor; eassumption.
    + apply IH; [|exact Hin]. intros d Hd. eapply rc_namespace; eassumption.
  - intros. destruct H3.
  - intros. destruct H3.
  - intros allow' parent layout h r l bs H1 H2 H3 allow Hr Ht ev Hin. exists allow, parent, layout, (D_record h r l). split; [exact Hr|]. eapply gv_base; eassumption.
  - intros allow' parent layout h r l H1 H2 H3 allow Hr Ht ev [<-|[]]. exists allow, parent, layout, (D_record h r l). split; [exact Hr|]. eapply gv_forward; eassumption.
  - intros allow' parent layout h r l evs H1 H2 H3 _ IH allow Hr Ht ev Hin. apply IH; [|exact Hin]. intros d Hd. eapply rc_forward; eassumption.
  - intros allow' parent layout h r l bs evs H1 H2 H3 H4 _ IH allow Hr Ht ev Hin. apply in_app_or in Hin. destruct Hin as [Hin|[<-|Hin]].
    + exists allow, parent, layout, (D_record h r l). split; [exact Hr|]. eapply gv_base; eassumption.
    + exists allow, parent, layout, (D_record h r l). split; [exact Hr|]. eapply gv_class; eassumption.
    + apply IH; [|exact Hin]. intros d Hd. pose proof (rc_class sf E asked tu _ _ _ _ _ _ _ _ d Hr Ht H1 H2 H3 Hd) as R. rewrite H4 in R. exact R.
  - intros allow' parent layout h r l bs evs H1 H2 H3 H4 _ IH allow Hr Ht ev Hin. apply in_app_or in Hin. destruct Hin as [Hin|Hin].
    + exists allow, parent, layout, (D_record h r l). split; [exact Hr|]. eapply gv_base; eassumption.
    + apply IH; [|exact Hin]. intros d Hd. pose proof (rc_class sf E asked tu _ _ _ _ _ _ _ _ d Hr Ht H1 H2 H3 Hd) as R. rewrite H4 in R. exact R.
  - intros allow' parent layout h k evs H allow Hr Ht ev Hin. exists allow, parent, layout, (D_leaf h k). split; [exact Hr|]. eapply gv_leaf; eassumption.
  - intros. destruct H0.
  - intros allow parent layout d r ev evs _ IH1 _ IH2 Hr e Hin. apply in_app_or in Hin. destruct Hin as [Hin|Hin].
    + apply IH1; [apply Hr; left; reflexivity|exact Hin].
    + apply IH2; [intros x Hx; apply Hr; right; exact Hx|exact Hin].
Qed.
Lemma walks_in : forall allow parent layout l evs, walks sf E asked allow parent layout l evs -> forall d, In d l -> exists ev, walk sf E asked allow parent layout d ev /\ incl ev evs.
Proof.
  induction l as [|c l IH]; intros evs H d Hin; [destruct Hin|]. inversion H as [|? ? ? ? ? ev evs' G1 G2]; subst. destruct Hin as [->|Hin].
  - exists ev. split; [exact G1|]. apply incl_appl, incl_refl.
  - destruct (IH _ G2 _ Hin) as [e [K1 K2]]. exists e. split; [exact K1|]. apply incl_appr. exact K2.
Qed.
Lemma walk_taken : forall allow parent layout d evs allow', walk sf E asked allow parent layout d evs -> taken sf asked allow d allow' ->
  exists ev, inside sf E asked allow' parent layout d ev /\ incl ev evs.
Proof.
  intros allow parent layout d evs allow' H Ht. destruct Ht as [h l m G1 G2 G3 G4 G5]. subst m.
  inversion H as [? ? ? X|? ? ? ? h' K1 K2|? ? ? ? h' l' m K1 K2 K3 K4 K5|? ? ? ? h' l' m evs' K1 K2 K3 K4 K5 K6]; subst.
  - discriminate G1.
  - congruence.
  - assert (h' = h) as -> by congruence. rewrite (annotations_fun _ _ _ K3 _ G3) in *. congruence.
  - assert (h' = h) as -> by congruence. rewrite (annotations_fun _ _ _ K3 _ G3) in *. exists evs'. split; [exact K6|]. apply incl_appr, incl_refl.
Qed.
Lemma reached_walk : forall evs, unit_events sf E asked tu evs -> forall allow parent layout d, reached sf E asked tu allow parent layout d ->
  exists ev, walk sf E asked allow parent layout d ev /\ incl ev evs.
Proof.
  intros evs Hu allow parent layout d H. induction H as [d Hin Hl|allow parent layout h l allow' c H IH Ht Hin|allow parent layout h r l allow' bs c H IH Ht H1 H2 H3 Hin|allow parent layout h r l allow' c H IH Ht H1 H2 H3 Hin].
  - eapply walks_in; [exact Hu|]. apply filter_In. auto.
  - destruct IH as [ev [W I]]. destruct (walk_taken _ _ _ _ _ _ W Ht) as [ev' [W' I']]. inversion W'; subst.
    match goal with G : walks _ _ _ _ _ _ _ _ |- _ => destruct (walks_in _ _ _ _ _ G _ Hin) as [e [K1 K2]] end.
    exists e. split; [exact K1|]. intros x Hx. apply I, I'. right. apply K2. exact Hx.
  - destruct IH as [ev [W I]]. destruct (walk_taken _ _ _ _ _ _ W Ht) as [ev' [W' I']]. inversion W'; subst; try congruence;
      match goal with G : derives _ _ _ _ _ |- _ => destruct (derives_fun _ _ _ _ H3 _ _ G) as [E1 E2]; try discriminate E1 end;
      match goal with G : walks _ _ _ _ _ _ _ _, A : r_anon r = _ |- _ => destruct (walks_in _ _ _ _ _ G _ Hin) as [e [K1 K2]]; rewrite A end;
      (exists e; split; [exact K1|]; intros x Hx; apply I, I'; apply in_or_app; right; try right; apply K2; exact Hx).
  - destruct IH as [ev [W I]]. destruct (walk_taken _ _ _ _ _ _ W Ht) as [ev' [W' I']]. inversion W'; subst; try congruence.
    match goal with G : walks _ _ _ _ _ _ _ _ |- _ => destruct (walks_in _ _ _ _ _ G _ Hin) as [e [K1 K2]] end.
    exists e. split; [exact K1|]. intros x Hx. apply I, I', K2, Hx.
Qed.
Lemma gives_in : forall allow parent layout d ev evs, gives sf E asked allow parent layout d ev -> walk sf E asked allow parent layout d evs -> In ev evs.
Proof.
  intros allow parent layout d ev evs H W. destruct H as [d h l a H1 H2 H3 H4|h l allow' Ht|h r l allow' all bs ev Ht H1 H2 H3 Hin|h r l allow' bs Ht H1 H2 H3 H4|h r l allow' Ht H1 H2 H3|h k allow' evs' ev Ht H1 Hin].
  - inversion W as [? ? ? X|? ? ? ? h' K1 K2|? ? ? ? h' l' m K1 K2 K3 K4 K5|? ? ? ? h' l' m evs' K1 K2 K3 K4 K5 K6]; subst.
    + discriminate H1.
    + congruence.
    + assert (h' = h) as -> by congruence. rewrite (annotations_fun _ _ _ K3 _ H3). apply in_map. exact H4.
    + assert (h' = h) as -> by congruence. rewrite (annotations_fun _ _ _ K3 _ H3). apply in_or_app. left. apply in_map. exact H4.
  - destruct (walk_taken _ _ _ _ _ _ W Ht) as [ev' [W' I']]. inversion W'; subst. apply I'. left. reflexivity.
  - destruct (walk_taken _ _ _ _ _ _ W Ht) as [ev' [W' I']]. inversion W'; subst; try congruence;
      match goal with G : derives _ _ _ _ _ |- _ => destruct (derives_fun _ _ _ _ H3 _ _ G) as [E1 E2]; subst end; apply I'; try exact Hin; apply in_or_app; left; exact Hin.
  - destruct (walk_taken _ _ _ _ _ _ W Ht) as [ev' [W' I']]. inversion W'; subst; try congruence.
    + match goal with G : derives _ _ _ _ _ |- _ => destruct (derives_fun _ _ _ _ H3 _ _ G) as [E1 E2]; discriminate E1 end.
    + apply I'. apply in_or_app. right. left. reflexivity.
  - destruct (walk_taken _ _ _ _ _ _ W Ht) as [ev' [W' I']]. inversion W'; subst; try congruence. apply I'. left. reflexivity.
  - destruct (walk_taken _ _ _ _ _ _ W Ht) as [ev' [W' I']]. inversion W'; subst. apply I'.
    match goal with G : leaf_events _ _ _ _ _ _ |- _ => rewrite (leaf_events_fun _ _ _ _ _ _ G H1) end. exact Hin.
Qed.
Theorem unit_events_In : forall evs, unit_events sf E asked tu evs -> forall ev, In ev evs <-> out ev.
Proof.
  intros evs Hu ev. split.
  - intros Hin. destruct walk_out as [_ [_ F]]. eapply F; [exact Hu| |exact Hin]. intros d Hd. apply filter_In in Hd. constructor; tauto.
  - intros [allow [parent [layout [d [Hr Hg]]]]]. destruct (reached_walk _ Hu _ _ _ _ Hr) as [e [W I]]. apply I. eapply gives_in; eassumption.
Qed.
End Reach.
End Fun.
