(* Proofs about Module objects over their life. *)
From Verif Require Import Base BaseProofs Maps ModuleModel ModuleSpec.

Definition keyed (ms : zmap module) : Prop := NoDup (map fst ms).
Lemma keyed_update : forall (ms : zmap module) k m, map fst (m_update k m ms) = map fst ms.
Proof. induction ms as [|[k' v] ms IH]; intros k m; [reflexivity|]. cbn [m_update]. destruct (k' =? k); cbn [map fst]; [reflexivity|]. rewrite IH. reflexivity. Qed.
Lemma keyed_filter : forall ms k, keyed ms -> keyed (filter (fun x => negb (fst x =? k)) ms).
Proof.
  unfold keyed. induction ms as [|[k' v] ms IH]; intros k U; [constructor|]. inversion U as [|? ? N U']; subst. cbn [filter fst]. destruct (k' =? k); cbn [negb]; [apply IH; exact U'|]. cbn [map fst]. constructor; [|apply IH; exact U'].
  intros I. apply N. apply in_map_iff in I. destruct I as ([a b] & E & I). cbn [fst] in E. subst a. apply filter_In in I. apply in_map_iff. exists (k', b). tauto.
Qed.
Lemma find_absent : forall (ms : zmap module) k, m_find k ms = None -> ~ In k (map fst ms).
Proof. induction ms as [|[k' v] ms IH]; intros k H; [intros []|]. cbn [m_find] in H. destruct (Z.eqb_spec k' k) as [->|NE]; [discriminate|]. intros [I|I]; [contradiction|exact (IH k H I)]. Qed.
Lemma find_same : forall (ms : zmap module) k m, m_find k ms <> None -> m_find k (m_update k m ms) = Some m.
Proof. induction ms as [|[k' v] ms IH]; intros k m H; [cbn in H; congruence|]. cbn [m_find m_update] in *. destruct (Z.eqb_spec k' k) as [->|NE]; cbn [m_find]; [rewrite Z.eqb_refl; reflexivity|]. rewrite (proj2 (Z.eqb_neq _ _) NE). apply IH. exact H. Qed.
Lemma find_other : forall ms k j (m : module), k <> j -> m_find k (m_update j m ms) = m_find k ms.
Proof. induction ms as [|[k' v] ms IH]; intros k j m H; [reflexivity|]. cbn [m_find m_update]. destruct (Z.eqb_spec k' j) as [->|NE]; cbn [m_find]; [rewrite (proj2 (Z.eqb_neq j k)) by congruence; reflexivity|]. rewrite IH by exact H. reflexivity. Qed.
Lemma find_filtered : forall (ms : zmap module) k j, m_find k (filter (fun x => negb (fst x =? j)) ms) = if k =? j then None else m_find k ms.
Proof.
  induction ms as [|[k' v] ms IH]; intros k j; [cbn; destruct (k =? j); reflexivity|]. cbn [filter fst m_find]. destruct (Z.eqb_spec k' j) as [->|NE]; cbn [negb].
  - rewrite IH. destruct (Z.eqb_spec k j) as [->|NK]; [reflexivity|]. rewrite (proj2 (Z.eqb_neq j k)) by congruence. reflexivity.
  - cbn [m_find]. rewrite IH. destruct (Z.eqb_spec k' k) as [->|NK]; [rewrite (proj2 (Z.eqb_neq k j)) by exact NE; reflexivity|reflexivity].
Qed.
Definition one (h x : Z) : nat := if x =? h then 1 else 0.
Lemma holders_cons : forall h k m ms, holders h ((k, m) :: ms) = (one h (m_handle m) + holders h ms)%nat.
Proof. intros h k m ms. unfold holders, one. cbn [filter snd]. destruct (m_handle m =? h); reflexivity. Qed.
Lemma holders_update : forall h ms k m m', keyed ms -> m_find k ms = Some m -> (holders h (m_update k m' ms) + one h (m_handle m) = holders h ms + one h (m_handle m'))%nat.
Proof.
  intros h ms k m m' U F. induction ms as [|[k' v] ms IH]; [discriminate|]. inversion U as [|? ? N U']; subst. cbn [m_find m_update] in *. destruct (k' =? k).
  - injection F as ->. rewrite !holders_cons. lia.
  - rewrite !holders_cons. specialize (IH U' F). lia.
Qed.
Lemma filter_same : forall (ms : zmap module) k, ~ In k (map fst ms) -> filter (fun x => negb (fst x =? k)) ms = ms.
Proof. induction ms as [|[k' v] ms IH]; intros k N; [reflexivity|]. cbn [filter fst]. destruct (Z.eqb_spec k' k) as [->|NE]; [exfalso; apply N; left; reflexivity|]. cbn [negb]. rewrite IH; [reflexivity|]. intros I. apply N. right. exact I. Qed.
Lemma holders_filter : forall h ms k m, keyed ms -> m_find k ms = Some m -> (holders h (filter (fun x => negb (fst x =? k)%Z) ms) + one h (m_handle m) = holders h ms)%nat.
Proof.
  intros h ms k m U F. induction ms as [|[k' v] ms IH]; [discriminate|]. inversion U as [|? ? N U']; subst. cbn [m_find filter fst] in *. destruct (Z.eqb_spec k' k) as [->|NE]; cbn [negb].
  - injection F as ->. rewrite filter_same by exact N. rewrite holders_cons. lia.
  - rewrite !holders_cons. specialize (IH U' F). lia.
Qed.
Lemma holder_some : forall h ms k m, m_find k ms = Some m -> m_handle m = h -> (1 <= holders h ms)%nat.
Proof.
  intros h ms k m F E. induction ms as [|[k' v] ms IH]; [discriminate|]. cbn [m_find] in F. rewrite holders_cons. destruct (k' =? k); [|specialize (IH F); lia]. injection F as ->. unfold one. rewrite E, Z.eqb_refl. lia.
Qed.

Section Libraries.
Variables (exported : Z -> list Z -> Z) (answer : Z -> Z).
(* what holds between calls: held is what objects hold, n the references that are lost *)
Definition balanced (refs0 : Z -> nat) (held : Z -> Z) (n : Z -> nat) (s : system) : Prop :=
  keyed (s_modules s) /\ (forall k, held k = match m_find k (s_modules s) with Some m => m_handle m | None => 0 end) /\
  (forall h, h <> 0 -> s_refs s h = (refs0 h + holders h (s_modules s) + n h)%nat).
Lemma load_handle : forall m host h x, load_module exported answer m host h = Ok x -> m_handle (fst x) = h.
Proof.
  intros m host h x H. unfold load_module in H. destruct (Z.eqb_spec h 0) as [->|NE]; [injection H as <-; reflexivity|]. destruct (host =? 0); [discriminate|]. cbn [negb assert obind] in H. unfold get_function in H. cbn [m_handle] in H. rewrite (proj2 (Z.eqb_neq _ _) NE) in H. cbn [negb assert obind] in H.
  injection H as <-. cbn [fst]. destruct (_ =? 0); reflexivity.
Qed.
Lemma step_balanced : forall refs0 held n s c s' a, balanced refs0 held n s -> mstep exported answer s c = Ok (s', a) ->
  balanced refs0 (held_after held c) (fun h => n h + match c with LoadModule this _ _ => one h (held this) | _ => 0 end)%nat s'.
Proof.
  intros refs0 held n s c s' a (U & K & R) H. destruct c as [this|this host h|this name|this|this]; cbn [mstep held_after] in *; destruct (m_find this (s_modules s)) as [m|] eqn:F; try discriminate.
  - injection H as <- _. cbn [s_modules s_refs]. split; [|split].
    + constructor; [exact (find_absent _ _ F)|exact U].
    + intros k. cbn [s_modules m_find]. rewrite (Z.eqb_sym this k). destruct (Z.eqb_spec k this); [reflexivity|apply K].
    + intros h N. cbn [s_refs s_modules]. rewrite R by exact N. rewrite holders_cons. unfold one. cbn [m_handle]. replace (0 =? h) with false by (symmetry; apply Z.eqb_neq; congruence). lia.
  - destruct (load_module exported answer m host h) as [x| | |] eqn:L; cbn [obind] in H; try discriminate. injection H as <- _. apply load_handle in L. split; [|split]; cbn [s_modules s_refs].
    + unfold keyed. rewrite keyed_update. exact U.
    + intros k. destruct (Z.eqb_spec k this) as [->|NE]; [rewrite find_same by congruence; symmetry; exact L|]. rewrite find_other by exact NE. apply K.
    + intros j N. pose proof (holders_update j _ _ _ (fst x) U F) as Q. rewrite L in Q. pose proof (K this) as KT. rewrite F in KT. rewrite KT. specialize (R j N). destruct (Z.eqb_spec h 0) as [->|NH].
      * unfold one in *. replace (0 =? j) with false in Q by (symmetry; apply Z.eqb_neq; congruence). lia.
      * unfold with_refs. destruct (Z.eqb_spec j h) as [->|NJ]; unfold one in *; [rewrite Z.eqb_refl in Q; lia|]. replace (h =? j) with false in Q by (symmetry; apply Z.eqb_neq; congruence). lia.
  - destruct (get_function exported m name) as [x| | |]; cbn [obind] in H; try discriminate. injection H as <- _. split; [exact U|]. split; [exact K|]. intros h N. rewrite R by exact N. lia.
  - injection H as <- _. split; [exact U|]. split; [exact K|]. intros h N. rewrite R by exact N. lia.
  - assert (X : exists refs, (if m_handle m =? 0 then Ok (s_refs s) else close (s_refs s) (m_handle m)) = Ok refs /\ s' = mk_system refs (filter (fun x => negb (fst x =? this)) (s_modules s))).
    { destruct (if m_handle m =? 0 then _ else _) as [refs| | |]; cbn [obind] in H; try discriminate. injection H as <- _. exists refs. auto. }
    destruct X as (refs & E & ->). split; [|split]; cbn [s_modules s_refs].
    + apply keyed_filter. exact U.
    + intros k. rewrite find_filtered. destruct (k =? this); [reflexivity|apply K].
    + intros h N. pose proof (holders_filter h _ _ _ U F) as Q. specialize (R h N). destruct (Z.eqb_spec (m_handle m) 0) as [Z0|NZ].
      * injection E as <-. unfold one in Q. rewrite Z0 in Q. replace (0 =? h) with false in Q by (symmetry; apply Z.eqb_neq; congruence). lia.
      * unfold close in E. destruct (s_refs s (m_handle m)) as [|c] eqn:C; [discriminate|]. injection E as <-. unfold with_refs. destruct (Z.eqb_spec h (m_handle m)) as [->|NH]; unfold one in Q.
        -- rewrite Z.eqb_refl in Q. lia.
        -- replace (m_handle m =? h) with false in Q by (symmetry; apply Z.eqb_neq; congruence). lia.
Qed.
Lemma run_balanced : forall cs refs0 held n s s' rs, balanced refs0 held n s -> mrun exported answer s cs = Ok (s', rs) ->
  balanced refs0 (fold_left held_after cs held) (fun h => n h + lost h held cs)%nat s'.
Proof.
  induction cs as [|c cs IH]; intros refs0 held n s s' rs B H; cbn [mrun] in H.
  - injection H as <- _. destruct B as (U & K & R). split; [exact U|]. split; [exact K|]. intros h N. cbn [lost]. rewrite R by exact N. lia.
  - destruct (mstep exported answer s c) as [[s1 a]| | |] eqn:E; cbn [obind fst snd] in H; try discriminate. destruct (mrun exported answer s1 cs) as [[s2 r]| | |] eqn:E2; cbn [obind fst snd] in H; try discriminate. injection H as <- _.
    pose proof (step_balanced _ _ _ _ _ _ _ B E) as B1. pose proof (IH _ _ _ _ _ _ B1 E2) as (U & K & R). split; [exact U|]. split; [exact K|]. intros h N. rewrite R by exact N. cbn [lost]. destruct c; unfold one; lia.
Qed.
Lemma step_defined : forall refs0 held n s c, balanced refs0 held n s ->
  (match c with NewModule this => m_find this (s_modules s) = None | LoadModule this _ _ | GetFunction this _ | GetReflectionDB this | DeleteModule this => m_find this (s_modules s) <> None end) ->
  (exists s' a, mstep exported answer s c = Ok (s', a) /\ forall k, m_find k (s_modules s') <> None <-> match c with NewModule this => k = this \/ m_find k (s_modules s) <> None | DeleteModule this => k <> this /\ m_find k (s_modules s) <> None | _ => m_find k (s_modules s) <> None end) \/
  (mstep exported answer s c = Trap /\ match c with LoadModule _ host h => host = 0 /\ h <> 0 | GetFunction this _ => held this = 0 | _ => False end).
Proof.
  intros refs0 held n s c (U & K & R) O. destruct c as [this|this host h|this name|this|this]; cbn [mstep]; destruct (m_find this (s_modules s)) as [m|] eqn:F; try congruence; pose proof (K this) as KT; rewrite F in KT.
  - left. do 2 eexists. split; [reflexivity|]. intros k. cbn [s_modules m_find]. destruct (Z.eqb_spec this k) as [->|NE]; [split; [auto|discriminate]|]. split; [auto|]. intros [->|X]; [congruence|exact X].
  - destruct (load_module exported answer m host h) as [x| | |] eqn:L.
    + left. cbn [obind]. do 2 eexists. split; [reflexivity|]. intros k. cbn [s_modules]. destruct (Z.eq_dec k this) as [->|NE]; [rewrite find_same by congruence; rewrite F; split; discriminate|]. rewrite find_other by exact NE. reflexivity.
    + right. split; [reflexivity|]. unfold load_module in L. destruct (Z.eqb_spec h 0) as [->|NE]; [discriminate|]. destruct (Z.eqb_spec host 0) as [->|NH]; [auto|]. cbn [negb assert obind] in L. unfold get_function in L. cbn [m_handle] in L. rewrite (proj2 (Z.eqb_neq _ _) NE) in L. discriminate L.
    + exfalso. unfold load_module in L. destruct (Z.eqb_spec h 0) as [->|NE]; [discriminate|]. destruct (host =? 0); [discriminate|]. cbn [negb assert obind] in L. unfold get_function in L. cbn [m_handle] in L. rewrite (proj2 (Z.eqb_neq _ _) NE) in L. discriminate L.
    + exfalso. unfold load_module in L. destruct (Z.eqb_spec h 0) as [->|NE]; [discriminate|]. destruct (host =? 0); [discriminate|]. cbn [negb assert obind] in L. unfold get_function in L. cbn [m_handle] in L. rewrite (proj2 (Z.eqb_neq _ _) NE) in L. discriminate L.
  - unfold get_function. destruct (Z.eqb_spec (m_handle m) 0) as [E|E]; cbn [negb assert obind]; [right; split; [reflexivity|congruence]|left]. do 2 eexists. split; [reflexivity|]. reflexivity.
  - left. do 2 eexists. split; [reflexivity|]. reflexivity.
  - left. destruct (Z.eqb_spec (m_handle m) 0) as [E|E].
    + cbn [obind]. do 2 eexists. split; [reflexivity|]. intros k. cbn [s_modules]. rewrite find_filtered. destruct (Z.eqb_spec k this); [split; [congruence|tauto]|tauto].
    + unfold close. specialize (R _ E). pose proof (holder_some _ _ _ _ F eq_refl) as Q. destruct (s_refs s (m_handle m)) as [|c]; [lia|]. cbn [obind]. do 2 eexists. split; [reflexivity|]. intros k. cbn [s_modules]. rewrite find_filtered. destruct (Z.eqb_spec k this); [split; [congruence|tauto]|tauto].
Qed.
Lemma run_defined : forall cs refs0 held n s alive, balanced refs0 held n s -> (forall k, alive k = true <-> m_find k (s_modules s) <> None) -> orderly alive cs ->
  (exists s' rs, mrun exported answer s cs = Ok (s', rs)) \/ mrun exported answer s cs = Trap.
Proof.
  induction cs as [|c cs IH]; intros refs0 held n s alive B A O; [left; do 2 eexists; reflexivity|]. cbn [mrun].
  assert (P : match c with NewModule this => m_find this (s_modules s) = None | LoadModule this _ _ | GetFunction this _ | GetReflectionDB this | DeleteModule this => m_find this (s_modules s) <> None end).
  { destruct c as [this|this host h|this name|this|this]; cbn [orderly] in O; destruct O as [O _]; try (apply A; exact O). destruct (m_find this (s_modules s)) eqn:F; [|reflexivity]. assert (X : alive this = true) by (apply A; congruence). congruence. }
  destruct (step_defined _ _ _ _ c B P) as [(s1 & a & E & D)|[E _]]; rewrite E; cbn [obind fst snd]; [|right; reflexivity]. pose proof (step_balanced _ _ _ _ _ _ _ B E) as B1.
  assert (X : exists alive', (forall k, alive' k = true <-> m_find k (s_modules s1) <> None) /\ orderly alive' cs).
  { destruct c as [this|this host h|this name|this|this]; cbn [orderly] in O; destruct O as [O1 O2].
    - eexists. split; [|exact O2]. intros k. cbn beta. rewrite D. destruct (Z.eqb_spec k this); [tauto|]. rewrite A. tauto.
    - exists alive. split; [|exact O2]. intros k. rewrite D. apply A.
    - exists alive. split; [|exact O2]. intros k. rewrite D. apply A.
    - exists alive. split; [|exact O2]. intros k. rewrite D. apply A.
    - eexists. split; [|exact O2]. intros k. cbn beta. rewrite D. destruct (Z.eqb_spec k this); [split; [discriminate|tauto]|]. rewrite A. tauto. }
  destruct X as (alive' & A' & O'). destruct (IH _ _ _ _ alive' B1 A' O') as [(s2 & rs & E2)|E2]; rewrite E2; cbn [obind fst snd]; [left; do 2 eexists; reflexivity|right; reflexivity].
Qed.
Lemma step_frame : forall s c s' a this m, mstep exported answer s c = Ok (s', a) -> leaves this c -> m_find this (s_modules s) = Some m -> m_find this (s_modules s') = Some m.
Proof.
  intros s c s' a this m H L F. destruct c as [t|t host h|t name|t|t]; cbn [mstep leaves] in *; destruct (m_find t (s_modules s)) as [x|] eqn:G; try discriminate.
  - injection H as <- _. cbn [s_modules m_find]. destruct (Z.eqb_spec t this) as [->|NE]; [congruence|exact F].
  - destruct (load_module exported answer x host h) as [y| | |]; cbn [obind] in H; try discriminate. injection H as <- _. cbn [s_modules]. rewrite find_other by congruence. exact F.
  - destruct (get_function exported x name); cbn [obind] in H; try discriminate. injection H as <- _. exact F.
  - injection H as <- _. exact F.
  - destruct (if m_handle x =? 0 then _ else _) as [r| | |]; cbn [obind] in H; try discriminate. injection H as <- _. cbn [s_modules]. rewrite find_filtered. rewrite (proj2 (Z.eqb_neq this t)) by congruence. exact F.
Qed.
Lemma run_frame : forall cs s s' rs this m, mrun exported answer s cs = Ok (s', rs) -> Forall (leaves this) cs -> m_find this (s_modules s) = Some m -> m_find this (s_modules s') = Some m.
Proof.
  induction cs as [|c cs IH]; intros s s' rs this m H L F; cbn [mrun] in H; [injection H as <- _; exact F|]. destruct (mstep exported answer s c) as [[s1 a]| | |] eqn:E; cbn [obind fst snd] in H; try discriminate. destruct (mrun exported answer s1 cs) as [[s2 r]| | |] eqn:E2; cbn [obind fst snd] in H; try discriminate. injection H as <- _.
  inversion L as [|? ? L1 L2]; subst. exact (IH _ _ _ _ _ E2 L2 (step_frame _ _ _ _ _ _ E L1 F)).
Qed.
End Libraries.
