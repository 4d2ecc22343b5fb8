(* Proofs about the life of Database objects. *)
From Coq Require Import Permutation.
From Verif Require Import Base BaseProofs Maps DatabaseModel ExportModel ExportSpec MmapModel MmapSpec MmapProofs ImageModel LaidModel LaidSpec QueryModel QuerySpec LifeModel LifeSpec.

(* ---- the allocator ---- *)
Definition good (e : env) : Prop := NoDup (e_live e) /\ Forall (fun b => b < e_next e) (e_live e).
Lemma good_read : forall e n r e', file_read e n = (r, e') -> good e -> good e'.
Proof. intros e n r e' H G. unfold file_read in H. destruct (n <=? zlen (e_file e)); injection H as _ <-; exact G. Qed.
Lemma good_alloc : forall e b e', alloc e = (b, e') -> good e -> good e'.
Proof.
  intros e b e' H [G1 G2]. unfold alloc in H. injection H as _ <-. split; cbn [e_live e_next].
  - apply Permutation_NoDup with (l := e_next e :: e_live e); [apply Permutation_cons_append|]. constructor; [|exact G1].
    intros I. rewrite Forall_forall in G2. specialize (G2 _ I). lia.
  - apply Forall_app. split; [eapply Forall_impl; [|exact G2]; cbn; intros; lia|constructor; [lia|constructor]].
Qed.
Lemma good_free : forall e b e', free e b = Ok e' -> good e -> good e'.
Proof.
  intros e b e' H [G1 G2]. unfold free in H. destruct (existsb (Z.eqb b) (e_live e)); [|discriminate]. injection H as <-. split; cbn [e_live e_next].
  - apply NoDup_filter. exact G1.
  - rewrite Forall_forall in *. intros x I. apply filter_In in I. apply G2. tauto.
Qed.
Lemma good_array : forall T sz (parse : list Z -> T) nb e r e', ReadArray sz parse nb e = Ok (r, e') -> good e -> good e'.
Proof.
  intros T sz parse nb e r e' H G. unfold ReadArray in H. cbv zeta in H. destruct (alloc e) as [b e1] eqn:A. destruct (file_read e1 _) as [[bs|] e2] eqn:R.
  - injection H as _ <-. eapply good_read; [exact R|]. eapply good_alloc; eassumption.
  - destruct (free e2 b) as [e3| | |] eqn:F; cbn [obind] in H; try discriminate. injection H as _ <-. eapply good_free; [exact F|]. eapply good_read; [exact R|]. eapply good_alloc; eassumption.
Qed.
Lemma good_load : forall addr e r e', LoadMemoryMappedDatabase addr e = Ok (r, e') -> good e -> good e'.
Proof.
  intros addr e r e' H G. unfold LoadMemoryMappedDatabase in H. destruct (file_read e 32) as [[hb|] e0] eqn:R0; pose proof (good_read _ _ _ _ R0 G) as G0.
  2: injection H as _ <-; exact G0.
  cbv zeta in H. destruct (negb _); [injection H as _ <-; exact G0|]. destruct (_ || _); [injection H as _ <-; exact G0|].
  destruct (alloc e0) as [b e1] eqn:A. pose proof (good_alloc _ _ _ A G0) as G1. destruct (file_read e1 _) as [[img|] e2] eqn:R1; pose proof (good_read _ _ _ _ R1 G1) as G2.
  2: injection H as _ <-; exact G2.
  destruct (ReadArray 24 parse_schema _ e2) as [[[[bs ss]|] e3]| | |] eqn:X; cbn [obind] in H; try discriminate; pose proof (good_array _ _ _ _ _ _ _ X G2) as G3.
  2: injection H as _ <-; exact G3.
  destruct (ReadArray 8 le_val _ e3) as [[[[bo offs]|] e4]| | |] eqn:Y; cbn [obind] in H; try discriminate; pose proof (good_array _ _ _ _ _ _ _ Y G3) as G4.
  2: injection H as _ <-; exact G4.
  destruct (ReadArray 24 parse_reloc _ e4) as [[[[br rs]|] e5]| | |] eqn:W; cbn [obind] in H; try discriminate; pose proof (good_array _ _ _ _ _ _ _ W G4) as G5.
  2: injection H as _ <-; exact G5.
  destruct (patch_all _ _ _ _ _ _ _ _) as [i| | |]; cbn [obind] in H; try discriminate.
  destruct (free e5 br) as [e6| | |] eqn:F6; cbn [obind] in H; try discriminate. destruct (free e6 bo) as [e7| | |] eqn:F7; cbn [obind] in H; try discriminate.
  destruct (free e7 bs) as [e8| | |] eqn:F8; cbn [obind] in H; try discriminate. injection H as _ <-. eauto using good_free.
Qed.
(* how a Load leaves the live blocks *)
Lemma load_live : forall addr e r e', Forall is_byte (e_file e) -> good e -> LoadMemoryMappedDatabase addr e = Ok (r, e') ->
  match r with
  | Some (b, _) => b = e_next e /\ e_live e' = e_live e ++ [b]
  | None => e_live e' = e_live e ++ leaked (e_next e) (e_file e)
  end.
Proof.
  intros addr e r e' B [_ G] H. destruct (load_any addr e B G) as [[X1 [f' X]]|[[_ [_ [f' [n X]]]]|[X1 [X2 [X3 [[img X]|[X|[X|X]]]]]]]]; rewrite X in H; try discriminate.
  - injection H as <- <-. cbn [e_live]. unfold leaked. destruct (Z.ltb_spec (zlen (e_file e)) 32); [rewrite app_nil_r; reflexivity|].
    destruct (list_eq_dec Z.eq_dec (firstn 12 (e_file e)) magic) as [E|E]; [exfalso; destruct X1; [lia|contradiction]|]. cbn [negb]. rewrite app_nil_r. reflexivity.
  - injection H as <- <-. reflexivity.
  - injection H as <- <-. split; reflexivity.
Qed.
Lemma leaked_header : forall b f, zlen f < 32 \/ firstn 12 f <> magic -> leaked b f = [].
Proof.
  intros b f H. unfold leaked. destruct (Z.ltb_spec (zlen f) 32); [reflexivity|]. destruct (list_eq_dec Z.eq_dec (firstn 12 f) magic) as [E|E]; [|reflexivity].
  destruct H as [H|H]; [lia|contradiction].
Qed.
Lemma free_live : forall e b, good e -> In b (e_live e) -> exists e', free e b = Ok e' /\ e_next e' = e_next e /\ Permutation (e_live e) (b :: e_live e').
Proof.
  intros e b [G _] I. unfold free. replace (existsb (Z.eqb b) (e_live e)) with true by (symmetry; apply existsb_exists; exists b; split; [exact I|apply Z.eqb_refl]).
  eexists. split; [reflexivity|]. split; [reflexivity|]. cbn [e_live]. clear - G I. revert G I. generalize (e_live e). induction l as [|x l IH]; intros G I; [destruct I|].
  inversion G as [|? ? N G']; subst. cbn [filter]. destruct (Z.eqb_spec x b) as [->|NE]; cbn [negb].
  - apply perm_skip. clear - N. induction l as [|y l IH]; [constructor|]. cbn [filter]. destruct (Z.eqb_spec y b) as [->|NE]; [exfalso; apply N; left; reflexivity|]. cbn [negb]. apply perm_skip. apply IH. intros H. apply N. right. exact H.
  - destruct I as [I|I]; [contradiction|]. rewrite (IH G' I) at 1. apply perm_swap.
Qed.

(* ---- the objects ---- *)
Definition unique (os : zmap object) : Prop := NoDup (map fst os).
Lemma find_in : forall os (k : Z) (o : object), unique os -> In (k, o) os -> m_find k os = Some o.
Proof.
  induction os as [|[k' v] os IH]; intros k o U I; [destruct I|]. inversion U as [|? ? N U']; subst. cbn [m_find]. destruct I as [I|I].
  - injection I as -> ->. rewrite Z.eqb_refl. reflexivity.
  - destruct (Z.eqb_spec k' k) as [->|NE]; [|apply IH; assumption]. exfalso. apply N. apply in_map_iff. exists (k, o). split; [reflexivity|exact I].
Qed.
Lemma update_fst : forall os (k : Z) (o : object), map fst (m_update k o os) = map fst os.
Proof. induction os as [|[k' v] os IH]; intros k o; [reflexivity|]. cbn [m_update]. destruct (k' =? k); [reflexivity|]. cbn [map]. rewrite IH. reflexivity. Qed.
Lemma update_blocks : forall a os (k : Z) o o', m_find k os = Some o -> o_mem o = None -> Permutation (blocks a (m_update k o' os)) (block_of a o' ++ blocks a os).
Proof.
  intros a. induction os as [|[k' v] os IH]; intros k o o' F N; [discriminate F|]. cbn [m_find] in F. cbn [m_update]. destruct (k' =? k).
  - injection F as ->. unfold blocks. cbn [flat_map snd]. replace (block_of a o) with (@nil Z) by (unfold block_of; rewrite N; reflexivity). reflexivity.
  - unfold blocks in *. cbn [flat_map snd]. rewrite (IH k o o' F N). rewrite !app_assoc. apply Permutation_app_tail. apply Permutation_app_comm.
Qed.
Lemma remove_blocks : forall a os (k : Z) o, unique os -> m_find k os = Some o -> Permutation (blocks a os) (block_of a o ++ blocks a (filter (fun x => negb (fst x =? k)) os)).
Proof.
  intros a. induction os as [|[k' v] os IH]; intros k o U F; [discriminate F|]. inversion U as [|? ? N U']; subst. cbn [m_find] in F. cbn [filter fst]. destruct (Z.eqb_spec k' k) as [->|NE]; cbn [negb].
  - injection F as ->. unfold blocks. cbn [flat_map snd]. apply Permutation_app_head. replace (filter _ os) with os; [reflexivity|]. clear - N. induction os as [|[k' v] os IH]; [reflexivity|].
    cbn [filter fst]. destruct (Z.eqb_spec k' k) as [->|NE]; [exfalso; apply N; left; reflexivity|]. cbn [negb]. rewrite <- IH; [reflexivity|]. intros H. apply N. right. exact H.
  - unfold blocks in *. cbn [flat_map snd]. rewrite (IH k o U' F) at 1. rewrite !app_assoc. apply Permutation_app_tail. apply Permutation_app_comm.
Qed.
Lemma remove_unique : forall os (k : Z), unique os -> unique (filter (fun x => negb (fst x =? k)) os).
Proof.
  induction os as [|[k' v] os IH]; intros k U; [constructor|]. inversion U as [|? ? N U']; subst. cbn [filter fst]. destruct (k' =? k); cbn [negb]; [apply IH; exact U'|].
  constructor; [|apply IH; exact U']. intros H. apply N. apply in_map_iff in H. destruct H as (x & E & H). apply filter_In in H. apply in_map_iff. exists x. tauto.
Qed.

(* ---- histories ---- *)
(* what holds at every point; lost are the blocks of failed loads *)
Definition holds (w0 w : world) (lost : Z -> list Z) : Prop :=
  unique (w_objects w) /\ (forall a, good (env_of w a [])) /\ forall a, Permutation (w_live w a) (w_live w0 a ++ blocks a (w_objects w) ++ lost a).
Lemma set_same : forall T (f : Z -> T) a v, set f a v a = v.
Proof. intros. unfold set. rewrite Z.eqb_refl. reflexivity. Qed.
Lemma set_other : forall T (f : Z -> T) a v x, x <> a -> set f a v x = f x.
Proof. intros T f a v x H. unfold set. destruct (Z.eqb_spec x a); [contradiction|reflexivity]. Qed.
Lemma block_other : forall a o, o_alloc o <> a -> block_of a o = [].
Proof. intros a [[[b m]|] x] H; [|reflexivity]. unfold block_of. cbn [o_mem o_alloc] in *. destruct (Z.eqb_spec x a); [contradiction|reflexivity]. Qed.

Lemma step_holds : forall addr w0 w lost c w' r, file_of_bytes c -> holds w0 w lost -> step addr w c = Ok (w', r) ->
  exists lost', holds w0 w' lost' /\ (not_cut c r -> forall a, lost' a = lost a).
Proof.
  intros addr w0 w lost c w' r B (U & G & P) H. destruct c as [this|this a file to options|this]; cbn [step] in H.
  - destruct (m_find this (w_objects w)) eqn:F; [discriminate|]. injection H as <- _. exists lost. split; [|reflexivity]. split; [|split; [exact G|]].
    + cbn [w_objects]. constructor; [|exact U]. intros I. apply in_map_iff in I. destruct I as ([k o] & E & I). cbn [fst] in E. subst k. rewrite (find_in _ _ _ U I) in F. discriminate F.
    + intros a. cbn [w_objects w_live]. rewrite P. reflexivity.
  - destruct (m_find this (w_objects w)) as [o|] eqn:F; [|discriminate]. unfold LoadObject in H. destruct (o_mem o) eqn:N; [discriminate H|]. cbn [assert obind] in H.
    destruct (LoadMemoryMappedDatabase (addr a) (env_of w a file)) as [[[[b img]|] e]| | |] eqn:X; cbn [obind] in H; try discriminate.
    + pose proof (load_live (addr a) (env_of w a file) _ _ B (G a) X) as [-> LV]. pose proof (good_load _ _ _ _ X (G a)) as GE. destruct (FinishLoad _ _ _ _ _) as [mem| | |]; cbn [obind] in H; try discriminate. injection H as <- <-.
      exists lost. split; [|reflexivity]. split; [|split].
      * unfold unique, with_env. cbn [w_objects]. rewrite update_fst. exact U.
      * intros x. unfold env_of, with_env. cbn [w_next w_live]. destruct (Z.eq_dec x a) as [->|NE]; [rewrite !set_same; exact GE|rewrite !set_other by exact NE; exact (G x)].
      * intros x. unfold with_env. cbn [w_live w_objects]. rewrite (update_blocks x _ _ _ _ F N). destruct (Z.eq_dec x a) as [->|NE].
        -- rewrite set_same, LV. cbn [env_of e_next e_live]. unfold block_of. cbn [o_mem o_alloc]. rewrite Z.eqb_refl. rewrite P. rewrite <- Permutation_cons_append. cbn [app]. rewrite <- Permutation_middle. reflexivity.
        -- rewrite set_other by exact NE. rewrite (block_other x) by (cbn [o_alloc]; congruence). apply P.
    + pose proof (load_live (addr a) (env_of w a file) _ _ B (G a) X) as LV. cbn beta iota in LV. pose proof (good_load _ _ _ _ X (G a)) as GE. injection H as <- <-.
      exists (set lost a (lost a ++ leaked (w_next w a) file)). split.
      * split; [|split].
        -- unfold unique, with_env. cbn [w_objects]. rewrite update_fst. exact U.
        -- intros x. unfold env_of, with_env. cbn [w_next w_live]. destruct (Z.eq_dec x a) as [->|NE]; [rewrite !set_same; exact GE|rewrite !set_other by exact NE; exact (G x)].
        -- intros x. unfold with_env. cbn [w_live w_objects]. rewrite (update_blocks x _ _ _ _ F N). unfold block_of at 1. cbn [o_mem app]. destruct (Z.eq_dec x a) as [->|NE].
           ++ rewrite !set_same, LV. cbn [env_of e_next e_live e_file]. rewrite P at 1. rewrite <- !app_assoc. reflexivity.
           ++ rewrite !set_other by exact NE. apply P.
      * intros [NC|NC] x; [discriminate NC|]. destruct (Z.eq_dec x a) as [->|NE]; [rewrite set_same, (leaked_header _ _ NC), app_nil_r; reflexivity|apply set_other; exact NE].
  - destruct (m_find this (w_objects w)) as [o|] eqn:F; [|discriminate]. unfold DestructObject in H. destruct (o_mem o) as [[b m]|] eqn:N.
    + assert (I : In b (w_live w (o_alloc o))).
      { apply (Permutation_in b (Permutation_sym (P (o_alloc o)))). apply in_or_app. right. apply in_or_app. left. apply (Permutation_in b (Permutation_sym (remove_blocks _ _ _ _ U F))). apply in_or_app. left. unfold block_of. rewrite N, Z.eqb_refl. left. reflexivity. }
      destruct (free_live (env_of w (o_alloc o) []) b (G _) I) as (e & FR & EN & PE). rewrite FR in H. cbn [obind] in H. injection H as <- _. exists lost. split; [|reflexivity]. split; [|split].
      * apply remove_unique. exact U.
      * intros x. unfold env_of, with_env. cbn [w_next w_live]. destruct (Z.eq_dec x (o_alloc o)) as [->|NE]; [rewrite !set_same; exact (good_free _ _ _ FR (G _))|rewrite !set_other by exact NE; exact (G x)].
      * intros x. unfold with_env. cbn [w_live w_objects]. pose proof (remove_blocks x _ _ _ U F) as RB. destruct (Z.eq_dec x (o_alloc o)) as [->|NE].
        -- rewrite set_same. apply (Permutation_cons_inv (a := b)). rewrite <- PE. cbn [env_of e_live]. rewrite P, RB. unfold block_of. rewrite N, Z.eqb_refl. cbn [app]. rewrite <- Permutation_middle. reflexivity.
        -- rewrite set_other by exact NE. rewrite P, RB. rewrite (block_other x) by congruence. reflexivity.
    + cbn [obind] in H. injection H as <- _. exists lost. split; [|reflexivity]. split; [apply remove_unique; exact U|]. split; [exact G|]. intros x. cbn [w_live w_objects]. rewrite P, (remove_blocks x _ _ _ U F). unfold block_of at 1. rewrite N. reflexivity.
Qed.
Lemma start_holds : forall w, fresh_start w -> holds w w (fun _ => []).
Proof. intros w [E G]. split; [unfold unique; rewrite E; constructor|]. split; [exact G|]. intros a. rewrite E. cbn [blocks flat_map app]. rewrite app_nil_r. reflexivity. Qed.
Lemma run_holds : forall addr w0 cs w lost w' rs, Forall file_of_bytes cs -> holds w0 w lost -> run addr w cs = Ok (w', rs) ->
  exists lost', holds w0 w' lost' /\ (Forall2 not_cut cs rs -> forall a, lost' a = lost a).
Proof.
  intros addr w0. induction cs as [|c cs IH]; intros w lost w' rs B I H; cbn [run] in H.
  - injection H as <- <-. exists lost. split; [exact I|reflexivity].
  - inversion B as [|? ? B1 B2]; subst. destruct (step addr w c) as [[w1 r]| | |] eqn:S; cbn [obind fst snd] in H; try discriminate. destruct (run addr w1 cs) as [[w2 rs']| | |] eqn:R; cbn [obind fst snd] in H; try discriminate.
    injection H as <- <-. destruct (step_holds _ _ _ _ _ _ _ B1 I S) as (l1 & I1 & E1). destruct (IH _ _ _ _ B2 I1 R) as (l2 & I2 & E2). exists l2. split; [exact I2|]. intros F a. inversion F; subst. rewrite E2, E1 by assumption. reflexivity.
Qed.
Lemma history_holds : forall addr w0 cs rs w, history addr w0 cs rs w -> exists lost, holds w0 w lost /\ (Forall2 not_cut cs rs -> forall a, lost a = []).
Proof. intros addr w0 cs rs w (S & B & R). exact (run_holds _ _ _ _ _ _ _ B (start_holds _ S) R). Qed.

(* an object keeps what it has until it is destroyed *)
Lemma find_update_other : forall os (k k' : Z) (o : object), k' <> k -> m_find k (m_update k' o os) = m_find k os.
Proof.
  induction os as [|[x v] os IH]; intros k k' o N; [reflexivity|]. cbn [m_update]. destruct (Z.eqb_spec x k') as [->|NE]; cbn [m_find].
  - destruct (Z.eqb_spec k' k); [contradiction|reflexivity].
  - rewrite IH by exact N. reflexivity.
Qed.
Lemma find_remove_other : forall (os : zmap object) (k k' : Z), k' <> k -> m_find k (filter (fun x => negb (fst x =? k')) os) = m_find k os.
Proof.
  induction os as [|[x v] os IH]; intros k k' N; [reflexivity|]. cbn [filter fst]. destruct (Z.eqb_spec x k') as [->|NE]; cbn [negb m_find].
  - rewrite IH by exact N. destruct (Z.eqb_spec k' k); [contradiction|reflexivity].
  - rewrite IH by exact N. reflexivity.
Qed.
Lemma step_keeps : forall addr w c w' r this o, m_find this (w_objects w) = Some o -> o_mem o <> None -> c <> Destruct this -> step addr w c = Ok (w', r) -> m_find this (w_objects w') = Some o.
Proof.
  intros addr w c w' r this o F N D H. destruct c as [k|k a file to options|k]; cbn [step] in H.
  - destruct (m_find k (w_objects w)) eqn:K; [discriminate|]. injection H as <- _. cbn [w_objects m_find]. destruct (Z.eqb_spec k this) as [->|]; [congruence|exact F].
  - destruct (m_find k (w_objects w)) as [o'|] eqn:K; [|discriminate]. unfold LoadObject in H. destruct (o_mem o') eqn:N'; [discriminate H|]. cbn [assert obind] in H. assert (NE : k <> this) by (intros ->; congruence).
    destruct (LoadMemoryMappedDatabase _ _) as [[[[b img]|] e]| | |]; cbn [obind] in H; try discriminate; [destruct (FinishLoad _ _ _ _ _); cbn [obind] in H; try discriminate|]; injection H as <- _; unfold with_env; cbn [w_objects]; rewrite find_update_other by exact NE; exact F.
  - destruct (m_find k (w_objects w)) as [o'|] eqn:K; [|discriminate]. assert (NE : k <> this) by (intros ->; contradiction). unfold DestructObject in H.
    destruct (o_mem o') as [[b m]|]; [destruct (free _ _); cbn [obind] in H; try discriminate|]; cbn [obind] in H; injection H as <- _; cbn [with_env w_objects]; rewrite find_remove_other by exact NE; exact F.
Qed.
Lemma run_keeps : forall addr cs w w' rs this o, m_find this (w_objects w) = Some o -> o_mem o <> None -> ~ In (Destruct this) cs -> run addr w cs = Ok (w', rs) -> m_find this (w_objects w') = Some o.
Proof.
  intros addr. induction cs as [|c cs IH]; intros w w' rs this o F N D H; cbn [run] in H; [injection H as <- _; exact F|].
  destruct (step addr w c) as [[w1 r]| | |] eqn:S; cbn [obind fst snd] in H; try discriminate. destruct (run addr w1 cs) as [[w2 rs']| | |] eqn:R; cbn [obind fst snd] in H; try discriminate. injection H as <- _.
  apply (IH w1 w2 rs' this o); [|exact N|intros I; apply D; right; exact I|exact R]. apply (step_keeps addr w c w1 r); [exact F|exact N|intros ->; apply D; left; reflexivity|exact S].
Qed.
Lemma find_update_same : forall os (k : Z) (o o' : object), m_find k os = Some o -> m_find k (m_update k o' os) = Some o'.
Proof.
  induction os as [|[x v] os IH]; intros k o o' F; [discriminate F|]. cbn [m_find m_update] in *. destruct (x =? k) eqn:E; cbn [m_find]; rewrite E; [reflexivity|]. exact (IH _ _ _ F).
Qed.
Lemma loaded_lives : forall L fuel db P, reaches_loaded L fuel db P -> lives_loaded L fuel db P.
Proof.
  intros L fuel db P (e & EX & H). exists e. split; [exact EX|]. intros heap pad fb start relpad HO S0 S1 RP. destruct (H heap pad fb start relpad HO S0 S1 RP) as (file & SV & LD). exists file. split; [exact SV|].
  intros addr w0 cs rs w this o a rest to options HI IN N A0 A1. destruct (history_holds _ _ _ _ _ HI) as (lost & (U & G & _) & _). pose proof (find_in _ _ _ U IN) as F.
  destruct (LD (addr a) rest (w_next w a) (w_live w a) A0 A1 (proj2 (G a))) as (before & LM & FIN). destruct (FIN this to options) as (mem & FL & PM).
  eexists. exists before, mem. split; [|split; [exact PM|]].
  - cbn [step]. rewrite F. unfold LoadObject. rewrite N. cbn [assert obind]. unfold env_of. rewrite LM. cbn [obind]. rewrite FL. cbn [obind]. reflexivity.
  - intros later w'' rs' D R. apply m_find_In. refine (run_keeps addr later _ _ _ _ _ _ _ D R); [|discriminate]. unfold with_env. cbn [w_objects]. exact (find_update_same _ _ _ _ F).
Qed.
