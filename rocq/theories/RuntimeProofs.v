(* Specifications and lemmas for RuntimeModel.v *)
From Verif Require Import Base BaseProofs RuntimeModel.
From Coq Require Import Relations.
Ltac Zify.zify_post_hook ::= Z.div_mod_to_equations.

(* ---- inheritance ---- *)
(* t lists b as an immediate base *)
Definition base_of (g : list type) (t b : Z) : Prop :=
  exists ty, znth g t = Some ty /\ In b (ty_bases ty).
(* one or more inheritance steps *)
Definition ancestor (g : list type) : Z -> Z -> Prop := clos_trans_1n Z (base_of g).
Definition well_formed (g : list type) : Prop :=
  forall t b, base_of g t b -> 0 <= b < zlen g.
Definition acyclic (g : list type) : Prop := forall t, ~ ancestor g t t.

Lemma ancestor_trans : forall g a b c, ancestor g a b -> ancestor g b c -> ancestor g a c.
Proof.
  intros g a b c H1 H2. apply clos_trans_t1n. apply t_trans with b; apply clos_t1n_trans; assumption.
Qed.

Lemma immediate_base_ok : forall g h bases, (forall b, In b bases -> 0 <= b < zlen g) ->
  exists r, immediate_base g bases h = Ok r /\
    (r = true <-> exists b bt, In b bases /\ znth g b = Some bt /\ ty_hash bt = h).
Proof.
  intros g h. induction bases as [|b rest IH]; intros Hwf; cbn [immediate_base].
  - exists false. split; [reflexivity|]. split; [discriminate|]. intros [b [bt [[] _]]].
  - destruct (znth_in _ g b (Hwf b (or_introl eq_refl))) as [bt Hbt].
    unfold rd. rewrite Hbt. cbn [obind].
    destruct (Z.eqb_spec (ty_hash bt) h) as [E|E].
    + exists true. split; [reflexivity|]. split; [|auto]. intros _. exists b, bt. split; [left; auto|auto].
    + destruct IH as [r [Hr Hiff]]; [intros b' Hb'; apply Hwf; right; auto|].
      exists r. split; [exact Hr|]. rewrite Hiff. split.
      * intros [b' [bt' [Hin [H1 H2]]]]. exists b', bt'. split; [right; auto|auto].
      * intros [b' [bt' [[<-|Hin] [H1 H2]]]]; [congruence|]. exists b', bt'. auto.
Qed.

Definition has_ancestor (g : list type) (t h : Z) : Prop :=
  exists a at', ancestor g t a /\ znth g a = Some at' /\ ty_hash at' = h.

Lemma derives_gen : forall g h, well_formed g -> acyclic g ->
  forall fuel t vis, 0 <= t < zlen g -> NoDup vis ->
  (forall v, In v vis -> 0 <= v < zlen g /\ ancestor g v t) ->
  (length g < fuel + length vis)%nat ->
  exists r, DerivesFrom fuel g t h = Ok r /\ (r = true <-> has_ancestor g t h).
Proof.
  intros g h Hwf Hac. induction fuel as [|fuel IH]; intros t vis Ht Hnd Hvis Hfuel.
  - exfalso. assert (Hincl : incl (map Z.to_nat vis) (seq 0 (length g))).
    { intros n Hn. apply in_map_iff in Hn. destruct Hn as [v [<- Hv]]. destruct (Hvis v Hv) as [Hr _].
      unfold zlen in Hr. apply in_seq. lia. }
    assert (Hnd2 : NoDup (map Z.to_nat vis)).
    { clear - Hnd Hvis. induction vis as [|v vis IH]; cbn; constructor.
      - intros Hin. apply in_map_iff in Hin. destruct Hin as [w [Hw Hin]].
        pose proof (Hvis v (or_introl eq_refl)). pose proof (Hvis w (or_intror Hin)).
        assert (v = w) by lia. subst w. inversion Hnd. auto.
      - apply IH; [inversion Hnd; auto|]. intros w Hw. apply Hvis. right; auto. }
    pose proof (NoDup_incl_length Hnd2 Hincl) as Hlen. rewrite map_length, seq_length in Hlen. lia.
  - cbn [DerivesFrom]. destruct (znth_in _ g t Ht) as [ty Hty]. unfold rd at 1. rewrite Hty. cbn [obind].
    assert (Hb : forall b, In b (ty_bases ty) -> 0 <= b < zlen g).
    { intros b Hin. apply (Hwf t b). exists ty. auto. }
    destruct (immediate_base_ok g h (ty_bases ty) Hb) as [r [Hr Hiff]]. rewrite Hr. cbn [obind].
    destruct r.
    + exists true. split; [reflexivity|]. split; [|auto]. intros _.
      destruct (proj1 Hiff eq_refl) as [b [bt [Hin [H1 H2]]]].
      exists b, bt. split; [|auto]. apply t1n_step. exists ty. auto.
    + assert (Hno : forall b bt, In b (ty_bases ty) -> znth g b = Some bt -> ty_hash bt <> h).
      { intros b bt H1 H2 H3. assert (false = true) by (apply Hiff; exists b, bt; auto). discriminate. }
      assert (Hrec : forall b, In b (ty_bases ty) ->
        exists r, DerivesFrom fuel g b h = Ok r /\ (r = true <-> has_ancestor g b h)).
      { intros b Hin. apply (IH b (t :: vis)).
        - auto.
        - constructor; [|exact Hnd]. intros Hin2. destruct (Hvis t Hin2) as [_ Hcyc]. exact (Hac t Hcyc).
        - intros v [<-|Hv].
          + split; [exact Ht|]. apply t1n_step. exists ty. auto.
          + destruct (Hvis v Hv) as [H1 H2]. split; [exact H1|].
            eapply ancestor_trans; [exact H2|]. apply t1n_step. exists ty. auto.
        - cbn [length]. lia. }
      assert (Hloop : exists r, (fix up (bases : list Z) : outcome bool :=
           match bases with
           | [] => Ok false
           | b :: rest =>
               do r <- DerivesFrom fuel g b h;
               if r then Ok true else up rest
           end) (ty_bases ty) = Ok r /\ (r = true <-> exists b, In b (ty_bases ty) /\ has_ancestor g b h)).
      { clear - Hrec. induction (ty_bases ty) as [|b rest IHb].
        - exists false. split; [reflexivity|]. split; [discriminate|]. intros [b [[] _]].
        - destruct (Hrec b (or_introl eq_refl)) as [r [Hr Hiff]]. rewrite Hr. cbn [obind].
          destruct r.
          + exists true. split; [reflexivity|]. split; [|auto]. intros _. exists b. split; [left; auto|tauto].
          + destruct IHb as [r [Hr2 Hiff2]]; [intros b' Hb'; apply Hrec; right; auto|].
            exists r. split; [exact Hr2|]. rewrite Hiff2. split.
            * intros [b' [Hin Ha]]. exists b'. split; [right|]; auto.
            * intros [b' [[<-|Hin] Ha]]; [|exists b'; auto]. apply Hiff in Ha. discriminate. }
      destruct Hloop as [r [Hr2 Hiff2]]. exists r. split; [exact Hr2|]. rewrite Hiff2. split.
      * intros [b [Hin [a [at' [Ha [H1 H2]]]]]]. exists a, at'. split; [|auto].
        eapply Relation_Operators.t1n_trans; [exists ty; split; [exact Hty|exact Hin]|exact Ha].
      * intros [a [at' [Ha [H1 H2]]]]. inversion Ha as [y Hy|y z Hy Hz]; subst.
        -- exfalso. destruct Hy as [ty' [Hty' Hin]]. assert (ty' = ty) by congruence. subst ty'.
           eapply Hno; eauto.
        -- destruct Hy as [ty' [Hty' Hin]]. assert (ty' = ty) by congruence. subst ty'.
           exists y. split; [exact Hin|]. exists a, at'. auto.
Qed.

Lemma derives_ok : forall g h fuel t, well_formed g -> acyclic g -> 0 <= t < zlen g ->
  (length g < fuel)%nat ->
  exists r, DerivesFrom fuel g t h = Ok r /\ (r = true <-> has_ancestor g t h).
Proof.
  intros g h fuel t Hwf Hac Ht Hfuel. apply (derives_gen g h Hwf Hac fuel t []); auto.
  - constructor.
  - intros v [].
  - cbn. lia.
Qed.

(* a rank that decreases along bases makes a graph acyclic *)
Lemma rank_acyclic : forall g (rank : Z -> Z),
  (forall t b, base_of g t b -> rank b < rank t) -> acyclic g.
Proof.
  intros g rank H t Hc.
  assert (forall a b, ancestor g a b -> rank b < rank a) as Hr.
  { intros a b Ha. induction Ha as [a b Hab|a b c Hab Hbc IH]; [auto|]. specialize (H a b Hab). lia. }
  specialize (Hr t t Hc). lia.
Qed.

Lemma cyclic_never_returns : forall fuel h, h <> 5 ->
  DerivesFrom fuel [mk_type 5 [0]] 0 h = Fuel.
Proof.
  induction fuel as [|fuel IH]; intros h Hh; [reflexivity|].
  cbn [DerivesFrom]. change (rd [mk_type 5 [0]] 0) with (Ok (mk_type 5 [0])). cbn [obind ty_bases immediate_base].
  change (rd [mk_type 5 [0]] 0) with (Ok (mk_type 5 [0])). cbn [obind ty_hash].
  destruct (Z.eqb_spec 5 h); [lia|]. cbn [obind]. rewrite IH by auto. reflexivity.
Qed.

(* ---- enum value names ---- *)
Lemma value_name_some : forall N (cs : list (N * Z)) v n,
  GetValueName cs v = Some n <->
  exists pre post, cs = pre ++ (n, v) :: post /\ forall c, In c pre -> snd c <> v.
Proof.
  intros N cs v n. induction cs as [|[m w] cs IH]; cbn [GetValueName].
  - split; [discriminate|]. intros [pre [post [H _]]]. destruct pre; discriminate.
  - destruct (Z.eqb_spec w v) as [->|Hne].
    + split.
      * intros H. inversion H; subst. exists [], cs. split; [reflexivity|]. intros c [].
      * intros [pre [post [H Hp]]]. destruct pre as [|p pre]; cbn in H.
        -- inversion H. reflexivity.
        -- inversion H; subst. exfalso. apply (Hp (m, v) (or_introl eq_refl)). reflexivity.
    + rewrite IH. split.
      * intros [pre [post [-> Hp]]]. exists ((m, w) :: pre), post. split; [reflexivity|].
        intros c [<-|Hc]; [exact Hne|auto].
      * intros [pre [post [H Hp]]]. destruct pre as [|p pre]; cbn in H.
        -- inversion H; subst. congruence.
        -- inversion H; subst. exists pre, post. split; [reflexivity|]. intros c Hc. apply Hp. right; auto.
Qed.

Lemma value_name_none : forall N (cs : list (N * Z)) v,
  GetValueName cs v = None <-> forall c, In c cs -> snd c <> v.
Proof.
  intros N cs v. induction cs as [|[m w] cs IH]; cbn [GetValueName].
  - split; [intros _ c []|reflexivity].
  - destruct (Z.eqb_spec w v) as [->|Hne].
    + split; [discriminate|]. intros H. exfalso. apply (H (m, v) (or_introl eq_refl)). reflexivity.
    + rewrite IH. split.
      * intros H c [<-|Hc]; [exact Hne|auto].
      * intros H c Hc. apply H. right; auto.
Qed.

(* ---- rebasing ---- *)
Lemma rebase_ok : forall fb base l i a, znth l i = Some a ->
  znth (RebaseFunctions fb base l) i =
    Some (if a =? 0 then 0 else (a - fb + base) mod 2 ^ 64).
Proof.
  intros fb base l i a H. unfold RebaseFunctions. rewrite znth_map, H. cbn [option_map].
  f_equal. unfold rebase_address. change (2 ^ 64) with 18446744073709551616.
  destruct (Z.eqb_spec a 0); [lia|]. unfold u64. rewrite Z.add_mod_idemp_l by lia. reflexivity.
Qed.

Lemma map_const_Forall : forall (db : Z) (l : list Z), Forall (fun o => o = db) (set_owner db l).
Proof. intros. unfold set_owner. apply Forall_forall. intros x H. apply in_map_iff in H. destruct H as [y [<- _]]. reflexivity. Qed.

(* ---- array iterators ---- *)
Lemma read_n_ok : forall n base es pos size, 0 < es -> 0 <= pos ->
  pos + Z.of_nat n * es <= size -> size < 2 ^ 64 ->
  read_n n (mk_iter base es pos size) =
    Ok (map (fun i => (base + pos + Z.of_nat i * es) mod 2 ^ 64) (seq 0 n),
        mk_iter base es (pos + Z.of_nat n * es) size).
Proof.
  change (2 ^ 64) with 18446744073709551616.
  induction n as [|n IH]; intros base es pos size Hes Hpos Hle Hsz.
  - cbn [read_n seq map]. do 3 f_equal. lia.
  - cbn [read_n]. unfold array_get at 1. cbn [it_pos it_size it_data].
    replace (pos <? size) with true by nia. cbn [assert obind].
    unfold array_next. cbn [it_data it_esize it_pos it_size].
    assert (E : u64 (pos + es) = pos + es) by (unfold u64; apply Z.mod_small; nia).
    rewrite E, IH by nia. cbn [obind fst snd]. do 2 f_equal.
    + cbn [seq map]. f_equal; [unfold u64; f_equal; lia|].
      rewrite <- seq_shift, map_map. apply map_ext. intros i. f_equal. lia.
    + f_equal. lia.
Qed.

Lemma write_n_read_n : forall n it, write_n n it = read_n n it.
Proof.
  induction n as [|n IH]; intros it; [reflexivity|]. cbn [write_n read_n]. unfold array_add_empty.
  destruct (array_get it); cbn [obind fst snd]; auto. rewrite IH. reflexivity.
Qed.

Definition elem_size (f : array_field) : Z := if af_is_ptr f then 8 else af_size f.

Lemma array_read_ok : forall f container,
  0 < container -> 0 < elem_size f -> 0 <= af_count f < 2 ^ 32 -> af_count f * elem_size f < 2 ^ 64 ->
  exists it it', array_init f container = Ok it /\
    read_n (Z.to_nat (af_count f)) it =
      Ok (map (fun i => (container + Z.of_nat i * elem_size f) mod 2 ^ 64) (seq 0 (Z.to_nat (af_count f))), it') /\
    array_get it' = Trap.
Proof.
  intros f container Hc Hes Hcnt Hsz. unfold array_init.
  destruct (Z.eqb_spec container 0); [lia|]. cbn [negb assert obind].
  fold (elem_size f).
  change (2 ^ 32) with 4294967296 in *.
  replace (u32 (af_count f)) with (af_count f) by (symmetry; apply Z.mod_small; lia).
  replace (u64 (af_count f * elem_size f)) with (af_count f * elem_size f)
    by (symmetry; unfold u64; apply Z.mod_small; split; [nia|exact Hsz]).
  eexists. eexists. split; [reflexivity|]. split.
  - rewrite read_n_ok by (try lia; rewrite Z2Nat.id; lia). f_equal.
    f_equal. apply map_ext. intros i. f_equal. lia.
  - unfold array_get. cbn [it_pos it_size]. rewrite Z2Nat.id by lia.
    destruct (Z.ltb_spec (0 + af_count f * elem_size f) (af_count f * elem_size f)); [lia|]. reflexivity.
Qed.

Lemma array_zero_size : forall f container, 0 < container -> elem_size f = 0 ->
  exists it, array_init f container = Ok it /\ array_get it = Trap.
Proof.
  intros f container Hc Hes. unfold array_init. destruct (Z.eqb_spec container 0); [lia|]. cbn [negb assert obind].
  fold (elem_size f). rewrite Hes, Z.mul_0_r. eexists. split; reflexivity.
Qed.

(* ---- wrapper life cycle ---- *)
Definition run_inits (init : wrapper -> init_arg -> outcome wrapper) (l : list init_arg) : outcome wrapper :=
  fold_left (fun ow a => do w <- ow; init w a) l (Ok w_new).

Lemma w_init_inv : forall w a w', w_init w a = Ok w' -> (w_flag w = true -> w_impl w = true) ->
  (w_flag w' = true -> w_impl w' = true).
Proof.
  intros w a w' H Hi. destruct a as [ci cd sz|ci]; cbn in H.
  - destruct ci; cbn in H; [|inversion H; subst; auto]. destruct cd; cbn in H; [|inversion H; subst; auto].
    destruct (sz <? 128); cbn in H; [|discriminate]. inversion H; subst. auto.
  - destruct ci; cbn in H; inversion H; subst; auto.
Qed.

Lemma run_w_inits_inv : forall l w0 w, (w_flag w0 = true -> w_impl w0 = true) ->
  fold_left (fun ow a => do w <- ow; w_init w a) l (Ok w0) = Ok w ->
  (w_flag w = true -> w_impl w = true).
Proof.
  induction l as [|a l IH]; intros w0 w Hi H; cbn [fold_left] in H.
  - inversion H; subst; auto.
  - cbn [obind] in H. destruct (w_init w0 a) as [w1| | |] eqn:E.
    + eapply IH; [|exact H]. eapply w_init_inv; eauto.
    + exfalso. clear - H. induction l; cbn in H; [discriminate|auto].
    + exfalso. clear - H. induction l; cbn in H; [discriminate|auto].
    + exfalso. clear - H. induction l; cbn in H; [discriminate|auto].
Qed.

Lemma write_iterator_destroy_ok : forall l w, run_inits w_init l = Ok w -> w_destroy w = Ok tt.
Proof.
  intros l w H. unfold run_inits in H.
  pose proof (run_w_inits_inv l w_new w ltac:(discriminate) H) as Hi.
  unfold w_destroy. destruct (w_flag w); [|reflexivity]. rewrite Hi by reflexivity. reflexivity.
Qed.

Definition initialisable (a : init_arg) : bool :=
  match a with InitType ci cd sz => ci && cd | InitField ci => ci end.
Lemma read_iterator_destroy_iff : forall l w, run_inits r_init l = Ok w ->
  (r_destroy w = Ok tt <-> exists a, In a l /\ initialisable a = true).
Proof.
  intros l w. unfold run_inits.
  assert (G : forall l w0 w, fold_left (fun ow a => do w <- ow; r_init w a) l (Ok w0) = Ok w ->
    w_impl w = w_impl w0 || existsb initialisable l).
  { clear. induction l as [|a l IH]; intros w0 w H; cbn [fold_left] in H.
    - inversion H; subst. cbn. rewrite orb_false_r. reflexivity.
    - cbn [obind] in H. destruct (r_init w0 a) as [w1| | |] eqn:E;
        try (exfalso; clear - H; induction l; cbn in H; [discriminate|auto]).
      apply IH in H. rewrite H. cbn [existsb]. rewrite orb_assoc. f_equal.
      destruct a as [ci cd sz|ci]; cbn in E.
      + destruct ci; cbn in E; [|inversion E; subst; cbn; rewrite orb_false_r; reflexivity].
        destruct cd; cbn in E; [|inversion E; subst; cbn; rewrite orb_false_r; reflexivity].
        destruct (sz <? 128); cbn in E; [|discriminate]. inversion E; subst. cbn. rewrite orb_true_r. reflexivity.
      + destruct ci; cbn in E; inversion E; subst; cbn.
        * destruct (w_impl w0); reflexivity.
        * destruct (w_impl w1); reflexivity. }
  intros H. apply G in H. cbn [w_impl w_new orb] in H. unfold r_destroy. rewrite H.
  destruct (existsb initialisable l) eqn:E.
  - apply existsb_exists in E. split; auto.
  - split; [discriminate|]. intros [a Ha]. assert (existsb initialisable l = true) by (apply existsb_exists; exists a; exact Ha). congruence.
Qed.
