From Coq Require Import Sorted.
From Verif Require Import Base BaseProofs DatabaseModel RuntimeModel VisitModel VisitSpec.

Section Proofs.
Variable E : list vtype.
Variable contents : nat -> Z -> nat * bool * list Z.
Variable what : visit_type.
Variable stop : Z.
Notation VF := (VisitField E contents what stop).
Notation parts := (parts E contents stop).
Notation found := (found E contents stop).
Notation visitable := (visitable E stop).
Notation to_visit := (to_visit E stop).
Notation vfv n v := (VF n (vi_object v) (vi_field v) (vi_type v) (vi_qual v)).

Lemma visit_all_app : forall A (f : A -> outcome (list visit)) a b, visit_all f (a ++ b) = do x <- visit_all f a; do y <- visit_all f b; Ok (x ++ y).
Proof.
  intros A f a b. induction a as [|x a IH]; cbn [app visit_all].
  - cbn [obind]. destruct (visit_all f b); reflexivity.
  - destruct (f x); cbn [obind]; try reflexivity. rewrite IH. destruct (visit_all f a); cbn [obind]; try reflexivity. destruct (visit_all f b); cbn [obind]; try reflexivity. rewrite app_assoc. reflexivity.
Qed.
Lemma visit_all_map : forall A B (g : A -> B) (f : B -> outcome (list visit)) l, visit_all f (map g l) = visit_all (fun a => f (g a)) l.
Proof. intros A B g f l. induction l as [|a l IH]; [reflexivity|]. cbn [map visit_all]. rewrite IH. reflexivity. Qed.
Lemma visit_all_flat : forall A B (g : A -> list B) (f : B -> outcome (list visit)) l, visit_all f (flat_map g l) = visit_all (fun a => visit_all f (g a)) l.
Proof. intros A B g f l. induction l as [|a l IH]; [reflexivity|]. cbn [flat_map visit_all]. rewrite visit_all_app, IH. reflexivity. Qed.
Lemma visit_all_ext : forall A (f g : A -> outcome (list visit)) l, (forall a, In a l -> f a = g a) -> visit_all f l = visit_all g l.
Proof. intros A f g l H. induction l as [|a l IH]; [reflexivity|]. cbn [visit_all]. rewrite (H a (or_introl eq_refl)), IH; [reflexivity|]. intros b Hb. apply H. right. exact Hb. Qed.

Lemma bind_id : forall (x y : outcome (list visit)), x = y -> x = do z <- y; Ok ([] ++ z).
Proof. intros x y ->. destruct y; reflexivity. Qed.
Lemma array_ok : forall f es k a i c, 0 < es -> 0 < a -> 0 <= i -> (i + Z.of_nat k) * es = c * es -> a + c * es <= 2 ^ 64 ->
  visit_array f k (mk_iter a es (i * es) (c * es)) = visit_all f (map (fun j => a + Z.of_nat j * es) (seq (Z.to_nat i) k)).
Proof.
  intros f es k. induction k as [|k IH]; intros a i c He Ha Hi Hc Hm; [reflexivity|]. cbn [visit_array seq map visit_all]. unfold array_get. cbn [it_pos it_size it_data].
  assert (Hik : i + Z.of_nat (S k) = c) by nia. replace (i * es <? c * es) with true by (symmetry; apply Z.ltb_lt; nia). cbn [assert obind].
  replace (u64 (a + i * es)) with (a + Z.of_nat (Z.to_nat i) * es) by (unfold u64; rewrite Z2Nat.id by lia; symmetry; apply Z.mod_small; nia).
  destruct (f (a + Z.of_nat (Z.to_nat i) * es)); cbn [obind]; try reflexivity. unfold array_next. cbn [it_data it_esize it_pos it_size].
  replace (u64 (i * es + es)) with ((i + 1) * es) by (unfold u64; symmetry; rewrite Z.mod_small; nia). rewrite (IH a (i + 1) c) by nia. replace (Z.to_nat (i + 1)) with (S (Z.to_nat i)) by lia. reflexivity.
Qed.

(* visiting is visiting the parts, when there is something to be visited *)
Definition own (v : visit) : list visit :=
  if stopped stop v then [] else if points (vi_qual v) then [v]
  else match nth_error E (vi_type v), what with
       | Some t, VFT_All => match vt_kind t with V_type | V_enum => [v] | _ => [] end
       | _, _ => []
       end.
Lemma visit_parts : forall n v, visitable v -> vfv (S n) v = do x <- visit_all (fun w => vfv n w) (parts v); Ok (own v ++ x).
Proof.
  intros n [o f ty q] Hv. unfold own, VisitSpec.parts, VisitSpec.visitable in *. cbn [vi_object vi_field vi_type vi_qual] in *. cbn [VisitField]. change (match f with Some f0 => negb (Z.land (vf_flags f0) stop =? 0) | None => false end) with (stopped stop (mk_visit o f ty q)).
  destruct (stopped stop (mk_visit o f ty q)); [reflexivity|]. unfold is_pointer_op, points in *. cbn [orb]. destruct (q_op q); try reflexivity.
  all: destruct (Hv eq_refl eq_refl) as [t [Ht Hk]]; unfold get_vtype; rewrite Ht; cbn [obind]; destruct (vt_kind t) as [| |fields|[[|]|]|] eqn:Ek; try contradiction; try (destruct what; reflexivity).
  all: replace (match what with VFT_All | _ => [] end) with (@nil visit) by (destruct what; reflexivity).
  2,5: destruct (contents ty o) as [[ct cp] values]; rewrite visit_all_map; apply bind_id; reflexivity.
  2,4: unfold bases_of; rewrite visit_all_map; apply bind_id; reflexivity.
  all: rewrite visit_all_app, visit_all_flat; unfold bases_of; rewrite visit_all_map; cbn [vi_object vi_field vi_type vi_qual].
  all: match goal with |- (do a <- visit_all ?g _; _) = _ => rewrite (visit_all_ext _ g (fun a => visit_all (fun w => VF n (vi_object w) (vi_field w) (vi_type w) (vi_qual w)) (held_by E o a))) end.
  1,3: match goal with |- (do a <- ?x; _) = _ => destruct x; cbn [obind]; try reflexivity end; unfold default_qual; match goal with |- (do b <- ?y; _) = _ => destruct y; cbn [obind]; reflexivity end.
  all: intros g Hg; specialize (Hk g); unfold held_by; destruct (vf_count g) as [c|] eqn:Ec; [|cbn [visit_all vi_object vi_field vi_type vi_qual]; match goal with |- ?x = _ => destruct x; cbn [obind]; try reflexivity; rewrite app_nil_r; reflexivity end].
  all: destruct (Hk c Hg eq_refl) as [K1 [K2 [K3 [K4 K5]]]]; destruct (nth_error E (vf_type g)) as [et|] eqn:Eg; [|apply nth_error_None in Eg; lia]; cbn [obind].
  all: unfold array_init; replace (negb (o + vf_offset g =? 0)) with true by lia; cbn [assert obind af_is_ptr af_size af_count].
  all: replace (u32 c) with c by (unfold u32; symmetry; apply Z.mod_small; lia); rewrite visit_all_map; cbn [vi_object vi_field vi_type vi_qual].
  all: assert (HS : size_in_array E g = if is_pointer_op (vf_qual g) then 8 else vt_size et) by (unfold size_in_array, points, is_pointer_op; rewrite Eg; destruct (q_op (vf_qual g)); reflexivity).
  all: change (match q_op (vf_qual g) with POINTER => true | _ => false end) with (is_pointer_op (vf_qual g)); rewrite <- HS.
  all: replace (u64 (c * size_in_array E g)) with (c * size_in_array E g) by (unfold u64; symmetry; apply Z.mod_small; nia).
  all: rewrite <- (Z.mul_0_l (size_in_array E g)) at 1; rewrite (array_ok _ (size_in_array E g) (Z.to_nat c) (o + vf_offset g) 0 c) by (lia || nia); reflexivity.
Qed.

(* paths from the front *)
Lemma found_cons : forall v i c path w, nth_error (parts v) i = Some c -> found c path w -> found v (i :: path) w.
Proof.
  intros v i c path w Hc H. induction H as [|path u j w H IH Hw].
  - change [i] with ([] ++ [i]). eapply found_part; [apply found_root|exact Hc].
  - change (i :: path ++ [j]) with ((i :: path) ++ [j]). eapply found_part; [exact IH|exact Hw].
Qed.
Lemma found_inv : forall v path w, found v path w -> path = [] /\ w = v \/ exists i p c, path = i :: p /\ nth_error (parts v) i = Some c /\ found c p w.
Proof.
  intros v path w H. induction H as [|path u j w H IH Hw]; [left; auto|]. right. destruct IH as [[-> ->]|[i [p [c [-> [Hc Hf]]]]]].
  - exists j, [], w. split; [reflexivity|]. split; [exact Hw|apply found_root].
  - exists i, (p ++ [j]), c. split; [reflexivity|]. split; [exact Hc|]. eapply found_part; [exact Hf|exact Hw].
Qed.
Lemma own_visit : forall v w, visitable v -> (In w (own v) <-> w = v /\ to_visit what v).
Proof.
  intros v w Hv. unfold own, VisitSpec.to_visit, VisitSpec.visitable in *. destruct (stopped stop v); [split; [intros []|intros [_ [H _]]; discriminate]|]. destruct (points (vi_qual v)).
  - cbn [In]. split; [intros [<-|[]]; auto|intros [-> _]; auto].
  - destruct (Hv eq_refl eq_refl) as [t [Ht _]]. rewrite Ht. split.
    + intros H. destruct what; [|contradiction]. destruct (vt_kind t) eqn:Ek; cbn in H; try contradiction; destruct H as [<-|[]]; (split; [reflexivity|]; split; [reflexivity|]; right; split; [reflexivity|]; split; [reflexivity|]; exists t; auto).
    + intros [Hw [_ [H|[Ha [_ [t0 [Ht0 Hk]]]]]]]; [discriminate|]. assert (t0 = t) by congruence. subst t0 w. rewrite Ha. destruct Hk as [Hk|Hk]; rewrite Hk; left; reflexivity.
Qed.
Lemma own_parts : forall v, own v = [] \/ own v = [v] /\ parts v = [].
Proof.
  intros v. unfold own, VisitSpec.parts. destruct (stopped stop v); [left; reflexivity|]. cbn [orb]. destruct (points (vi_qual v)); [right; auto|]. destruct (nth_error E (vi_type v)) as [t|]; [|left; reflexivity].
  destruct what; [|left; reflexivity]. destruct (vt_kind t); auto.
Qed.

Definition good (n : nat) (v : visit) : Prop := (forall path w, found v path w -> visitable w) /\ (forall path w, found v path w -> (length path < n)%nat).
Definition visits (l : list (list nat * visit)) (v : visit) : Prop :=
  StronglySorted before (map fst l) /\ forall path w, In (path, w) l <-> found v path w /\ to_visit what w.
Lemma all_parts : forall n l (from : nat), (forall v, good n v -> exists r, vfv n v = Ok (map snd r) /\ visits r v) -> (forall w, In w l -> good n w) ->
  exists r, visit_all (fun w => vfv n w) l = Ok (map snd r) /\ StronglySorted before (map fst r) /\
    (forall path w, In (path, w) r <-> exists i p c, path = (from + i)%nat :: p /\ nth_error l i = Some c /\ found c p w /\ to_visit what w).
Proof.
  intros n l. induction l as [|c l IH]; intros from HI HG.
  - exists []. split; [reflexivity|]. split; [constructor|]. intros path w. split; [intros []|]. intros [i [p [c [_ [H _]]]]]. destruct i; discriminate.
  - destruct (HI c (HG c (or_introl eq_refl))) as [r1 [H1 [S1 C1]]]. destruct (IH (S from) HI (fun w Hw => HG w (or_intror Hw))) as [r2 [H2 [S2 C2]]].
    exists (map (fun x => (from :: fst x, snd x)) r1 ++ r2). cbn [visit_all]. rewrite H1, H2. cbn [obind]. split; [|split].
    + rewrite map_app, map_map. cbn [snd]. reflexivity.
    + rewrite map_app, map_map. cbn [fst]. clear H1 H2 HI HG IH C1. induction r1 as [|x r1 IHr]; [exact S2|]. cbn [map app] in *. inversion S1 as [|? ? S1a S1b]; subst. constructor; [apply IHr; exact S1a|].
      apply Forall_app. split; [|apply Forall_forall; intros path Hp; apply in_map_iff in Hp; destruct Hp as [[path' w] [<- Hp]]; apply C2 in Hp; destruct Hp as [i [p [c' [-> _]]]]; cbn [fst]; apply before_here; lia].
      apply Forall_forall. intros path Hp. apply in_map_iff in Hp. destruct Hp as [y [<- Hy]]. apply before_later. rewrite Forall_forall in S1b. apply S1b. apply in_map. exact Hy.
    + intros path w. rewrite in_app_iff. split.
      * intros [H|H].
        -- apply in_map_iff in H. destruct H as [[p u] [He Hp]]. injection He as <- <-. apply C1 in Hp. exists 0%nat, p, c. rewrite Nat.add_0_r. cbn [fst]. split; [reflexivity|]. split; [reflexivity|exact Hp].
        -- apply C2 in H. destruct H as [i [p [c' [-> [Hc Hf]]]]]. exists (S i), p, c'. split; [f_equal; lia|]. split; [exact Hc|exact Hf].
      * intros [i [p [c' [-> [Hc Hf]]]]]. destruct i as [|i].
        -- left. cbn [nth_error] in Hc. injection Hc as <-. apply in_map_iff. exists (p, w). cbn [fst snd]. rewrite Nat.add_0_r. split; [reflexivity|]. apply C1. exact Hf.
        -- right. apply C2. exists i, p, c'. split; [f_equal; lia|]. split; [exact Hc|exact Hf].
Qed.
Lemma visit_ok : forall n v, good n v -> exists r, vfv n v = Ok (map snd r) /\ visits r v.
Proof.
  induction n as [|n IH]; intros v [HV HL].
  - specialize (HL [] v (found_root _ _ _ _)). cbn in HL. lia.
  - assert (Hv : visitable v) by (apply (HV []); apply found_root). rewrite (visit_parts n v Hv).
    destruct (all_parts n (parts v) 0 IH) as [r [HR [HS HC]]].
    { intros w Hw. apply In_nth_error in Hw. destruct Hw as [i Hi]. split; [intros path u Hu; apply (HV (i :: path)); eapply found_cons; eassumption|].
      intros path u Hu. specialize (HL (i :: path) u (found_cons _ _ _ _ _ Hi Hu)). cbn in HL. lia. }
    rewrite HR. cbn [obind]. exists (map (fun w => ([], w)) (own v) ++ r). split; [|split].
    + rewrite map_app, map_map. cbn [snd]. rewrite map_id. reflexivity.
    + destruct (own_parts v) as [Ho|[Ho Hp]]; rewrite Ho; [exact HS|]. cbn [map app fst]. destruct r as [|[path u] r]; [constructor; constructor|]. exfalso.
      destruct (proj1 (HC path u) (or_introl eq_refl)) as [i [p [c [_ [Hc _]]]]]. rewrite Hp in Hc. destruct i; discriminate.
    + intros path w. rewrite in_app_iff. split.
      * intros [H|H].
        -- apply in_map_iff in H. destruct H as [u [He Hu]]. injection He as <- <-. apply own_visit in Hu; [|exact Hv]. destruct Hu as [-> Hu]. split; [apply found_root|exact Hu].
        -- apply HC in H. destruct H as [i [p [c [-> [Hc [Hf Ht]]]]]]. split; [eapply found_cons; eassumption|exact Ht].
      * intros [Hf Ht]. apply found_inv in Hf. destruct Hf as [[-> ->]|[i [p [c [-> [Hc Hf]]]]]].
        -- left. apply in_map_iff. exists v. split; [reflexivity|]. apply own_visit; auto.
        -- right. apply HC. exists i, p, c. auto.
Qed.
End Proofs.
