(* C48: visiting fields *)
From Coq Require Import Sorted.
From Verif Require Import Base BaseProofs DatabaseModel RuntimeModel VisitModel VisitSpec VisitProofs.

(* Everything to be visited is visited exactly once, with its address, field, type and qualifier, in the order of fields,
   elements and bases; nothing else is. n is more than the depth of the object *)
Theorem C48_visits : forall E contents what stop n object ty, let root := mk_visit object None ty (mk_qual VALUE false) in
  (forall path v, found E contents stop root path v -> visitable E stop v) -> (forall path v, found E contents stop root path v -> (length path < n)%nat) ->
  exists l : list (list nat * visit), VisitFields E contents what stop n object ty = Ok (map snd l) /\
    NoDup (map fst l) /\ StronglySorted before (map fst l) /\
    (forall path v, In (path, v) l <-> found E contents stop root path v /\ to_visit E stop what v).
Proof.
  intros E contents what stop n object ty root H1 H2. destruct (visit_ok E contents what stop n root (conj H1 H2)) as [l [HL [HS HC]]]. exists l. split; [exact HL|]. split; [|split; [exact HS|exact HC]].
  clear HL HC. induction (map fst l) as [|p r IH]; [constructor|]. inversion HS as [|? ? HS1 HS2]; subst. constructor; [|apply IH; exact HS1]. intros Hp. rewrite Forall_forall in HS2. specialize (HS2 p Hp).
  clear - HS2. induction p as [|i p IH]; inversion HS2; subst; [lia|auto].
Qed.
Print Assumptions C48_visits.

(* a path leads to one thing only, so once per path is once *)
Theorem C48_paths : forall E contents stop root path v w, found E contents stop root path v -> found E contents stop root path w -> v = w.
Proof.
  intros E contents stop root path. induction path as [|i path IH] using rev_ind; intros v w Hv Hw.
  - inversion Hv as [|p u j x _ _ He]; [|destruct p; discriminate]. inversion Hw as [|p u j x _ _ He]; [congruence|destruct p; discriminate].
  - inversion Hv as [He|p u j x Hp Hx He]; [destruct path; discriminate|]. apply app_inj_tail in He. destruct He as [-> ->]. subst x.
    inversion Hw as [He|p' u' j' x Hp' Hx' He]; [destruct path; discriminate|]. apply app_inj_tail in He. destruct He as [-> ->]. subst x. rewrite (IH _ _ Hp Hp') in Hx. congruence.
Qed.
Print Assumptions C48_paths.

(* it returns only for objects whose depth is bounded: with parts without end it recurses for ever *)
Theorem C48_depth : forall E contents what stop n object ty r, let root := mk_visit object None ty (mk_qual VALUE false) in
  (forall path v, found E contents stop root path v -> visitable E stop v) -> VisitFields E contents what stop n object ty = Ok r ->
  forall path v, found E contents stop root path v -> (length path < n)%nat.
Proof.
  intros E contents what stop n object ty r root H1 HV. assert (HG : forall n v r, (forall path w, found E contents stop v path w -> visitable E stop w) -> VisitField E contents what stop n (vi_object v) (vi_field v) (vi_type v) (vi_qual v) = Ok r ->
    forall path w, found E contents stop v path w -> (length path < n)%nat); [|exact (HG n root r H1 HV)].
  clear. induction n as [|n IH]; intros v r H1 HV path w HF; [discriminate|]. rewrite visit_parts in HV by (apply (H1 []); apply found_root). apply found_inv in HF. destruct HF as [[-> ->]|[i [p [c [-> [Hc HF]]]]]]; [cbn; lia|].
  cbn [length]. apply -> Nat.succ_lt_mono. assert (HP : exists r', VisitField E contents what stop n (vi_object c) (vi_field c) (vi_type c) (vi_qual c) = Ok r').
  { destruct (visit_all _ (parts E contents stop v)) as [x| | |] eqn:Ex; try discriminate. apply nth_error_In in Hc. clear - Hc Ex. revert x Ex. induction (parts E contents stop v) as [|d l IHl]; intros x Ex; [contradiction|]. cbn [visit_all] in Ex.
    destruct (VisitField E contents what stop n (vi_object d) (vi_field d) (vi_type d) (vi_qual d)) as [y| | |] eqn:Ed; try discriminate. cbn [obind] in Ex. destruct (visit_all _ l) as [z| | |] eqn:El; try discriminate. destruct Hc as [->|Hc]; [eauto|]. eapply IHl; [exact Hc|reflexivity]. }
  destruct HP as [r' HP]. eapply (IH c r'); [|exact HP|exact HF]. intros path' w' Hw'. eapply H1. eapply found_cons; [exact Hc|exact Hw'].
Qed.
Print Assumptions C48_depth.

(* with VFT_Pointers the pointers are visited as with VFT_All, and only they *)
Theorem C48_pointers : forall E contents stop n object ty l, VisitFields E contents VFT_All stop n object ty = Ok l ->
  VisitFields E contents VFT_Pointers stop n object ty = Ok (filter (fun v => points (vi_qual v)) l).
Proof.
  intros E contents stop. assert (HG : forall n object field ty q l, VisitField E contents VFT_All stop n object field ty q = Ok l -> VisitField E contents VFT_Pointers stop n object field ty q = Ok (filter (fun v => points (vi_qual v)) l)).
  2: intros n object ty l H; apply HG; exact H.
  assert (HA : forall A (f g : A -> outcome (list visit)) l r, (forall a x, f a = Ok x -> g a = Ok (filter (fun v => points (vi_qual v)) x)) -> visit_all f l = Ok r -> visit_all g l = Ok (filter (fun v => points (vi_qual v)) r)).
  { intros A f g l r H. revert r. induction l as [|a l IH]; intros r Hr; [injection Hr as <-; reflexivity|]. cbn [visit_all] in *. destruct (f a) as [x| | |] eqn:Ef; try discriminate. rewrite (H a x Ef). cbn [obind] in *.
    destruct (visit_all f l) as [y| | |]; try discriminate. rewrite (IH y eq_refl). cbn [obind] in *. injection Hr as <-. rewrite filter_app. reflexivity. }
  assert (HB : forall (f g : Z -> outcome (list visit)) k it r, (forall a x, f a = Ok x -> g a = Ok (filter (fun v => points (vi_qual v)) x)) -> visit_array f k it = Ok r -> visit_array g k it = Ok (filter (fun v => points (vi_qual v)) r)).
  { intros f g k it r H. revert it r. induction k as [|k IH]; intros it r Hr; [injection Hr as <-; reflexivity|]. cbn [visit_array] in *. destruct (array_get it) as [a| | |]; try discriminate. cbn [obind] in *. destruct (f a) as [x| | |] eqn:Ef; try discriminate. rewrite (H a x Ef). cbn [obind] in *.
    destruct (visit_array f k (array_next it)) as [y| | |] eqn:Ey; try discriminate. rewrite (IH _ y Ey). cbn [obind] in *. injection Hr as <-. rewrite filter_app. reflexivity. }
  induction n as [|n IH]; intros object field ty q l H; [discriminate|]. cbn [VisitField] in *. destruct (match field with Some f => negb (Z.land (vf_flags f) stop =? 0) | None => false end); [injection H as <-; reflexivity|].
  destruct (is_pointer_op q) eqn:Eq; [injection H as <-; cbn [filter vi_qual]; change (points q) with (is_pointer_op q); rewrite Eq; reflexivity|].
  destruct (get_vtype E ty) as [t| | |]; try discriminate. cbn [obind] in *. destruct (vt_kind t) as [| |fields|[[|]|]|]; try discriminate.
  - injection H as <-. cbn [filter vi_qual]. change (points q) with (is_pointer_op q). rewrite Eq. reflexivity.
  - injection H as <-. cbn [filter vi_qual]. change (points q) with (is_pointer_op q). rewrite Eq. reflexivity.
  - match type of H with (do a <- visit_all ?g _; _) = _ => destruct (visit_all g fields) as [x| | |] eqn:Ex; try discriminate end. cbn [obind] in H. match type of H with (do b <- visit_all ?g _; _) = _ => destruct (visit_all g (vt_bases t)) as [y| | |] eqn:Ey; try discriminate end. cbn [obind] in H. injection H as <-.
    erewrite HA; [|clear Ex Ey|exact Ex]; [cbn [obind]; erewrite HA; [|clear Ex Ey|exact Ey]; [cbn [obind]; rewrite filter_app; reflexivity|intros b z Hz; apply IH; exact Hz]|].
    intros f z Hz. cbv beta in *. destruct (vf_count f) as [c|]; [|apply IH; exact Hz]. destruct (get_vtype E (vf_type f)) as [et| | |]; try discriminate. cbn [obind] in *. destruct (array_init _ _) as [it| | |]; try discriminate. cbn [obind] in *.
    eapply HB; [|exact Hz]. intros a u Hu. apply IH. exact Hu.
  - destruct (contents ty object) as [[ct cp] values]. eapply HA; [|exact H]. intros a u Hu. apply IH. exact Hu.
  - eapply HA; [|exact H]. intros a u Hu. apply IH. exact Hu.
Qed.
Print Assumptions C48_pointers.

(* ---- witness ---- *)
(* checking the hypotheses of C48_visits by computing *)
Definition visitable_b (E : list vtype) (stop : Z) (v : visit) : bool :=
  if stopped stop v then true else if points (vi_qual v) then true
  else match nth_error E (vi_type v) with
       | None => false
       | Some t => match vt_kind t with
                   | V_other | V_template (Some false) => false
                   | V_class fields => forallb (fun f => match vf_count f with
                       | None => true
                       | Some c => (0 <=? c) && (c <? 2 ^ 32) && (0 <? size_in_array E f) && (0 <? vi_object v + vf_offset f) && (vi_object v + vf_offset f + c * size_in_array E f <=? 2 ^ 64) && (vf_type f <? length E)%nat
                       end) fields
                   | _ => true
                   end
       end.
Fixpoint good_b (E : list vtype) (contents : nat -> Z -> nat * bool * list Z) (stop : Z) (n : nat) (v : visit) : bool :=
  match n with O => false | S n => visitable_b E stop v && forallb (good_b E contents stop n) (parts E contents stop v) end.
Lemma visitable_b_ok : forall E stop v, visitable_b E stop v = true -> visitable E stop v.
Proof.
  intros E stop v H H1 H2. unfold visitable_b in H. rewrite H1, H2 in H. destruct (nth_error E (vi_type v)) as [t|]; [|discriminate]. exists t. split; [reflexivity|]. destruct (vt_kind t) as [| |fields|[[|]|]|]; try discriminate; try exact I.
  intros f c Hf Hc. rewrite forallb_forall in H. specialize (H f Hf). rewrite Hc in H. rewrite !Bool.andb_true_iff in H. destruct H as [[[[[A1 A2] A3] A4] A5] A6]. apply Nat.ltb_lt in A6. repeat split; lia.
Qed.
Lemma good_b_ok : forall E contents stop n v, good_b E contents stop n v = true ->
  (forall path w, found E contents stop v path w -> visitable E stop w) /\ (forall path w, found E contents stop v path w -> (length path < n)%nat).
Proof.
  intros E contents stop. induction n as [|n IH]; intros v H; [discriminate|]. cbn [good_b] in H. apply Bool.andb_true_iff in H. destruct H as [H1 H2]. rewrite forallb_forall in H2. split; intros path w HF; apply found_inv in HF; destruct HF as [[-> ->]|[i [p [c [-> [Hc HF]]]]]].
  - apply visitable_b_ok. exact H1.
  - apply nth_error_In in Hc. exact (proj1 (IH c (H2 c Hc)) p w HF).
  - cbn. lia.
  - apply nth_error_In in Hc. pose proof (proj2 (IH c (H2 c Hc)) p w HF). cbn. lia.
Qed.
(* struct Base { int b; };  enum Kind;  struct Inner { Inner* next; Kind kind; };
   struct Outer : Base { Inner inner[2]; int* ptrs[2]; vector<Inner> list; int skipped (flag 1); } *)
Definition ev_E : list vtype :=
  [ mk_vtype 4 V_type [];
    mk_vtype 4 V_enum [];
    mk_vtype 4 (V_class [mk_vfield 1 0 0 0 (mk_qual VALUE false) None]) [];
    mk_vtype 16 (V_class [mk_vfield 2 0 0 3 (mk_qual POINTER false) None; mk_vfield 3 8 0 1 (mk_qual VALUE false) None]) [];
    mk_vtype 16 (V_template (Some true)) [];
    mk_vtype 80 (V_class [mk_vfield 4 8 0 3 (mk_qual VALUE false) (Some 2); mk_vfield 5 40 0 0 (mk_qual POINTER true) (Some 2); mk_vfield 6 56 0 4 (mk_qual VALUE false) None; mk_vfield 7 72 1 0 (mk_qual VALUE false) None]) [2%nat] ].
Definition ev_contents (ty : nat) (a : Z) : nat * bool * list Z := (3%nat, false, [5000; 7000; 6000]).
Example C48_witness : good_b ev_E ev_contents 1 4 (mk_visit 1000 None 5 (mk_qual VALUE false)) = true /\
  match VisitFields ev_E ev_contents VFT_All 1 4 1000 5 with
  | Ok l => map (fun v => (vi_object v, option_map vf_name (vi_field v), vi_type v, points (vi_qual v))) l =
      [(1008, Some 2, 3%nat, true); (1016, Some 3, 1%nat, false); (1024, Some 2, 3%nat, true); (1032, Some 3, 1%nat, false);
       (1040, Some 5, 0%nat, true); (1048, Some 5, 0%nat, true);
       (5000, Some 2, 3%nat, true); (5008, Some 3, 1%nat, false); (7000, Some 2, 3%nat, true); (7008, Some 3, 1%nat, false); (6000, Some 2, 3%nat, true); (6008, Some 3, 1%nat, false);
       (1000, Some 1, 0%nat, false)]
  | _ => False end.
Proof. vm_compute. auto. Qed.
Example C48_witness_hypotheses : let root := mk_visit 1000 None 5 (mk_qual VALUE false) in
  (forall path v, found ev_E ev_contents 1 root path v -> visitable ev_E 1 v) /\ (forall path v, found ev_E ev_contents 1 root path v -> (length path < 4)%nat).
Proof. apply good_b_ok. exact (proj1 C48_witness). Qed.
(* references are taken for values: what is at the address of the reference itself is visited as if it were the object *)
Example C48_reference : VisitFields [mk_vtype 4 V_type []; mk_vtype 8 (V_class [mk_vfield 1 4 0 0 (mk_qual VALUE false) None]) []; mk_vtype 8 (V_class [mk_vfield 2 0 0 1 (mk_qual REFERENCE false) None]) []] ev_contents VFT_All 0 9 1000 2
  = Ok [mk_visit 1004 (Some (mk_vfield 1 4 0 0 (mk_qual VALUE false) None)) 0 (mk_qual VALUE false)].
Proof. reflexivity. Qed.
