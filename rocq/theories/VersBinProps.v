(* C25, C26, C27, C60, C61: versioned binary. *)
From Coq Require Import Sorted.
From Verif Require Import Base BaseProofs Text SearchModel RuntimeModel JsonNumModel JsonObjModel JsonObjSpec VersBinModel VersBinSpec VersBinProofs VersBinCoreProofs VersBinTopProofs VersBinSafeProofs.

(* ---- C25 ---- *)
(* where the bytes SaveVersionedBinary wrote stand in the data, loading takes exactly those and gives the object every
   number and enum saved; nothing else changes *)
Theorem C25_round_trip : forall E mem object ty t,
  vb_types_ok E -> vb_savable E -> one_meaning E -> nth_error E ty = Some t -> block mem object (rt_size t) -> Forall is_byte mem ->
  (* enums hold the value of one of their constants *)
  (forall d s fl cs, vb_leaf E ty d s -> rt_kind s = K_enum fl cs -> In (s32 (le_val (slice mem (object + d) 4))) (constant_values cs)) ->
  exists bytes, (forall n, (2 * ty + 2 <= n)%nat -> SaveVersionedBinary n E no_save mem object ty = Ok bytes) /\
  forall data pos object' mem', zlen data < 2 ^ 31 -> stands data pos bytes -> block mem' object' (rt_size t) ->
  exists mem2 k, (forall n, (k <= n)%nat -> LoadVersionedBinary n E no_load data (mk_vs pos mem') object' ty = Ok (mk_vs (pos + zlen bytes) mem2)) /\ zlen mem2 = zlen mem' /\
    (forall x, vb_carried E ty x -> znth mem2 (object' + x) = znth mem (object + x)) /\
    (forall x, ~ vb_carried E ty (x - object') -> znth mem2 x = znth mem' x).
Proof. exact round_trip. Qed.
Print Assumptions C25_round_trip.

(* finding: a pointer that is no array is saved as if the object it points to were there; a class with a pointer to itself
   makes the calls nest for ever *)
Definition node_E : list rtype := [mk_rtype 1000 8 (K_class 0 [(10, mk_rfield (str "next") 0 0 0 true None)]) []].
Theorem C25_self_pointer_refuted : vb_types_ok node_E /\ one_meaning node_E /\ forall fuel mem object, SaveVersionedBinary fuel node_E no_save mem object 0 = Fuel.
Proof.
  split; [|split].
  - split.
    + intros i t H. destruct i as [|[|i]]; try discriminate. injection H as <-. split; [intros b []|]. split; [split; [repeat constructor|cbn; lia]|]. intros e [<-|[]]. cbn. lia.
    + intros i t H. destruct i as [|[|i]]; try discriminate. injection H as <-. split; [cbn; lia|]. split; [unfold is_u32; cbn; lia|]. split; [discriminate|]. cbn. split; [intros b []|]. intros h f et [H|[]] Het. injection H as <- <-. cbn in Het. injection Het as <-. unfold is_u32. cbn. split; lia.
  - split.
    + intros u v t t' Hu Hv _. destruct u as [|[|u]], v as [|[|v]]; try discriminate; try reflexivity.
    + assert (HM : forall ty h f, has_member node_E ty h f -> f = mk_rfield (str "next") 0 0 0 true None).
      { intros ty h f H. induction H as [ty t fa fs h f Ht Hk Hi|ty t b h f Ht Hb H IH]; [|exact IH]. destruct ty as [|[|ty]]; try discriminate. injection Ht as <-. injection Hk as <- <-. destruct Hi as [Hi|[]]. congruence. }
      intros ty h f g Hf Hg. rewrite (HM _ _ _ Hf), (HM _ _ _ Hg). reflexivity.
  - assert (HS : forall n mem o, vb_SaveObject node_E mem no_save n o 0 = Fuel /\ vb_SaveClass node_E mem no_save n o 0 = Fuel).
    { induction n as [|n IH]; intros mem o; [split; reflexivity|]. split; [rewrite save_object_S; cbn [get_type node_E nth_error obind rt_kind]; apply IH|]. rewrite save_class_S. cbn [get_type node_E nth_error obind rt_kind append_all]. change (skipped 0) with false. cbv match.
      unfold vb_SaveClassField. cbn [snd fst rf_flags rf_count rf_type rf_offset no_save get_type nth_error obind]. change (skipped 0) with false. cbv match. rewrite (proj1 (IH mem (o + 0))). reflexivity. }
    intros fuel mem object. unfold SaveVersionedBinary. cbn [get_type node_E nth_error obind]. rewrite (proj1 (HS fuel mem object)). reflexivity.
Qed.
Print Assumptions C25_self_pointer_refuted.

(* ---- C26 ---- *)
(* an object saved by one version and loaded by another: loading takes exactly the bytes saved; what has the same names
   and types in both is carried over (enums by the names of their constants); all other bytes stay as they were. A class
   of another name gets nothing *)
Theorem C26_versions : forall E E' mem object ty ty' t t',
  vb_types_ok E -> vb_types_ok E' -> vb_savable E -> vb_agree E E' -> nth_error E ty = Some t -> nth_error E' ty' = Some t' -> block mem object (rt_size t) ->
  exists bytes, (forall n, (2 * ty + 2 <= n)%nat -> SaveVersionedBinary n E no_save mem object ty = Ok bytes) /\
  forall data pos object' mem', zlen data < 2 ^ 31 -> stands data pos bytes -> block mem' object' (rt_size t') ->
  exists mem2 k, (forall n, (k <= n)%nat -> LoadVersionedBinary n E' no_load data (mk_vs pos mem') object' ty' = Ok (mk_vs (pos + zlen bytes) mem2)) /\ zlen mem2 = zlen mem' /\
    (rt_hash t <> rt_hash t' -> mem2 = mem') /\
    (rt_hash t = rt_hash t' -> names_apart E -> fields_apart E' ->
       forall d d' s s' b, matching E E' ty ty' d d' s s' -> converted s s' (slice mem (object + d) (rt_size s)) = Some b -> slice mem2 (object' + d') (zlen b) = b) /\
    (forall x, (forall d d' s s' b, matching E E' ty ty' d d' s s' -> converted s s' (slice mem (object + d) (rt_size s)) = Some b -> ~ (object' + d' <= x < object' + d' + zlen b)) ->
       znth mem2 x = znth mem' x).
Proof. exact versions_kept. Qed.
Print Assumptions C26_versions.

(* two versions of a program. The hashes are made up *)
Definition vt (hash size : Z) (k : rkind) : rtype := mk_rtype hash size k [].
Definition fld (name : string) (offset : Z) (ty : nat) (count : option Z) : rfield := mk_rfield (str name) offset 0 ty false count.
Definition old_E : list rtype :=
  [ vt 1000 4 K_type; vt 1001 4 K_type; vt 1002 4 (K_enum false [(50, (str "Red", 0)); (60, (str "Green", 1))]);
    vt 1003 4 (K_class 0 [(10, fld "v" 0 0 None)]); vt 1004 4 (K_class 0 [(20, fld "k" 0 0 None)]);
    mk_rtype 1005 32 (K_class 0 [(30, fld "a" 4 0 None); (31, fld "b" 8 1 None); (32, fld "c" 12 2 None); (33, fld "in" 16 3 (Some 2));
                                 (34, mk_rfield (str "cache") 24 1 0 false None); (35, fld "gone" 28 0 None)]) [4%nat] ].
Definition new_E : list rtype :=
  [ vt 1000 4 K_type; vt 1006 8 K_type; vt 1002 4 (K_enum false [(40, (str "Blue", 0)); (50, (str "Red", 7)); (60, (str "Green", 8))]);
    vt 1003 8 (K_class 0 [(10, fld "v" 4 0 None); (11, fld "w" 0 0 None)]); vt 1004 4 (K_class 0 [(20, fld "k" 0 0 None)]);
    mk_rtype 1005 52 (K_class 0 [(29, fld "fresh" 48 0 None); (30, fld "a" 40 0 None); (31, fld "b" 8 1 None); (32, fld "c" 4 2 None); (33, fld "in" 16 3 (Some 3));
                                 (34, fld "cache" 44 0 None)]) [4%nat] ].
Ltac each H := cbn in H; repeat match type of H with _ \/ _ => destruct H as [H|H] | False => destruct H end.
(* one case for each of six types *)
Ltac six i H := destruct i as [|[|[|[|[|[|i]]]]]]; [injection H as <- ..|exfalso; destruct i; discriminate H].
Ltac strictly := split; [repeat first [apply SSorted_nil | apply SSorted_cons | apply Forall_nil | apply Forall_cons | (cbn; lia)]|cbn; lia].
Ltac wf_ok :=
  intros i t H; six i H; (split; [cbn; intros b Hb; each Hb; subst; lia|]);
  first [exact I | split; [strictly|intros e He; each He; subst e; unfold is_s32; cbn; lia]].
Ltac shape_ok :=
  intros i t H; six i H; (split; [cbn; lia|]); (split; [unfold is_u32; cbn; lia|]); (split; [discriminate|]); cbn;
  first [ reflexivity
        | split; [reflexivity|intros e He; each He; subst e; unfold is_u32; cbn; lia]
        | split; [intros b Hb; each Hb; (subst; eexists; split; [reflexivity|split; [reflexivity|cbn; lia]])|];
          intros h f et Hi He; each Hi; injection Hi as <- <-; cbn in He; injection He as <-; unfold is_u32; cbn; repeat split; lia ].
Lemma old_ok : vb_types_ok old_E.
Proof. split; [wf_ok|shape_ok]. Qed.
Lemma new_ok : vb_types_ok new_E.
Proof. split; [wf_ok|shape_ok]. Qed.
Lemma old_savable : vb_savable old_E.
Proof.
  intros i t H. six i H; cbn; try exact I; try reflexivity; intros h f Hi _; left; each Hi; injection Hi as <- <-; cbn; lia.
Qed.
(* members of a type among those of all six *)
Ltac member H := apply (fun W H => members_all _ W _ _ _ H 6%nat) in H; [|first [exact (proj1 old_ok)|exact (proj1 new_ok)]|lia]; each H.
Lemma old_new_agree : vb_agree old_E new_E.
Proof.
  intros u v t t' Hu Hv Hh. assert (Hlu : (u < 6)%nat) by (apply (nth_error_Some old_E); congruence). assert (Hlv : (v < 6)%nat) by (apply (nth_error_Some new_E); congruence).
  split.
  - six u Hu; six v Hv; try discriminate Hh; exact I.
  - intros h f f' et et' Hs Hn Het Het'. apply saved_has in Hs. apply new_has in Hn.
    apply (fun H => members_all old_E (proj1 old_ok) _ _ _ H 6%nat Hlu) in Hs. apply (fun H => members_all new_E (proj1 new_ok) _ _ _ H 6%nat Hlv) in Hn.
    six u Hu; six v Hv; try discriminate Hh; clear Hlu Hlv Hh; each Hs; injection Hs as <- <-; each Hn; (pose proof (f_equal fst Hn) as Hx; apply (f_equal snd) in Hn; cbn [fst snd] in Hx, Hn); try discriminate Hx; subst f'; cbn in Het, Het'; injection Het as <-; injection Het' as <-; cbn; try exact I; split; reflexivity.
Qed.
Lemma old_names : names_apart old_E.
Proof.
  intros ty h f g Hf Hg. apply saved_has in Hf. apply saved_has in Hg. assert (Hl : (ty < 6)%nat) by (inversion Hf; subst; apply (nth_error_Some old_E); congruence).
  apply (fun H => members_all old_E (proj1 old_ok) _ _ _ H 6%nat Hl) in Hf. apply (fun H => members_all old_E (proj1 old_ok) _ _ _ H 6%nat Hl) in Hg.
  destruct ty as [|[|[|[|[|[|ty]]]]]]; [ (each Hf; injection Hf as <- <-; each Hg; congruence) ..|lia].
Qed.
Lemma new_apart : fields_apart new_E.
Proof.
  intros ty h g f f' et et' Hf Hg Hne Het Het'. apply new_has in Hf. apply new_has in Hg. assert (Hl : (ty < 6)%nat) by (inversion Hf; subst; apply (nth_error_Some new_E); congruence).
  apply (fun H => members_all new_E (proj1 new_ok) _ _ _ H 6%nat Hl) in Hf. apply (fun H => members_all new_E (proj1 new_ok) _ _ _ H 6%nat Hl) in Hg.
  destruct ty as [|[|[|[|[|[|ty]]]]]]; [ (each Hf; injection Hf as <- <-; each Hg; (pose proof (f_equal fst Hg) as Hx; apply (f_equal snd) in Hg; cbn [fst snd] in Hx, Hg); try congruence; subst f'; cbn in Het, Het'; injection Het as <-; injection Het' as <-; cbn; lia) ..|lia].
Qed.
(* k = 1, a = 2, b = 3, c = Green, in[0].v = 4, in[1].v = 5, cache = 6, gone = 7 *)
Definition old_mem : list Z := repeat 0 8 ++ flat_map (le_bytes 4) [1; 2; 3; 1; 4; 5; 6; 7].
Definition old_bytes : list Z := Eval vm_compute in match SaveVersionedBinary 20 old_E no_save old_mem 8 5 with Ok l => l | _ => [] end.
Example C26_witness_hypotheses : vb_types_ok old_E /\ vb_types_ok new_E /\ vb_savable old_E /\ vb_agree old_E new_E /\ block old_mem 8 32 /\ names_apart old_E /\ fields_apart new_E.
Proof. split; [exact old_ok|]. split; [exact new_ok|]. split; [exact old_savable|]. split; [exact old_new_agree|]. split; [split; cbn; lia|]. split; [exact old_names|exact new_apart]. Qed.
(* k, a and v are carried over, c keeps its name and gets the new value, the rest remains 99 *)
Example C26_witness : LoadVersionedBinary 100 new_E no_load old_bytes (mk_vs 0 (repeat 0 8 ++ repeat 99 52)) 8 5 =
  Ok (mk_vs (zlen old_bytes) (repeat 0 8 ++ le_bytes 4 1 ++ le_bytes 4 8 ++ repeat 99 8 ++ repeat 99 4 ++ le_bytes 4 4 ++ repeat 99 4 ++ le_bytes 4 5 ++ repeat 99 8 ++ le_bytes 4 2 ++ repeat 99 8)).
Proof. vm_compute. reflexivity. Qed.
Example C26_witness_matching : matching old_E new_E 5 5 20 28 (vt 1000 4 K_type) (vt 1000 4 K_type).
Proof.
  assert (H1 : matching old_E new_E 3 3 0 4 (vt 1000 4 K_type) (vt 1000 4 K_type)).
  { apply (mt_member old_E new_E 3 3 10 (fld "v" 0 0 None) (fld "v" 4 0 None) (vt 1000 4 K_type) (vt 1000 4 K_type) 0 0 0); try reflexivity; [|constructor; reflexivity]. eapply vs_own; [reflexivity|reflexivity|reflexivity|left; reflexivity|reflexivity]. }
  apply (mt_member old_E new_E 5 5 33 (fld "in" 16 3 (Some 2)) (fld "in" 16 3 (Some 3)) (nth 3 old_E (vt 0 0 K_type)) (nth 3 new_E (vt 0 0 K_type)) 1 0 4); try reflexivity; [|cbn; lia|exact H1].
  eapply vs_own; [reflexivity|reflexivity|reflexivity|right; right; right; left; reflexivity|reflexivity].
Qed.
Lemma old_one : one_meaning old_E.
Proof.
  split.
  - intros u v t t' Hu Hv Hh. six u Hu; six v Hv; try discriminate Hh; reflexivity.
  - intros ty h f g Hf Hg. assert (Hl : (ty < 6)%nat) by (inversion Hf; subst; apply (nth_error_Some old_E); congruence).
    apply (fun H => members_all old_E (proj1 old_ok) _ _ _ H 6%nat Hl) in Hf. apply (fun H => members_all old_E (proj1 old_ok) _ _ _ H 6%nat Hl) in Hg.
    destruct ty as [|[|[|[|[|[|ty]]]]]]; [ (each Hf; injection Hf as <- <-; each Hg; congruence) ..|lia].
Qed.
Lemma old_enum : forall d s fl cs, vb_leaf old_E 5 d s -> rt_kind s = K_enum fl cs -> d = 12 /\ cs = [(50, (str "Red", 0)); (60, (str "Green", 1))].
Proof.
  assert (HL : forall ty d s fl cs, vb_leaf old_E ty d s -> rt_kind s = K_enum fl cs -> (ty = 2%nat /\ d = 0 \/ ty = 5%nat /\ d = 12) /\ cs = [(50, (str "Red", 0)); (60, (str "Green", 1))]).
  { intros ty d s fl cs H Hk. induction H as [ty t Ht Hc|ty h f et i d t Hs Het Hi Hl IH].
    - six ty Ht; try discriminate Hk. injection Hk as <- <-. split; [left; auto|reflexivity].
    - destruct (IH Hk) as [HC Hcs]. split; [|exact Hcs]. apply saved_has in Hs. assert (Hlt : (ty < 6)%nat) by (inversion Hs; subst; apply (nth_error_Some old_E); congruence). apply (fun H => members_all old_E (proj1 old_ok) _ _ _ H 6%nat Hlt) in Hs.
      destruct ty as [|[|[|[|[|[|ty]]]]]]; [ (each Hs; injection Hs as <- <-; cbn in HC, Hi, Het; injection Het as <-; cbn [rt_size vt]; cbn [rf_offset fld]; lia) ..|lia]. }
  intros d s fl cs H Hk. destruct (HL _ _ _ _ _ H Hk) as [HC Hcs]. split; [lia|exact Hcs].
Qed.
Example C25_witness : forall data pos object' mem', zlen data < 2 ^ 31 -> stands data pos old_bytes -> block mem' object' 32 ->
  exists mem2 k, (forall n, (k <= n)%nat -> LoadVersionedBinary n old_E no_load data (mk_vs pos mem') object' 5 = Ok (mk_vs (pos + zlen old_bytes) mem2)) /\ zlen mem2 = zlen mem' /\
    (forall x, vb_carried old_E 5 x -> znth mem2 (object' + x) = znth old_mem (8 + x)) /\ (forall x, ~ vb_carried old_E 5 (x - object') -> znth mem2 x = znth mem' x).
Proof.
  destruct (C25_round_trip old_E old_mem 8 5 _ old_ok old_savable old_one eq_refl) as [bytes [Hs Hl]].
  - split; cbn; lia.
  - unfold old_mem. apply Forall_app. split; [repeat constructor; lia|]. repeat constructor; cbn; lia.
  - intros d s fl cs H Hk. destruct (old_enum _ _ _ _ H Hk) as [-> ->]. right. left. reflexivity.
  - assert (Hb : bytes = old_bytes). { assert (HS : SaveVersionedBinary 20 old_E no_save old_mem 8 5 = Ok old_bytes) by (vm_compute; reflexivity). rewrite (Hs 20%nat) in HS by lia. congruence. } subst bytes. exact Hl.
Qed.
Example C25_witness_carried : vb_carried old_E 5 21.
Proof.
  exists 20, (vt 1000 4 K_type). split; [|cbn; lia].
  assert (H1 : vb_leaf old_E 3 0 (vt 1000 4 K_type)).
  { apply (vl_member old_E 3 10 (fld "v" 0 0 None) (vt 1000 4 K_type) 0 0); try reflexivity; [|constructor; reflexivity]. eapply vs_own; [reflexivity|reflexivity|reflexivity|left; reflexivity|reflexivity]. }
  apply (vl_member old_E 5 33 (fld "in" 16 3 (Some 2)) (nth 3 old_E (vt 0 0 K_type)) 1 0); try reflexivity; [|cbn; lia|exact H1].
  eapply vs_own; [reflexivity|reflexivity|reflexivity|right; right; right; left; reflexivity|reflexivity].
Qed.

(* ---- C27 ---- *)
(* an array whose elements are of another type in the data: nothing is stored, but reading goes on 20 bytes (the size of
   the container header) behind its end, or stops with an assertion if there are not so many *)
Theorem C27_changed_element : forall E ty t h f cnt et,
  vb_types_ok E -> nth_error E ty = Some t -> is_class t = true -> new_field E ty h = Some f -> rf_count f = Some cnt -> nth_error E (rf_type f) = Some et ->
  forall n th vh vsize rest data pos object mem, is_u32 th -> is_u32 h -> is_u32 vh -> vh <> 0 -> vh <> rt_hash et -> is_u32 n -> is_u32 vsize -> zlen data < 2 ^ 31 ->
  stands data pos (chunk th h (le_bytes 4 n ++ le_bytes 4 0 ++ le_bytes 4 0 ++ le_bytes 4 vh ++ le_bytes 4 vsize ++ rest)) -> block mem object (rt_size t) ->
  forall fuel, vb_LoadClassField E data no_load (S fuel) (mk_vs pos mem) object ty =
    let end_pos := pos + 12 + 20 + zlen rest in if end_pos + 20 <=? zlen data then Ok (mk_vs (end_pos + 20) mem) else Trap.
Proof. exact changed_element. Qed.
Print Assumptions C27_changed_element.
(* finding: hence the array is not skipped exactly. Here the field behind it, of an unchanged type, is lost; and an object
   that ends with such an array cannot be loaded at all *)
Definition array_E (ety : nat) (more : list (entry rfield)) : list rtype :=
  [ vt 1000 4 K_type; vt 1001 4 K_type; vt 1005 16 (K_class 0 ((30, fld "a" 0 ety (Some 2)) :: more)) ].
Theorem C27_exact_skip_refuted :
  (exists bytes, SaveVersionedBinary 20 (array_E 0 [(31, fld "b" 8 0 None); (32, fld "c" 12 0 None)]) no_save (repeat 1 32) 8 2 = Ok bytes /\
     LoadVersionedBinary 20 (array_E 1 [(31, fld "b" 8 0 None); (32, fld "c" 12 0 None)]) no_load bytes (mk_vs 0 (repeat 0 32)) 8 2 <>
       Ok (mk_vs (zlen bytes) (repeat 0 16 ++ repeat 1 8 ++ repeat 0 8))) /\
  (exists bytes, SaveVersionedBinary 20 (array_E 0 []) no_save (repeat 1 32) 8 2 = Ok bytes /\
     LoadVersionedBinary 20 (array_E 1 []) no_load bytes (mk_vs 0 (repeat 0 32)) 8 2 = Trap).
Proof. split; eexists; (split; [vm_compute; reflexivity|]); [vm_compute; discriminate|vm_compute; reflexivity]. Qed.
Print Assumptions C27_exact_skip_refuted.
Definition odd_array : list Z := chunk 1003 33 (le_bytes 4 2 ++ le_bytes 4 0 ++ le_bytes 4 0 ++ le_bytes 4 77 ++ le_bytes 4 1 ++ [5; 6]) ++ repeat 0 25.
Example C27_witness : vb_LoadClassField new_E odd_array no_load 9 (mk_vs 0 (repeat 9 60)) 8 5 = Ok (mk_vs 54 (repeat 9 60)).
Proof.
  apply (C27_changed_element new_E 5 (nth 5 new_E (vt 0 0 K_type)) 33 (fld "in" 16 3 (Some 3)) 3 (nth 3 new_E (vt 0 0 K_type)) new_ok eq_refl eq_refl eq_refl eq_refl eq_refl 2 1003 77 1 [5; 6] odd_array 0 8 (repeat 9 60)); unfold is_u32; try lia; try discriminate.
  - reflexivity.
  - exists [], (repeat 0 25). split; reflexivity.
  - split; cbn; lia.
Qed.

(* ---- C60 ---- *)
(* a load_vbin function may read as little or as much as it likes of the data: the next field is read at the end of this one *)
Theorem C60_custom_reader : forall E custom ty t h f run,
  vb_types_ok E -> nth_error E ty = Some t -> is_class t = true -> new_field E ty h = Some f -> custom f = Some run ->
  forall th body data pos object mem q mem2, is_u32 th -> is_u32 h -> zlen data < 2 ^ 31 -> stands data pos (chunk th h body) ->
  run object (object + rf_offset f) (pos + 12) mem = Ok (q, mem2) -> 0 <= q <= zlen data ->
  forall fuel, vb_LoadClassField E data custom (S fuel) (mk_vs pos mem) object ty = Ok (mk_vs (pos + 12 + zlen body) mem2).
Proof. exact custom_reader. Qed.
Print Assumptions C60_custom_reader.
(* what a save_vbin function is given and what becomes of what it writes: it is given the object and the field's place, and its bytes
   are what a load_vbin function of the field, in whatever version and wherever the object is then, is given to read; other
   fields follow behind *)
Theorem C60_custom_pair : forall E (csave : custom_save) save object h f run body t,
  lasting (rf_flags f) -> nth_error E (rf_type f) = Some t -> csave f = Some run -> run object (object + rf_offset f) = Ok body ->
  exists bytes, vb_SaveClassField E csave save object (h, f) = Ok bytes /\
  forall E' cload ty' t' f' run', is_u32 (rt_hash t) -> is_u32 h ->
    vb_types_ok E' -> nth_error E' ty' = Some t' -> is_class t' = true -> new_field E' ty' h = Some f' -> cload f' = Some run' ->
  forall before after object' mem' q mem2, let data := before ++ bytes ++ after in zlen data < 2 ^ 31 ->
    (forall at_, stands data at_ body -> at_ + zlen body + zlen after = zlen data -> run' object' (object' + rf_offset f') at_ mem' = Ok (q, mem2)) -> 0 <= q <= zlen data ->
  forall fuel, vb_LoadClassField E' data cload (S fuel) (mk_vs (zlen before) mem') object' ty' = Ok (mk_vs (zlen before + zlen bytes) mem2).
Proof.
  intros E csave save object h f run body t HL Ht Hc Hr. exists (chunk (rt_hash t) h body). split.
  - unfold vb_SaveClassField. cbn [fst snd]. change (skipped (rf_flags f)) with (has_flag (rf_flags f) transient_bits). unfold lasting in HL. rewrite HL. unfold get_type. rewrite Ht. cbn [obind]. rewrite Hc, Hr. reflexivity.
  - intros E' cload ty' t' f' run' HT HH HE Ht' Hk Hf Hl before after object' mem' q mem2 data HD HR Hq fuel.
    assert (HZ : zlen (chunk (rt_hash t) h body) = 12 + zlen body) by apply chunk_zlen.
    replace (zlen before + zlen (chunk (rt_hash t) h body)) with (zlen before + 12 + zlen body) by lia.
    apply (custom_reader E' cload ty' t' h f' run' HE Ht' Hk Hf Hl (rt_hash t) body data (zlen before) object' mem' q mem2 HT HH HD).
    + exists before, after. split; reflexivity.
    + apply HR; [|unfold data; rewrite !zlen_app, HZ; lia]. exists (before ++ le_bytes 4 (rt_hash t) ++ le_bytes 4 h ++ le_bytes 4 (zlen body)), after. split.
      * unfold data, chunk, sized. rewrite <- !app_assoc. reflexivity.
      * rewrite !zlen_app, !le_bytes_zlen. lia.
    + exact Hq.
Qed.
Print Assumptions C60_custom_pair.
(* a function that writes where the object and the field are, and one that reads them *)
Example C60_pair_witness : exists f, new_field new_E 5 30 = Some f /\ lasting (rf_flags f) /\
  exists bytes, vb_SaveClassField new_E (fun _ => Some (fun o p => Ok [o; p])) (fun _ => Ok []) 8 (30, f) = Ok bytes /\ zlen bytes = 14 /\
  vb_LoadClassField new_E (bytes ++ [7]) (fun _ => Some (fun o p q m => do a <- rdA (bytes ++ [7]) q; do b <- rdA (bytes ++ [7]) (q + 1); Ok (q + 2, m ++ [a; b; o; p]))) 9 (mk_vs 0 (repeat 9 60)) 16 5 =
    Ok (mk_vs 14 (repeat 9 60 ++ [8; 8 + rf_offset f; 16; 16 + rf_offset f])).
Proof. eexists. split; [vm_compute; reflexivity|]. split; [reflexivity|]. eexists. split; [vm_compute; reflexivity|]. split; vm_compute; reflexivity. Qed.
(* one that reads a byte too many, one that reads nothing *)
Example C60_witness : forall q, q = 12 \/ q = 15 -> vb_LoadClassField new_E (chunk 1000 30 [5; 6] ++ [7]) (fun f => if rf_offset f =? 40 then Some (fun _ _ p m => Ok (q, m)) else None) 9 (mk_vs 0 (repeat 9 60)) 8 5 = Ok (mk_vs 14 (repeat 9 60)).
Proof. intros q [->| ->]; vm_compute; reflexivity. Qed.

(* ---- C61 ---- *)
(* whatever the data is, loading changes nothing but the object *)
Theorem C61_only_the_object : forall E data fuel pos mem object ty t,
  vb_types_ok E -> enums_wide E -> Forall is_byte data -> nth_error E ty = Some t -> block mem object (rt_size t) ->
  forall s, LoadVersionedBinary fuel E no_load data (mk_vs pos mem) object ty = Ok s ->
  zlen (vs_mem s) = zlen mem /\ forall x, ~ (object <= x < object + rt_size t) -> znth (vs_mem s) x = znth mem x.
Proof. exact load_safe. Qed.
Print Assumptions C61_only_the_object.
(* data in which no size has its top bit set: loading ends, within the data or with an assertion *)
Theorem C61_ends : forall E data pos mem object ty t,
  vb_types_ok E -> enums_wide E -> Forall (fun b => 0 <= b < 128) data -> zlen data < 2 ^ 31 -> 0 <= pos -> nth_error E ty = Some t -> block mem object (rt_size t) ->
  forall fuel, (length data + 3 <= fuel)%nat ->
  LoadVersionedBinary fuel E no_load data (mk_vs pos mem) object ty = Trap \/
  exists pos' mem', LoadVersionedBinary fuel E no_load data (mk_vs pos mem) object ty = Ok (mk_vs pos' mem') /\ pos + 12 <= pos' <= zlen data.
Proof. exact load_terminates. Qed.
Print Assumptions C61_ends.
(* finding: with any data loading need not end: a field of size -12 is read again and again *)
Definition endless : list Z := le_bytes 4 1005 ++ le_bytes 4 0 ++ le_bytes 4 12 ++ (le_bytes 4 7 ++ le_bytes 4 7 ++ le_bytes 4 4294967284).
Theorem C61_ends_refuted : Forall is_byte endless /\ forall fuel, LoadVersionedBinary fuel new_E no_load endless (mk_vs 0 (repeat 9 60)) 8 5 = Fuel.
Proof.
  split; [repeat constructor; cbn; lia|].
  assert (HL : forall n m, vb_class_loop new_E endless no_load n (mk_vs 12 m) 8 5 24 = Fuel).
  { intros n m. induction n as [|n IH]; [reflexivity|]. rewrite class_loop_S. change (u32 (vs_pos (mk_vs 12 m)) <? 24) with true. cbv match. destruct n as [|n]; [reflexivity|].
    assert (HF : vb_LoadClassField new_E endless no_load (S n) (mk_vs 12 m) 8 5 = Ok (mk_vs 12 m)) by (rewrite class_field_S; vm_compute; reflexivity). rewrite HF. cbn [obind]. exact IH. }
  intros [|n]; [reflexivity|]. unfold LoadVersionedBinary. assert (R1 : vb_u32 endless 0 = Ok (1005, 4)) by reflexivity. assert (R2 : vb_u32 endless 4 = Ok (0, 8)) by reflexivity. assert (R3 : vb_u32 endless 8 = Ok (12, 12)) by reflexivity.
  cbn [vs_pos vs_mem]. rewrite R1. cbn [obind fst snd]. rewrite R2. cbn [obind fst snd]. rewrite R3. cbn [obind fst snd]. rewrite load_object_S. cbn [get_type new_E nth_error obind rt_hash]. change (negb (1005 =? 1005)) with false. cbv match. cbn [rt_kind vs_pos]. change (u32 (u32 12 + 12)) with 24. apply HL.
Qed.
Print Assumptions C61_ends_refuted.
(* finding: a field of size -30 makes the next field be read before the data *)
Theorem C61_in_bounds_refuted : exists data, Forall is_byte data /\ LoadVersionedBinary 50 new_E no_load data (mk_vs 0 (repeat 9 60)) 8 5 = UB.
Proof.
  exists (le_bytes 4 1005 ++ le_bytes 4 0 ++ le_bytes 4 4294967283 ++ (le_bytes 4 7 ++ le_bytes 4 7 ++ le_bytes 4 4294967266)). split; [repeat constructor; cbn; lia|]. vm_compute. reflexivity.
Qed.
Print Assumptions C61_in_bounds_refuted.
Example C61_witness : vb_types_ok new_E /\ enums_wide new_E /\ Forall (fun b => 0 <= b < 128) (repeat 5 40) /\ block (repeat 9 60) 8 52.
Proof.
  split; [exact new_ok|]. split; [|split; [repeat constructor; lia|split; cbn; lia]]. intros i t fl cs H Hk. six i H; try discriminate Hk; cbn; lia.
Qed.
