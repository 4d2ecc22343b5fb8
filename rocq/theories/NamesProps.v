(* C49, C50: function ids and name interning *)
From Verif Require Import Base BaseProofs Text HashModel HashSpec HashProofs Maps DatabaseModel NamesProofs.

(* C49: ids depend only on the spelled parameter types, in order *)
Theorem C49_spelling_only : forall ps qs, map spelled ps = map spelled qs ->
  CalculateFunctionUniqueID ps = CalculateFunctionUniqueID qs.
Proof.
  unfold CalculateFunctionUniqueID. intros ps qs. generalize 0 as acc. revert qs.
  induction ps as [|p ps IH]; intros [|q qs] acc H; try discriminate; [reflexivity|]. cbn [map] in H. injection H as H1 H2.
  cbn [unique_id]. unfold CalcFieldHash. rewrite H1. destruct (HashNameString (spelled q ++ [0]) 0); cbn [obind]; try reflexivity.
  destruct (MixHashes acc a); cbn [obind]; try reflexivity. apply IH. exact H2.
Qed.
Print Assumptions C49_spelling_only.
(* C49: lists that differ in the hash of one spelled parameter get different ids *)
Theorem C49_one_parameter_apart : forall pre p q post pre', Forall field_ok (pre ++ p :: post) -> Forall field_ok (pre' ++ q :: post) ->
  map fhash pre = map fhash pre' -> fhash p <> fhash q ->
  CalculateFunctionUniqueID (pre ++ p :: post) <> CalculateFunctionUniqueID (pre' ++ q :: post).
Proof. exact unique_id_one_apart. Qed.
Print Assumptions C49_one_parameter_apart.
(* a parameter as the programmer would write its type: const T, T*, T& *)
Definition as_written (p : field) : list Z :=
  (if q_const (f_qual p) then str "const " else []) ++ n_text (f_type p) ++ match q_op (f_qual p) with VALUE => [] | POINTER => str "*" | REFERENCE => str "&" end.
(* C49: what the id is: the hashes of the parameters as written, chained in order, each seeding the hash of the next *)
Theorem C49_chained_hash : forall ps, Forall (fun p => text_ok (as_written p)) ps ->
  CalculateFunctionUniqueID ps = Ok (fold_left (fun id p => hash32 (le_bytes 4 (hash32 (as_written p) 0)) id) ps 0).
Proof.
  unfold CalculateFunctionUniqueID. intros ps. assert (H0 : is_u32 0) by (unfold is_u32; lia). revert H0. generalize 0 at 1 2 4 as acc.
  induction ps as [|p ps IH]; intros acc Ha H; cbn [unique_id fold_left]; [reflexivity|]. inversion H as [|? ? Hp Hps]; subst. destruct (field_hash p Hp) as [Hh Hr]. rewrite Hh. cbn [obind].
  pose proof (mixhashes_spec acc _ Ha Hr) as HM. destruct (mixhashes_defined acc _ Ha Hr) as [x [Hx Hux]]. rewrite Hx in *. injection HM as HM. cbn [obind]. rewrite (IH x Hux Hps). subst x. reflexivity.
Qed.
Print Assumptions C49_chained_hash.
(* the id is always a 32-bit value *)
Theorem C49_defined : forall ps, Forall field_ok ps -> exists r, CalculateFunctionUniqueID ps = Ok r /\ is_u32 r.
Proof. intros ps H. apply unique_id_ok; [unfold is_u32; lia|exact H]. Qed.
Print Assumptions C49_defined.
Definition par (t : string) (q : qop) (c : bool) : field :=
  mk_field (mk_prim noname noname) (mk_name 1 (str t)) (mk_qual q c) 0 0.
Lemma par_ok : forall t q c, c_string (spelled (par t q c)) -> zlen (spelled (par t q c)) < 2 ^ 31 -> field_ok (par t q c).
Proof. intros. split; assumption. Qed.
Example C49_witness : field_ok (par "int" VALUE false) /\ field_ok (par "int" POINTER true) /\
  fhash (par "int" VALUE false) <> fhash (par "int" POINTER true) /\
  spelled (par "int" POINTER true) = str "const int*".
Proof.
  split; [apply par_ok; [unfold c_string; vm_compute; repeat (constructor; [split; reflexivity|]); constructor|vm_compute; reflexivity]|].
  split; [apply par_ok; [unfold c_string; vm_compute; repeat (constructor; [split; reflexivity|]); constructor|vm_compute; reflexivity]|].
  split; [vm_compute; discriminate|reflexivity].
Qed.

(* C50: what a call returns, after any history of calls that did not trap *)
Theorem C50_returns_the_name : forall hist m t nm m', Forall text_ok hist -> text_ok t ->
  get_names [] hist = Ok m -> hash32 t 0 <> 0 -> GetName m (Some t) = Ok (nm, m') ->
  n_text nm = t /\ n_hash nm = hash32 t 0 /\ GetNameH m' (hash32 t 0) = nm /\ GetName m' (Some t) = Ok (nm, m').
Proof.
  intros hist m t nm m' Hh Ht Hm Hz H. exact (get_name_result m t nm m' (get_names_ok hist [] m names_ok_nil Hh Hm) Ht Hz H).
Qed.
Print Assumptions C50_returns_the_name.
(* names never disappear or change, whatever is asked later *)
Theorem C50_names_stay : forall hist later m m' h nm, Forall text_ok (hist ++ later) ->
  get_names [] hist = Ok m -> get_names m later = Ok m' -> m_find h m = Some nm -> m_find h m' = Some nm.
Proof.
  intros hist later m m' h nm Hall Hm Hm' Hf. apply Forall_app in Hall. destruct Hall as [H1 H2].
  exact (get_names_keeps later m m' h nm (get_names_ok hist [] m names_ok_nil H1 Hm) H2 Hm' Hf).
Qed.
Print Assumptions C50_names_stay.
(* the table is exactly the set of texts asked for *)
Theorem C50_table_content : forall hist m, Forall text_ok hist -> get_names [] hist = Ok m ->
  forall h nm, m_find h m = Some nm <->
    (In (n_text nm) hist /\ nm = mk_name h (n_text nm) /\ hash32 (n_text nm) 0 = h /\ h <> 0).
Proof.
  intros hist m Hh Hm h nm. rewrite (get_names_content hist [] m names_ok_nil Hh Hm h nm). cbn [m_find].
  split; [intros [H|H]; [discriminate|exact H]|tauto].
Qed.
Print Assumptions C50_table_content.
(* a collision traps, and only a collision does *)
Theorem C50_collision_traps : forall hist m t, Forall text_ok hist -> text_ok t -> get_names [] hist = Ok m ->
  (GetName m (Some t) = Trap <-> hash32 t 0 <> 0 /\ exists u, In u hist /\ u <> t /\ hash32 u 0 = hash32 t 0).
Proof.
  intros hist m t Hh Ht Hm. pose proof (get_names_ok hist [] m names_ok_nil Hh Hm) as Hn.
  pose proof (get_names_content hist [] m names_ok_nil Hh Hm) as Hc.
  destruct (get_name_cases m t Hn Ht) as [[E1 E2]|[[E1 [E2 E3]]|[[E1 [[nm [Ea Eb]] E3]]|[E1 [E2 E3]]]]]; cbn zeta in *.
  - rewrite E2. split; [discriminate|]. intros [H _]. contradiction.
  - rewrite E3. split; [discriminate|]. intros [_ [u [Hu [Hne Hhash]]]].
    assert (Hf : m_find (hash32 t 0) m = Some (mk_name (hash32 t 0) u)) by (apply Hc; right; cbn; auto).
    rewrite E2 in Hf. injection Hf as Hf. congruence.
  - split; [|intros _; exact E3]. intros _. split; [exact E1|]. exists (n_text nm).
    apply Hc in Ea. cbn [m_find] in Ea. destruct Ea as [Ea|[Ea1 [Ea2 [Ea3 Ea4]]]]; [discriminate|]. auto.
  - rewrite E3. split; [discriminate|]. intros [_ [u [Hu [Hne Hhash]]]].
    assert (Hf : m_find (hash32 t 0) m = Some (mk_name (hash32 t 0) u)) by (apply Hc; right; cbn; auto).
    congruence.
Qed.
Print Assumptions C50_collision_traps.
(* finding: some C++ identifiers hash to zero and lose their text *)
Theorem C50_zero_hash_refuted : GetName [] (Some (str "aboe0MHb")) = Ok (noname, []).
Proof. vm_compute. reflexivity. Qed.
Print Assumptions C50_zero_hash_refuted.
Example C50_witness : exists m, get_names [] [str "int"; str "A::b"; str "int"] = Ok m /\ length m = 2%nat /\
  Forall text_ok [str "int"; str "A::b"] /\ hash32 (str "int") 0 <> 0.
Proof.
  eexists. split; [vm_compute; reflexivity|]. split; [reflexivity|]. split; [|vm_compute; discriminate].
  repeat (constructor; [split; [unfold c_string; vm_compute; repeat (constructor; [split; reflexivity|]); constructor|vm_compute; reflexivity]|]). constructor.
Qed.
