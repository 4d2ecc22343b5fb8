(* The command lines of the tools. *)
From Coq Require Import String.
From Verif Require Import Base BaseProofs Text Maps HashModel DatabaseModel NamesProofs MergeModel MergeSpec MergeProofs BinaryModel BinarySpec BinaryProps
  TextDbModel TextDbSpec TextDbProps CodeGenModel CodeGenSpec CodeGenProps ExportModel ScanModel MapFileModel MapNameProofs
  PipeSpec PipeInvProofs PipeFileProofs PipeMergeProofs PipeScanProofs PipeExportProofs ToolsModel ToolsSpec.
From Verif Require ScanSpec.
Local Open Scope list_scope.
Local Open Scope Z_scope.

Lemma path_eqb_spec : forall a b, reflect (a = b) (path_eqb a b).
Proof. intros a b. unfold path_eqb. destruct (list_eq_dec Z.eq_dec a b); constructor; assumption. Qed.
Lemma put_same : forall d p c, put d p c p = Some c.
Proof. intros d p c. unfold put. destruct (path_eqb_spec p p); congruence. Qed.
Lemma put_other : forall d p c q, q <> p -> put d p c q = d q.
Proof. intros d p c q H. unfold put. destruct (path_eqb_spec q p); congruence. Qed.

(* ---- EndsWith ---- *)
Lemma ends_with_csv : forall s, zlen s < 2 ^ 63 -> (EndsWith s (str ".csv") = true <-> text_name s).
Proof.
  intros s Hl. unfold EndsWith, string_rfind, text_name, csv_name. rewrite Z.eqb_eq. set (e := str ".csv") in *. assert (He : length e = 4%nat) by reflexivity.
  assert (Ze : zlen e = 4) by reflexivity. rewrite Ze. unfold zlen in *. 
  destruct (rfind_from s e 0 None) as [j|] eqn:R.
  - apply rfind_some in R. destruct R as [a [b [E [J [_ M]]]]]. cbn in J. subst j.
    assert (Ls : length s = (length a + (4 + length b))%nat) by (rewrite E, !app_length, He; reflexivity).
    replace (u64 (Z.of_nat (length a))) with (Z.of_nat (length a)) by (symmetry; unfold u64; apply Z.mod_small; lia).
    replace (u64 (Z.of_nat (length s) - 4)) with (Z.of_nat (length s) - 4) by (symmetry; unfold u64; apply Z.mod_small; lia).
    split.
    + intros H. left. exists a. assert (length b = 0%nat) by lia. destruct b; [|discriminate]. rewrite app_nil_r in E. exact E.
    + intros [[q Hq]|H]; [|lia]. specialize (M q []). rewrite app_nil_r in M. specialize (M Hq I). assert (length s = (length q + 4)%nat) by (rewrite Hq, app_length, He; reflexivity). lia.
  - pose proof (rfind_none _ _ _ _ R) as N. split.
    + intros H. right. change (u64 (-1)) with (2 ^ 64 - 1) in H. unfold u64 in H. destruct (Z.leb_spec 4 (Z.of_nat (length s))).
      * rewrite Z.mod_small in H by lia. lia.
      * replace (Z.of_nat (length s) - 4) with (Z.of_nat (length s) - 4 + 2 ^ 64 + (-1) * 2 ^ 64) in H by ring. rewrite Z.mod_add in H by lia. rewrite Z.mod_small in H by lia. lia.
    + intros [[q Hq]|H]; [exfalso; refine (N q [] _); rewrite app_nil_r; exact Hq|]. rewrite H. reflexivity.
Qed.

(* ---- reading what was written ---- *)
Lemma text_not_binary : forall pf db file, WriteTextDatabase pf db = Ok file -> ReadBinaryDatabase (Some file) db_empty = Ok None.
Proof.
  intros pf db file H. unfold WriteTextDatabase in H. repeat (apply obind_ok in H; destruct H as [? [_ H]]).
  match type of H with Ok (_ ++ ?t) = _ => set (r := t) in * end. assert (file = text_header ++ r) by congruence. subst file. clear.
  assert (X : IsBinaryDatabase (Some (text_header ++ r)) = Ok false).
  { unfold IsBinaryDatabase, ReadU32, fread.
    assert (L : 8 <= zlen (text_header ++ r)) by (unfold zlen; rewrite app_length; change (length text_header) with 40%nat; lia).
    replace (4 <=? zlen (text_header ++ r)) with true by lia. cbn [obind fst snd].
    assert (L2 : 4 <= zlen (skipn (Z.to_nat 4) (text_header ++ r))) by (unfold zlen in *; rewrite skipn_length; lia).
    replace (4 <=? zlen (skipn (Z.to_nat 4) (text_header ++ r))) with true by lia. cbn [obind fst snd].
    replace (le_val (firstn (Z.to_nat 4) (text_header ++ r)) =? FILE_HEADER) with false; [reflexivity|]. reflexivity. }
  unfold ReadBinaryDatabase. rewrite X. reflexivity.
Qed.
Lemma written_text : forall pf sf db, text_storable pf db ->
  exists file, WriteTextDatabase pf db = Ok file /\ read_database sf (Some file) = Ok (Some (text_stored pf sf db)).
Proof.
  intros pf sf db H. destruct (C37_round_trip pf sf db H) as [file [W R]]. exists file. split; [exact W|]. unfold read_database. rewrite (text_not_binary _ _ _ W).
  destruct (R []) as [_ X]. rewrite app_nil_r in X. apply X. constructor. intros [].
Qed.
Lemma written_binary : forall sf db, inv db -> fits db -> distinct_texts db ->
  exists file, WriteBinaryDatabase db = Ok file /\ read_database sf (Some file) = Ok (Some db).
Proof.
  intros sf db H F T. pose proof (C39_round_trip db (inv_storable db H F) T) as R. rewrite (inv_stored db H) in R. destruct R as [file [W R]]. exists file. split; [exact W|].
  specialize (R []). rewrite app_nil_r in R. unfold read_database. rewrite (proj2 R). reflexivity.
Qed.
Lemma text_name_dec : forall p, zlen p < 2 ^ 63 -> text_name p \/ ~ text_name p.
Proof. intros p H. pose proof (ends_with_csv p H) as E. destruct (EndsWith p (str ".csv")); [left; apply E; reflexivity|right; intros X; apply E in X; discriminate]. Qed.
Lemma WriteDatabase_ok : forall can pf sf d db p, zlen p < 2 ^ 63 -> can p = true -> inv db -> fits_file pf p db ->
  exists file db', WriteDatabase can pf d db p = Ok (put d p file) /\ given_back pf sf p db db' /\ read_database sf (Some file) = Ok (Some db') /\
    (text_name p -> WriteTextDatabase pf db = Ok file) /\ (~ text_name p -> WriteBinaryDatabase db = Ok file).
Proof.
  intros can pf sf d db p Hl Hc Hi [K1 K2]. unfold WriteDatabase. pose proof (ends_with_csv p Hl) as E. destruct (EndsWith p (str ".csv")).
  - assert (T : text_name p) by (apply E; reflexivity). destruct (written_text pf sf db (inv_text pf db Hi (K1 T))) as [file [W R]].
    exists file, (text_stored pf sf db). unfold write_text. rewrite Hc, W. split; [reflexivity|]. split; [split; [auto|contradiction]|]. split; [exact R|]. split; [auto|]. intros N. destruct (N T).
  - assert (T : ~ text_name p) by (intros X; apply E in X; discriminate). destruct (K2 T) as [F X]. destruct (written_binary sf db Hi F X) as [file [W R]].
    exists file, db. unfold write_binary. rewrite Hc, W. split; [reflexivity|]. split; [split; [contradiction|auto]|]. split; [exact R|]. split; [contradiction|]. auto.
Qed.
Lemma scan_main_ok : forall can pf sf fuel d p tus db w, scan fuel sf tus = Ok (db, w) -> p <> [] -> zlen p < 2 ^ 63 -> can p = true -> fits_file pf p db ->
  exists file db', scan_main can pf sf fuel d p tus = Ok (0, put d p file) /\ given_back pf sf p db db' /\ read_database sf (Some file) = Ok (Some db') /\
    (text_name p -> WriteTextDatabase pf db = Ok file) /\ (~ text_name p -> WriteBinaryDatabase db = Ok file).
Proof.
  intros can pf sf fuel d p tus db w H Hp Hl Hc K. destruct (WriteDatabase_ok can pf sf d db p Hl Hc (scan_inv _ _ _ _ _ H) K) as [file [db' [W R]]]. exists file, db'. split; [|exact R].
  unfold scan_main. rewrite H. cbn [obind fst]. destruct p; [congruence|]. rewrite W. reflexivity.
Qed.

(* ---- merging: the database it makes is again one of interned, sorted tables ---- *)
Lemma merged_inv : forall ds d', Forall inv ds -> Forall wf_db ds -> MergeAll db_empty ds = Ok d' -> inv d'.
Proof.
  intros ds d' Hi Hw Hm. pose proof (rows_of_runs ds d' Hi Hw Hm) as R. pose proof (merged_wf ds d' Hw Hm) as W.
  assert (R16 : of_runs ds d' m_inherits) by exact (proj1 (first_row _ m_inherits ds d' (first_inherits ds d' Hw Hm))).
  destruct R as [R1 [R2 [R3 [R4 [R5 [R6 [R7 [R8 [R9 [R10 [R11 [R12 [R13 [R14 R15]]]]]]]]]]]]]].
  assert (G : forall n s, In s ds -> known (m_names s) n -> known (m_names d') n) by (intros n s Hs; exact (lift ds d' Hw Hm s n Hs)).
  pose proof (all_names ds db_empty d' wf_empty Hw Hm) as AN. rewrite Forall_forall in Hi.
  split.
  - split; [exact (proj1 (proj1 W))|]. intros h n Hin.
    assert (F : m_find h (m_names d') = Some n) by (apply ssorted_find; [exact (proj1 (proj1 W))|exact Hin]). apply AN in F. destruct F as [s [[<-|Hs] F]]; [discriminate F|].
    destruct (Hi s Hs) as [[S1 S2] _]. apply S2. apply m_find_In in F; exact F.
  - assert (GS : forall s, In s ds -> sound (m_names d') s) by (intros s Hs; destruct (Hi s Hs) as [_ X]; revert X; apply sound_mono; intros n; apply G; exact Hs).
    assert (T : forall X (nm : X -> name) (g : X -> Prop) (sel : database -> zmap X), of_runs ds d' sel -> wf_table nm (sel d') -> (forall s, In s ds -> tab nm g (sel s)) -> tab nm g (sel d')).
    { intros X nm g sel HR [Hs HW] HT. split; [exact Hs|]. intros k v Hin. destruct (HR k v Hin) as [s [A B]]. destruct (HT s A) as [_ C]. exact (C k v B). }
    assert (T1 : forall X (nm : X -> name) (g : X -> Prop) (sel : database -> zmap X), of_runs ds d' sel -> wf_map nm (sel d') -> (forall s, In s ds -> tab1 nm g (sel s)) -> tab1 nm g (sel d')).
    { intros X nm g sel HR [Hs HW] HT. split; [exact Hs|]. intros k v Hin. destruct (HR k v Hin) as [s [A B]]. destruct (HT s A) as [_ C]. exact (C k v B). }
    unfold wf_db in W. unfold sound in *.
    repeat match goal with
    | |- _ /\ _ => split
    | |- tab ?nm ?g (?sel d') => apply (T _ nm g sel); [assumption|tauto|intros s Hs; specialize (GS s Hs); tauto]
    | |- tab1 ?nm ?g (?sel d') => apply (T1 _ nm g sel); [assumption|tauto|intros s Hs; specialize (GS s Hs); tauto]
    end.
Qed.

(* ---- Arguments ---- *)
Lemma index_from_spec : forall args o i, match index_from args o i with
  | Some k => exists a b, args = a ++ o :: b /\ ~ In o a /\ k = (i + length a)%nat
  | None => ~ In o args end.
Proof.
  induction args as [|x r IH]; intros o i; cbn [index_from]; [intros []|]. destruct (path_eqb_spec x o) as [->|N].
  - exists [], r. split; [reflexivity|]. split; [intros []|]. cbn. lia.
  - specialize (IH o (S i)). destruct (index_from r o (S i)).
    + destruct IH as [a [b [E [Ha Hk]]]]. exists (x :: a), b. split; [rewrite E; reflexivity|]. split; [intros [H|H]; auto|]. cbn. lia.
    + intros [H|H]; auto.
Qed.
Lemma first_split : forall T (a a' b b' : list T) o, a ++ o :: b = a' ++ o :: b' -> ~ In o a -> ~ In o a' -> a = a' /\ b = b'.
Proof.
  induction a as [|x a IH]; intros a' b b' o E Ha Ha'; destruct a' as [|y a']; cbn in E.
  - injection E as E. auto.
  - injection E as -> E. exfalso. apply Ha'. left. reflexivity.
  - injection E as -> E. exfalso. apply Ha. left. reflexivity.
  - injection E as -> E. destruct (IH a' b b' o E) as [-> ->]; [intros H; apply Ha; right; exact H|intros H; apply Ha'; right; exact H|]. auto.
Qed.
Lemma GetProperty_cases : forall args o, (option_value args o (GetProperty args o) \/ GetProperty args o = [] /\ (~ In o args \/ exists a, args = a ++ [o] /\ ~ In o a)).
Proof.
  intros args o. unfold GetProperty, GetIndexOf. pose proof (index_from_spec args o 0) as H. destruct (index_from args o 0) as [k|]; [|right; auto].
  destruct H as [a [b [E [Ha Hk]]]]. cbn in Hk. subst k. destruct b as [|v b].
  - right. split; [rewrite E; apply nth_overflow; rewrite app_length; cbn; lia|right; exists a; auto].
  - left. exists a, b. split; [|exact Ha]. rewrite E at 1. f_equal. f_equal. f_equal. rewrite E. rewrite app_nth2 by lia. replace (S (length a) - length a)%nat with 1%nat by lia. reflexivity.
Qed.
Lemma GetProperty_value : forall args o v, option_value args o v -> GetProperty args o = v.
Proof.
  intros args o v [a [b [E Ha]]]. pose proof (GetProperty_cases args o) as C. generalize dependent (GetProperty args o). intros g C. destruct C as [[a' [b' [E' Ha']]]|[_ [N|[a' [E' Ha']]]]].
  - rewrite E in E'. apply first_split in E'; auto. destruct E' as [_ E']. congruence.
  - exfalso. apply N. rewrite E. apply in_elt.
  - rewrite E in E'. apply (first_split _ a a' (v :: b) [] o) in E'; auto. destruct E'. discriminate.
Qed.
Lemma GetProperty_none : forall args o, no_value args o -> GetProperty args o = [].
Proof.
  intros args o H. destruct (GetProperty_cases args o) as [V|[E _]]; [|exact E]. destruct H as [N|[[a [E Ha]]|V']].
  - destruct V as [a [b [E _]]]. exfalso. apply N. rewrite E. apply in_elt.
  - destruct V as [a' [b' [E' Ha']]]. rewrite E in E' at 1. apply (first_split _ a a' [] (GetProperty args o :: b') o) in E'; auto. destruct E'. discriminate.
  - apply GetProperty_value. exact V'.
Qed.
Lemma GetProperty_some : forall args o v, GetProperty args o = v -> v <> [] -> option_value args o v.
Proof. intros args o v H N. destruct (GetProperty_cases args o) as [V|[E _]]; [rewrite H in V; exact V|congruence]. Qed.
Lemma is_nil_spec : forall p : path, reflect (p = []) (is_nil p).
Proof. intros [|c p]; constructor; congruence. Qed.
Lemma GetProperty_skip : forall x args o, x <> o -> GetProperty (x :: args) o = GetProperty args o.
Proof.
  intros x args o H. unfold GetProperty, GetIndexOf. cbn [index_from]. destruct (path_eqb_spec x o); [congruence|].
  assert (G : forall r i, index_from r o (S i) = option_map S (index_from r o i)).
  { induction r as [|y r IH]; intros i; cbn [index_from]; [reflexivity|]. destruct (path_eqb y o); [reflexivity|apply IH]. }
  rewrite G. destruct (index_from args o 0); reflexivity.
Qed.
Lemma GetProperty_here : forall v args o, GetProperty (o :: v :: args) o = v.
Proof. intros v args o. apply GetProperty_value. exists [], args. split; [reflexivity|intros []]. Qed.
Lemma GetProperty_absent : forall args o, ~ In o args -> GetProperty args o = [].
Proof. intros args o H. apply GetProperty_none. left. exact H. Qed.

(* ---- clmerge ---- *)
Lemma merge_files_ok : forall sf d fs dbs, Forall2 (fun f x => read_database sf (d f) = Ok (Some x)) fs dbs -> forall db,
  merge_files sf d fs db = do m <- MergeAll db dbs; Ok (Some m).
Proof.
  intros sf d fs dbs H. induction H as [|f x fs dbs Hf _ IH]; intros db; cbn [merge_files MergeAll obind]; [reflexivity|].
  rewrite Hf. cbn [obind]. destruct (MergeDatabases db x); cbn [obind]; [apply IH|reflexivity..].
Qed.
Lemma merge_files_app : forall sf d a dbs m b db, Forall2 (fun f x => read_database sf (d f) = Ok (Some x)) a dbs -> MergeAll db dbs = Ok m ->
  merge_files sf d (a ++ b) db = merge_files sf d b m.
Proof.
  intros sf d a dbs m b db H. revert db. induction H as [|f x fs dbs Hf _ IH]; intros db Hm; cbn [merge_files MergeAll app] in *; [congruence|].
  rewrite Hf. cbn [obind]. apply obind_ok in Hm. destruct Hm as [d1 [E Hm]]. rewrite E. cbn [obind]. apply IH. exact Hm.
Qed.
Lemma options_ok : forall exe out opts cpp h fs, merge_options opts cpp h -> plain_word exe -> plain_word out -> Forall plain_word fs ->
  let args := exe :: out :: opts ++ fs in
  GetProperty args opt_cpp = cpp /\ GetProperty args opt_h = h /\
  skipn (2 + (if is_nil cpp then 0 else 2) + (if is_nil h then 0 else 2)) args = fs.
Proof.
  intros exe out opts cpp h fs H [E1 E2] [O1 O2] Hf args. subst args. rewrite Forall_forall in Hf.
  assert (N1 : ~ In opt_cpp fs) by (intros X; exact (proj1 (Hf _ X) eq_refl)). assert (N2 : ~ In opt_h fs) by (intros X; exact (proj2 (Hf _ X) eq_refl)).
  assert (D : opt_cpp <> opt_h) by discriminate.
  change (str "-cpp_codegen") with opt_cpp in *. change (str "-h_codegen") with opt_h in *.
  rewrite (GetProperty_skip exe _ opt_cpp E1), (GetProperty_skip out _ opt_cpp O1), (GetProperty_skip exe _ opt_h E2), (GetProperty_skip out _ opt_h O2).
  clear E1 E2 O1 O2 Hf. destruct H as [|c Hc [P1 P2]|h Hh [P1 P2]|c h Hc Hh [P1 P2] [P3 P4]|c h Hc Hh [P1 P2] [P3 P4]];
    change (str "-cpp_codegen") with opt_cpp in *; change (str "-h_codegen") with opt_h in *; cbn [app].
  - rewrite !GetProperty_absent by assumption. auto.
  - rewrite GetProperty_here, (GetProperty_skip _ _ _ D), (GetProperty_skip _ _ _ P2), GetProperty_absent by exact N2. destruct (is_nil_spec c); [contradiction|]. auto.
  - rewrite GetProperty_here, GetProperty_skip, GetProperty_skip, GetProperty_absent by auto. destruct (is_nil_spec h); [contradiction|]. auto.
  - rewrite GetProperty_here, (GetProperty_skip opt_cpp _ opt_h D), (GetProperty_skip c _ opt_h P2), GetProperty_here. destruct (is_nil_spec c); [contradiction|]. destruct (is_nil_spec h); [contradiction|]. auto.
  - rewrite GetProperty_here, GetProperty_skip, (GetProperty_skip h _ opt_cpp P3), GetProperty_here by auto. destruct (is_nil_spec c); [contradiction|]. destruct (is_nil_spec h); [contradiction|]. auto.
Qed.
Lemma merge_main_form : forall can pf sf n exe out opts cpp h fs d, merge_options opts cpp h -> plain_word exe -> plain_word out -> Forall plain_word fs -> opts ++ fs <> [] ->
  merge_main can pf sf n (exe :: out :: opts ++ fs) d =
    do m <- merge_files sf d fs db_empty;
    match m with
    | None => Ok (1, d)
    | Some db => do d <- write_text can pf d out db; if negb (is_nil cpp) || negb (is_nil h) then do d <- generate can n d cpp h db; Ok (0, d) else Ok (0, d)
    end.
Proof.
  intros can pf sf n exe out opts cpp h fs d H He Ho Hf Hne. destruct (options_ok exe out opts cpp h fs H He Ho Hf) as [A [B C]]. unfold merge_main. cbv zeta. rewrite A, B.
  match goal with |- context [merge_files sf d ?x db_empty] => replace (merge_files sf d x db_empty) with (merge_files sf d fs db_empty) by (f_equal; symmetry; exact C) end.
  match goal with |- (if ?b then _ else _) = _ => assert (E : b = false) by (apply Nat.ltb_ge; destruct (opts ++ fs); [congruence|cbn; lia]) end.
  rewrite E. reflexivity.
Qed.
Lemma left_file_other : forall can d p c q, q <> p -> left_file can d p c q = d q.
Proof. intros can d p c q H. unfold left_file. destruct c as [[c|]|]; [|reflexivity..]. destruct (can p); [apply put_other; exact H|reflexivity]. Qed.
Lemma left_file_closed : forall can d p c, can p = false -> left_file can d p c = d.
Proof. intros can d p c H. unfold left_file. rewrite H. destruct c as [[c|]|]; reflexivity. Qed.
Lemma left_file_open : forall can d p c h x, can p = true -> left_by c h (Some (d p)) x -> left_by c h (Some (d p)) (Some (left_file can d p x p)).
Proof.
  intros can d p c h x Hc H. unfold left_file. rewrite Hc. destruct x as [[x|]|]; [rewrite put_same; exact H|..]; cbn [left_by] in H; destruct (d p); contradiction.
Qed.
Lemma generate_ok : forall can n d cpp h db, db_ok db -> (length (namespaces db) + 2 <= n)%nat -> can [] = false -> (cpp <> [] -> h <> [] -> cpp <> h) ->
  exists c hc hd hh, GenMergedCppImpl n (Some None) (Some None) db = Ok (Some (Some c), Some (Some hd)) /\ hashed_file c hc /\ hashed_file hd hh /\
  exists d', generate can n d cpp h db = Ok d' /\ only [cpp; h] d d' /\
    (can cpp = true -> left_by c hc (Some (d cpp)) (Some (d' cpp))) /\ (can h = true -> left_by hd hh (Some (d h)) (Some (d' h))) /\
    (can cpp = false -> d' cpp = d cpp) /\ (can h = false -> d' h = d h).
Proof.
  intros can n d cpp h db Hok Hn Hc Hd. destruct (C69_gate db n Hok Hn) as [c [hd [hc [hh [G [A [_ [B [_ X]]]]]]]]]. exists c, hc, hd, hh. split; [exact G|]. split; [exact A|]. split; [exact B|].
  destruct (X (Some (d cpp)) None) as [c1 [h1 [E1 [L1 _]]]]. set (d1 := left_file can d cpp c1).
  destruct (X None (Some (d1 h))) as [c2 [h2 [E2 [_ L2]]]]. exists (left_file can d1 h h2). unfold generate. rewrite E1. cbn [obind fst]. fold d1. rewrite E2. cbn [obind snd].
  split; [reflexivity|].
  assert (K : can cpp = true -> can h = true -> cpp <> h).
  { intros K1 K2. apply Hd; intros ->; congruence. }
  assert (F1 : can cpp = true -> left_file can d1 h h2 cpp = d1 cpp).
  { intros K1. destruct (can h) eqn:K2; [apply left_file_other; auto|rewrite left_file_closed by exact K2; reflexivity]. }
  assert (F2 : can h = true -> d1 h = d h).
  { intros K2. unfold d1. destruct (can cpp) eqn:K1; [apply left_file_other; intros E; apply (K eq_refl K2); auto|rewrite left_file_closed by exact K1; reflexivity]. }
  split; [|split; [|split; [|split]]].
  - intros p Hp. rewrite left_file_other by (intros ->; apply Hp; right; left; reflexivity). apply left_file_other. intros ->. apply Hp. left. reflexivity.
  - intros K1. rewrite (F1 K1). apply left_file_open; [exact K1|exact L1].
  - intros K2. rewrite <- (F2 K2). apply left_file_open; [exact K2|exact L2].
  - intros K1. destruct (can h) eqn:K2.
    + rewrite left_file_other by (intros ->; congruence). unfold d1. rewrite left_file_closed by exact K1. reflexivity.
    + rewrite left_file_closed by exact K2. unfold d1. rewrite left_file_closed by exact K1. reflexivity.
  - intros K2. rewrite left_file_closed by exact K2. unfold d1. destruct (can cpp) eqn:K1; [apply left_file_other; intros ->; congruence|rewrite left_file_closed by exact K1; reflexivity].
Qed.
Lemma generate_only : forall can n d cpp h db d', can [] = false -> generate can n d cpp h db = Ok d' ->
  forall p, d' p <> d p -> p = cpp /\ cpp <> [] \/ p = h /\ h <> [].
Proof.
  intros can n d cpp h db d' Hc H p Hp. unfold generate in H. apply obind_ok in H. destruct H as [a [_ H]]. apply obind_ok in H. destruct H as [b [_ H]].
  match type of H with Ok ?x = _ => assert (E : d' = x) by congruence end. subst d'. clear H.
  destruct (list_eq_dec Z.eq_dec p h) as [->|N2].
  - right. split; [reflexivity|]. intros ->. rewrite (left_file_closed can _ [] _ Hc) in Hp. destruct (list_eq_dec Z.eq_dec [] cpp) as [<-|N1].
    + rewrite (left_file_closed can _ [] _ Hc) in Hp. congruence.
    + rewrite left_file_other in Hp by exact N1. congruence.
  - rewrite left_file_other in Hp by exact N2. destruct (list_eq_dec Z.eq_dec p cpp) as [->|N1]; [|rewrite left_file_other in Hp by exact N1; congruence].
    left. split; [reflexivity|]. intros ->. rewrite (left_file_closed can _ [] _ Hc) in Hp. congruence.
Qed.
Lemma merge_files_none : forall sf d fs db, merge_files sf d fs db = Ok None -> exists f, In f fs /\ read_database sf (d f) = Ok None.
Proof.
  intros sf d. induction fs as [|f fs IH]; intros db H; cbn [merge_files] in H; [discriminate|]. apply obind_ok in H. destruct H as [x [E H]]. destruct x as [x|].
  - apply obind_ok in H. destruct H as [d1 [_ H]]. destruct (IH _ H) as [g [A B]]. exists g. split; [right; exact A|exact B].
  - exists f. split; [left; reflexivity|exact E].
Qed.
Lemma merge_files_some : forall sf d fs db m, merge_files sf d fs db = Ok (Some m) ->
  exists dbs, Forall2 (fun f x => read_database sf (d f) = Ok (Some x)) fs dbs /\ MergeAll db dbs = Ok m.
Proof.
  intros sf d. induction fs as [|f fs IH]; intros db m H; cbn [merge_files] in H; [exists []; split; [constructor|cbn; congruence]|].
  apply obind_ok in H. destruct H as [x [E H]]. destruct x as [x|]; [|discriminate]. apply obind_ok in H. destruct H as [d1 [E1 H]]. destruct (IH _ _ H) as [dbs [A B]].
  exists (x :: dbs). split; [constructor; assumption|]. cbn [MergeAll]. rewrite E1. exact B.
Qed.

(* ---- what text files keep ---- *)
Lemma text_int_range : forall v, 0 <= text_int v < 10 ^ 9.
Proof.
  intros v. unfold text_int. cbv zeta. pose proof (Z.mod_pos_bound v (2 ^ 32) ltac:(lia)) as H. destruct (Z.ltb_spec (v mod 2 ^ 32) (10 ^ 9)); [lia|].
  split; [apply Z.div_pos; lia|]. apply Z.div_lt_upper_bound; lia.
Qed.
Lemma text_int_id : forall v, 0 <= v < 10 ^ 9 -> text_int v = v.
Proof. intros v H. unfold text_int. cbv zeta. rewrite Z.mod_small by lia. destruct (Z.ltb_spec v (10 ^ 9)); lia. Qed.
Lemma text_u32_id : forall v, is_u32 v -> text_u32 v = v.
Proof. intros v H. unfold text_u32, is_u32 in *. apply Z.mod_small. lia. Qed.
Lemma text_u32_range : forall v, is_u32 (text_u32 v).
Proof. intros v. unfold text_u32, is_u32. apply Z.mod_pos_bound. lia. Qed.
Lemma mapped_keys : forall T (f : T -> T) m, keys (mapped f m) = keys m.
Proof. intros T f m. unfold keys, mapped. rewrite map_map. reflexivity. Qed.
Lemma mapped_In : forall T (f : T -> T) m k v, In (k, v) (mapped f m) <-> exists u, In (k, u) m /\ v = f u.
Proof.
  intros T f m k v. unfold mapped. rewrite in_map_iff. split.
  - intros [[k' u] [E H]]. cbn in E. injection E as <- <-. exists u. auto.
  - intros [u [H ->]]. exists (k, u). auto.
Qed.
Lemma mapped_tab : forall T nm (g : T -> Prop) (f : T -> T) m, (forall v, nm (f v) = nm v) -> (forall v, g v -> g (f v)) -> tab nm g m -> tab nm g (mapped f m).
Proof.
  intros T nm g f m Hn Hg [A B]. split; [rewrite mapped_keys; exact A|]. intros k v Hin. apply mapped_In in Hin. destruct Hin as [u [Hu ->]]. rewrite Hn. destruct (B k u Hu) as [X [Y Z]]. auto.
Qed.
Lemma mapped_tab1 : forall T nm (g : T -> Prop) (f : T -> T) m, (forall v, nm (f v) = nm v) -> (forall v, g v -> g (f v)) -> tab1 nm g m -> tab1 nm g (mapped f m).
Proof.
  intros T nm g f m Hn Hg [A B]. split; [rewrite mapped_keys; exact A|]. intros k v Hin. apply mapped_In in Hin. destruct Hin as [u [Hu ->]]. rewrite Hn. destruct (B k u Hu) as [X Y]. auto.
Qed.
Lemma u32_u64 : forall v, is_u32 v -> is_u64 v.
Proof. intros v H. unfold is_u32, is_u64 in *. lia. Qed.
Lemma text_stored_inv : forall pf sf d, inv d -> inv (text_stored pf sf d).
Proof.
  intros pf sf d [N H]. split; [exact N|]. unfold sound in *. cbn [text_stored m_names m_namespaces m_types m_templates m_template_types m_classes m_enums m_enum_consts m_functions m_fields m_flag_attrs m_int_attrs m_float_attrs m_prim_attrs m_text_attrs m_containers m_inherits].
  destruct H as [H1 [H2 [H3 [H4 [H5 [H6 [H7 [H8 [H9 [H10 [H11 [H12 [H13 [H14 [H15 H16]]]]]]]]]]]]]]].
  assert (S : forall v, is_s32 (text_int v)) by (intros v; pose proof (text_int_range v); unfold is_s32; lia).
  repeat match goal with |- _ /\ _ => split end; try assumption;
    [apply mapped_tab; [reflexivity| |exact H2]|apply mapped_tab; [reflexivity| |exact H4]|apply mapped_tab; [reflexivity| |exact H5]|apply mapped_tab; [reflexivity| |exact H6]
    |apply mapped_tab; [reflexivity| |exact H7]|apply mapped_tab; [reflexivity| |exact H8]|apply mapped_tab; [reflexivity| |exact H9]|apply mapped_tab; [reflexivity| |exact H11]
    |apply mapped_tab; [reflexivity| |exact H12]|apply mapped_tab1; [reflexivity| |exact H15]].
  - intros v [A B]. split; [exact A|]. apply u32_u64, text_u32_range.
  - intros v [A [B [C [D E]]]]. unfold text_ttype. split; [exact A|]. split; [apply u32_u64, text_u32_range|]. cbn [tt_types tt_ptrs]. rewrite !firstn_length, !app_length, !repeat_length. split; [|split; lia].
    rewrite Forall_forall in *. intros x Hx. assert (Hx' : In x (map fst (filter given (combine (tt_types v) (tt_ptrs v))) ++ repeat noname 4)).
    { rewrite <- (firstn_skipn 4). apply in_or_app. left. exact Hx. }
    apply in_app_or in Hx'. destruct Hx' as [Hx'|Hx']; [|apply repeat_spec in Hx'; left; exact Hx']. apply in_map_iff in Hx'. destruct Hx' as [[y b] [E1 Hy]]. cbn in E1. subst y. apply filter_In in Hy. destruct Hy as [Hy _]. apply in_combine_l in Hy. exact (C x Hy).
  - intros v [A B]. split; [exact A|]. apply u32_u64, text_u32_range.
  - intros v [A B]. split; [exact A|reflexivity].
  - intros v [A B]. split; [exact A|]. apply S.
  - intros v [A [B C]]. split; [exact A|]. split; [apply text_u32_range|reflexivity].
  - intros v [A [B C]]. split; [exact A|]. split; [exact B|]. apply text_u32_range.
  - intros v [A B]. split; [exact A|]. apply S.
  - intros v A. exact A.
  - intros v [A [B [C D]]]. split; [exact A|]. split; [exact B|]. split; [exact C|]. apply text_u32_range.
Qed.
Lemma text_fields : forall pf sf d k g, inv d -> (In (k, g) (m_fields (text_stored pf sf d)) <-> exists f, In (k, f) (m_fields d) /\ g = text_field f).
Proof.
  intros pf sf d k g [_ H]. unfold sound in H. cbn [text_stored m_fields]. rewrite mapped_In. assert (X : forall f, In (k, f) (m_fields d) -> text_u32 (f_parent_uid f) = f_parent_uid f).
  { intros f Hf. apply text_u32_id. destruct H as [_ [_ [_ [_ [_ [_ [_ [_ [[_ H] _]]]]]]]]]. destruct (H k f Hf) as [_ [_ [_ [_ G]]]]. exact G. }
  split; intros [f [A ->]]; exists f; (split; [exact A|]); unfold text_field; rewrite (X f A); reflexivity.
Qed.
Lemma text_functions : forall pf sf d, inv d -> m_functions (text_stored pf sf d) = m_functions d.
Proof.
  intros pf sf d [_ H]. unfold sound in H. cbn [text_stored m_functions]. destruct H as [_ [_ [_ [_ [_ [_ [_ [[_ H] _]]]]]]]].
  unfold mapped. rewrite <- (map_id (m_functions d)) at 2. apply map_ext_in. intros [k f] Hf. cbn [fst snd]. destruct (H k f Hf) as [_ [_ [_ [A B]]]].
  rewrite (text_u32_id _ A). f_equal. destruct f. cbn in *. congruence.
Qed.
Lemma text_consts : forall pf sf d k g, In (k, g) (m_enum_consts (text_stored pf sf d)) <-> exists f, In (k, f) (m_enum_consts d) /\ g = text_const f.
Proof. intros pf sf d k g. cbn [text_stored m_enum_consts]. rewrite mapped_In. reflexivity. Qed.
Lemma text_field_twice : forall f, text_field (text_field f) = text_field f.
Proof. intros f. unfold text_field. cbn [f_prim f_type f_qual f_offset f_parent_uid]. rewrite (text_int_id (text_int _)) by apply text_int_range. reflexivity. Qed.
Lemma text_const_twice : forall c, text_const (text_const c) = text_const c.
Proof. intros c. unfold text_const. cbn [ec_prim ec_value]. rewrite (text_int_id (text_int _)) by apply text_int_range. reflexivity. Qed.

(* ---- all three ---- *)
Lemma scan_runs_ok : forall can pf sf fuel jobs ds, Forall2 (job_leaves fuel can pf sf) jobs ds -> NoDup (map fst jobs) -> forall d,
  exists d1, scan_runs can pf sf fuel d jobs = Ok d1 /\ only (map fst jobs) d d1 /\
    Forall2 (fun f x => read_database sf (d1 f) = Ok (Some x)) (map fst jobs) ds.
Proof.
  intros can pf sf fuel jobs ds H. induction H as [|j db jobs ds Hj _ IH]; intros Hn d.
  - exists d. split; [reflexivity|]. split; [intros p _; reflexivity|constructor].
  - cbn [map] in Hn. apply NoDup_cons_iff in Hn. destruct Hn as [Hn1 Hn2]. destruct Hj as [J1 [J2 [J3 [J4 [J5 [found [w [J6 [J7 J8]]]]]]]]].
    destruct (scan_main_ok can pf sf fuel d (fst j) (snd j) found w J6 J1 J2 J4 J7) as [file [db' [A [B [C _]]]]].
    assert (db' = db) as ->.
    { destruct (text_name_dec (fst j) J2) as [T|T]; [rewrite (proj1 B T), (proj1 J8 T)|rewrite (proj2 B T), (proj2 J8 T)]; reflexivity. }
    destruct (IH Hn2 (put d (fst j) file)) as [d1 [D [E F]]]. exists d1. cbn [scan_runs map]. rewrite A. cbn [obind snd]. split; [exact D|]. split.
    + intros p Hp. rewrite E by (intros X; apply Hp; right; exact X). apply put_other. intros ->. apply Hp. left. reflexivity.
    + constructor; [|exact F]. rewrite E by exact Hn1. rewrite put_same. exact C.
Qed.
Lemma job_inv : forall can pf sf fuel j db, job_leaves fuel can pf sf j db -> inv db.
Proof.
  intros can pf sf fuel j db [_ [J2 [_ [_ [_ [found [w [J6 [_ J8]]]]]]]]]. apply scan_inv in J6. destruct (text_name_dec (fst j) J2) as [T|T]; [rewrite (proj1 J8 T)|rewrite (proj2 J8 T)]; [apply text_stored_inv; exact J6|exact J6].
Qed.
Lemma jobs_inv : forall can pf sf fuel jobs ds, Forall2 (job_leaves fuel can pf sf) jobs ds -> Forall inv ds.
Proof. intros can pf sf fuel jobs ds H. induction H; constructor; [eapply job_inv; eassumption|assumption]. Qed.
Lemma leaves_in : forall A B (R : A -> B -> Prop) l l', Forall2 R l l' -> (forall b, In b l' -> exists a, In a l /\ R a b) /\ (forall a, In a l -> exists b, In b l' /\ R a b).
Proof.
  intros A B R l l' H. induction H as [|a b l l' Hab _ [IH1 IH2]]; [split; intros x []|]. split.
  - intros x [<-|Hx]; [exists a; split; [left; reflexivity|exact Hab]|]. destruct (IH1 x Hx) as [y [C D]]. exists y. split; [right; exact C|exact D].
  - intros x [<-|Hx]; [exists b; split; [left; reflexivity|exact Hab]|]. destruct (IH2 x Hx) as [y [C D]]. exists y. split; [right; exact C|exact D].
Qed.
Lemma Forall2_head : forall A B (R : A -> B -> Prop) a b l l', Forall2 R (a :: l) (b :: l') -> R a b.
Proof. intros A B R a b l l' H. inversion H. assumption. Qed.
(* rows of one kind, as text files keep them *)
Lemma text_rows : forall T (sel : database -> zmap T) (nm : T -> name) (ev : T -> ScanSpec.event) (tf : T -> T) can pf sf fuel jobs ds,
  (forall v, tf (tf v) = tf v) ->
  (forall fuel tus d w, ScanSpec.coherent (ScanSpec.units tus) -> scan fuel sf tus = Ok (d, w) -> forall k v, In (k, v) (sel d) <-> k = n_hash (nm v) /\ ScanSpec.given sf tus (ev v)) ->
  (forall d k v, inv d -> In (k, v) (sel (text_stored pf sf d)) <-> exists u, In (k, u) (sel d) /\ v = tf u) ->
  Forall2 (job_leaves fuel can pf sf) jobs ds -> forall k v,
  (exists u, (exists s, In s ds /\ In (k, u) (sel s)) /\ v = tf u) <-> exists u, declared sf (map snd jobs) (ev u) /\ k = n_hash (nm u) /\ v = tf u.
Proof.
  intros T sel nm ev tf can pf sf fuel jobs ds Htt Hev Hts HF k v. destruct (leaves_in _ _ _ _ _ HF) as [L1 L2]. split.
  - intros [u [[s [Hs Hu]] ->]]. destruct (L1 s Hs) as [j [Hj [_ [J2 [_ [_ [J5 [found [w [J6 [_ J8]]]]]]]]]]].
    assert (X : exists u', In (k, u') (sel found) /\ tf u = tf u').
    { destruct (text_name_dec (fst j) J2) as [N|N]; [rewrite (proj1 J8 N) in Hu|rewrite (proj2 J8 N) in Hu].
      - apply Hts in Hu; [|apply scan_inv in J6; exact J6]. destruct Hu as [u' [A ->]]. exists u'. auto.
      - exists u. auto. }
    destruct X as [u' [A B]]. apply (Hev _ _ _ _ J5 J6) in A. destruct A as [A1 A2]. exists u'. split; [|auto]. exists (snd j). split; [apply in_map; exact Hj|exact A2].
  - intros [u [[tus [Ht Hg]] [-> ->]]]. apply in_map_iff in Ht. destruct Ht as [j [<- Hj]]. destruct (L2 j Hj) as [s [Hs [_ [J2 [_ [_ [J5 [found [w [J6 [_ J8]]]]]]]]]]].
    assert (A : In (n_hash (nm u), u) (sel found)) by (apply (Hev _ _ _ _ J5 J6); auto).
    destruct (text_name_dec (fst j) J2) as [N|N].
    + exists (tf u). split; [|rewrite Htt; reflexivity]. exists s. split; [exact Hs|]. rewrite (proj1 J8 N). apply Hts; [apply scan_inv in J6; exact J6|]. exists u. auto.
    + exists u. split; [|reflexivity]. exists s. split; [exact Hs|]. rewrite (proj2 J8 N). exact A.
Qed.
