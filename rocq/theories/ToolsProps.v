(* C89-C92: the command lines of the scanner, clmerge and clexport, and the three in a row *)
From Coq Require Import String.
From Verif Require Import Base BaseProofs Text Maps HashModel DatabaseModel NamesProofs MergeModel MergeSpec MergeProofs BinaryModel BinarySpec
  TextDbModel TextDbSpec CodeGenModel CodeGenSpec CodeGenProps ExportModel ScanModel
  PipeSpec PipeInvProofs PipeFileProofs PipeMergeProofs PipeScanProofs PipeWitness ToolsModel ToolsSpec ToolsProofs ToolsWitness.
From Verif Require ScanSpec ScanProps ScanWitness ExportWitness.
Local Open Scope string_scope.
Local Open Scope list_scope.
Local Open Scope Z_scope.

(* ---- C89 ---- *)
(* The scanner writes a text database exactly when the name of the output ends in .csv or has three characters. *)
Theorem C89_format : forall can pf d db p, zlen p < 2 ^ 63 -> can p = true ->
  (text_name p -> forall file, WriteTextDatabase pf db = Ok file -> exists d', WriteDatabase can pf d db p = Ok d' /\ d' p = Some file /\ only [p] d d') /\
  (~ text_name p -> forall file, WriteBinaryDatabase db = Ok file -> exists d', WriteDatabase can pf d db p = Ok d' /\ d' p = Some file /\ only [p] d d').
Proof.
  intros can pf d db p Hl Hc. unfold WriteDatabase. pose proof (ends_with_csv p Hl) as E.
  assert (O : forall file, only [p] d (put d p file)) by (intros file q Hq; apply put_other; intros ->; apply Hq; left; reflexivity).
  destruct (EndsWith p (str ".csv")); split; intros T file W.
  - exists (put d p file). unfold write_text. rewrite Hc, W. split; [reflexivity|]. split; [apply put_same|apply O].
  - destruct T. apply E. reflexivity.
  - apply E in T. discriminate T.
  - exists (put d p file). unfold write_binary. rewrite Hc, W. split; [reflexivity|]. split; [apply put_same|apply O].
Qed.
Print Assumptions C89_format.
(* A run that finds something writes that one file, and the other tools read the database back from it, whatever the
   name: a text file loses what C37 says, a binary file nothing. *)
Theorem C89_read_back : forall can pf sf fuel d p tus db w, scan fuel sf tus = Ok (db, w) -> p <> [] -> zlen p < 2 ^ 63 -> can p = true -> fits_file pf p db ->
  exists d' file db', scan_main can pf sf fuel d p tus = Ok (0, d') /\ d' p = Some file /\ only [p] d d' /\
    given_back pf sf p db db' /\ read_database sf (Some file) = Ok (Some db').
Proof.
  intros can pf sf fuel d p tus db w H Hp Hl Hc K. destruct (scan_main_ok can pf sf fuel d p tus db w H Hp Hl Hc K) as [file [db' [A [B [C _]]]]].
  exists (put d p file), file, db'. split; [exact A|]. split; [apply put_same|]. split; [|auto]. intros q Hq. apply put_other. intros ->. apply Hq. left. reflexivity.
Qed.
Print Assumptions C89_read_back.
(* Finding: not the extension alone decides. Where the name has three characters the position behind which .csv would
   have to stand is -1, which is what the search gives when it finds nothing. *)
Theorem C89_extension_refuted : ~ (forall can pf d db p file, zlen p < 2 ^ 63 -> can p = true -> ~ csv_name p -> WriteBinaryDatabase db = Ok file ->
  exists d', WriteDatabase can pf d db p = Ok d' /\ d' p = Some file).
Proof.
  intros H. destruct (WriteBinaryDatabase db_empty) as [file| | | ] eqn:W; [|vm_compute in W; discriminate W..].
  destruct (H (fun _ => true) (fun _ => []) (fun _ => None) db_empty (str "out") file ltac:(reflexivity) eq_refl) as [d' [A B]]; [|exact W|].
  { intros [q E]. apply (f_equal (@List.length Z)) in E. rewrite app_length in E. change (List.length (str "out")) with 3%nat in E. change (List.length (str ".csv")) with 4%nat in E. lia. }
  assert (X : (if EndsWith (str "out") (str ".csv") then true else false) = true) by (vm_compute; reflexivity).
  unfold WriteDatabase in A. destruct (EndsWith (str "out") (str ".csv")); [|discriminate X].
  unfold write_text in A. apply obind_ok in A. destruct A as [t [A1 A2]].
  assert (E : d' = put (fun _ => None) (str "out") t) by congruence. rewrite E, put_same in B. assert (t = file) by congruence. subst t.
  assert (Y : match WriteTextDatabase (fun _ => []) db_empty, WriteBinaryDatabase db_empty with Ok a, Ok b => nth 0 a 0 =? nth 0 b 0 | _, _ => false end = false) by (vm_compute; reflexivity).
  rewrite A1, W, Z.eqb_refl in Y. discriminate Y.
Qed.
Print Assumptions C89_extension_refuted.
(* Finding: the result of opening the output is not looked at. *)
Theorem C89_unopenable_refuted : forall can pf sf fuel d p tus db w, scan fuel sf tus = Ok (db, w) -> p <> [] -> can p = false -> scan_main can pf sf fuel d p tus = UB.
Proof.
  intros can pf sf fuel d p tus db w H Hp Hc. unfold scan_main. rewrite H. cbn [obind fst]. destruct p; [congruence|]. unfold WriteDatabase, write_text, write_binary. rewrite Hc.
  destruct (EndsWith _ _); reflexivity.
Qed.
Print Assumptions C89_unopenable_refuted.

(* ---- C90 ---- *)
(* clmerge out [options] inputs: out holds the inputs merged in the order given, even if it was one of them; the files
   asked for are generated as C69 says; nothing else changes. *)
Theorem C90_merges : forall can pf sf n exe out opts cpp h inputs d dbs db text,
  merge_options opts cpp h -> plain_word exe -> plain_word out -> Forall plain_word inputs -> opts ++ inputs <> [] ->
  Forall2 (fun f x => read_database sf (d f) = Ok (Some x)) inputs dbs -> MergeAll db_empty dbs = Ok db -> WriteTextDatabase pf db = Ok text ->
  can out = true -> can [] = false ->
  (opts <> [] -> db_ok db /\ (List.length (namespaces db) + 2 <= n)%nat /\ out <> cpp /\ out <> h /\ (cpp <> [] -> h <> [] -> cpp <> h)) ->
  exists d', merge_main can pf sf n (exe :: out :: opts ++ inputs) d = Ok (0, d') /\ d' out = Some text /\ only [out; cpp; h] d d' /\
    (opts <> [] -> exists c hc hd hh, GenMergedCppImpl n (Some None) (Some None) db = Ok (Some (Some c), Some (Some hd)) /\ hashed_file c hc /\ hashed_file hd hh /\
      (cpp <> [] -> if can cpp then left_by c hc (Some (d cpp)) (Some (d' cpp)) else d' cpp = d cpp) /\
      (h <> [] -> if can h then left_by hd hh (Some (d h)) (Some (d' h)) else d' h = d h)).
Proof.
  intros can pf sf n exe out opts cpp h inputs d dbs db text HO He Ho Hf Hne HR HM HW Hc H0 HG.
  rewrite (merge_main_form can pf sf n exe out opts cpp h inputs d HO He Ho Hf Hne), (merge_files_ok _ _ _ _ HR), HM. cbn [obind]. unfold write_text. rewrite Hc, HW. cbn [obind].
  assert (HN : opts = [] /\ cpp = [] /\ h = [] \/ opts <> [] /\ negb (is_nil cpp) || negb (is_nil h) = true).
  { destruct HO as [|c Hcne P|g Hhne P|c g Hcne Hhne P P'|c g Hcne Hhne P P']; [left; auto|right..]; (split; [discriminate|]);
    repeat match goal with |- context [is_nil ?p] => destruct (is_nil_spec p); try congruence end; reflexivity. }
  destruct HN as [[-> [-> ->]]|[HN1 HN2]].
  { cbn. exists (put d out text). split; [reflexivity|]. split; [apply put_same|]. split; [intros q Hq; apply put_other; intros ->; apply Hq; left; reflexivity|congruence]. }
  destruct (HG HN1) as [G1 [G2 [G3 [G4 G5]]]]. rewrite HN2.
  destruct (generate_ok can n (put d out text) cpp h db G1 G2 H0 G5) as [x [hx [y [hy [X1 [X2 [X3 [d' [X4 [X5 [X6 [X7 [X8 X9]]]]]]]]]]]]].
  rewrite X4. cbn [obind]. exists d'. split; [reflexivity|]. split; [rewrite X5; [apply put_same|intros [X|[X|[]]]; congruence]|].
  split. { intros q Hq. rewrite X5 by (intros [X|[X|[]]]; apply Hq; cbn; auto). apply put_other. intros ->. apply Hq. left. reflexivity. }
  intros _. exists x, hx, y, hy. split; [exact X1|]. split; [exact X2|]. split; [exact X3|]. rewrite (put_other d out text cpp) in * by congruence. rewrite (put_other d out text h) in * by congruence.
  split; intros _; [destruct (can cpp); auto|destruct (can h); auto].
Qed.
Print Assumptions C90_merges.
(* A file that cannot be read as a database ends it with nothing written. *)
Theorem C90_refuses : forall can pf sf n exe out opts cpp h a f b d dbs db,
  merge_options opts cpp h -> plain_word exe -> plain_word out -> Forall plain_word (a ++ f :: b) ->
  Forall2 (fun f x => read_database sf (d f) = Ok (Some x)) a dbs -> MergeAll db_empty dbs = Ok db -> read_database sf (d f) = Ok None ->
  merge_main can pf sf n (exe :: out :: opts ++ a ++ f :: b) d = Ok (1, d).
Proof.
  intros can pf sf n exe out opts cpp h a f b d dbs db HO He Ho Hf HR HM HN. rewrite (merge_main_form can pf sf n exe out opts cpp h (a ++ f :: b) d HO He Ho Hf) by (destruct opts; [destruct a|]; discriminate).
  pose proof (merge_files_app sf d a dbs db (f :: b) db_empty HR HM) as X. rewrite X. clear X. cbn [merge_files]. rewrite HN. reflexivity.
Qed.
Print Assumptions C90_refuses.
Theorem C90_missing : forall sf, read_database sf None = Ok None.
Proof. reflexivity. Qed.
Print Assumptions C90_missing.
(* Whatever the words are: a run that ends has exit code 0 or 1. With 1 nothing was written. With 0 at most the output
   and the files named by the options were. *)
Theorem C90_exit : forall can pf sf n args d code d', can [] = false -> merge_main can pf sf n args d = Ok (code, d') ->
  (code = 1 /\ d' = d /\ ((List.length args < 3)%nat \/ exists f, In f args /\ read_database sf (d f) = Ok None)) \/
  (code = 0 /\ forall p, d' p <> d p -> p = nth 1 args [] \/ option_value args (str "-cpp_codegen") p \/ option_value args (str "-h_codegen") p).
Proof.
  intros can pf sf n args d code d' H0 H. unfold merge_main in H. destruct (Nat.ltb_spec (List.length args) 3) as [L|L].
  { left. assert (code = 1 /\ d' = d) as [-> ->] by (split; congruence). auto. }
  cbv zeta in H. apply obind_ok in H. destruct H as [m [HM H]]. destruct m as [db|].
  - right. apply obind_ok in H. destruct H as [d1 [HW H]]. unfold write_text in HW. destruct (can (nth 1 args [])); [|discriminate]. apply obind_ok in HW. destruct HW as [t [_ HW]]. assert (d1 = put d (nth 1 args []) t) by congruence. subst d1. clear HW.
    destruct (negb (is_nil (GetProperty args opt_cpp)) || negb (is_nil (GetProperty args opt_h))).
    + apply obind_ok in H. destruct H as [d2 [HG H]]. assert (code = 0 /\ d' = d2) as [-> ->] by (split; congruence). split; [reflexivity|]. intros p Hp.
      destruct (list_eq_dec Z.eq_dec p (nth 1 args [])) as [E|N]; [left; exact E|right]. rewrite <- (put_other d (nth 1 args []) t p N) in Hp.
      destruct (generate_only can n _ _ _ _ _ H0 HG p Hp) as [[E Ne]|[E Ne]]; [left; apply (GetProperty_some args opt_cpp)|right; apply (GetProperty_some args opt_h)]; congruence.
    + assert (code = 0 /\ d' = put d (nth 1 args []) t) as [-> ->] by (split; congruence). split; [reflexivity|]. intros p Hp. left.
      destruct (list_eq_dec Z.eq_dec p (nth 1 args [])) as [E|N]; [exact E|]. rewrite put_other in Hp by exact N. congruence.
  - left. assert (code = 1 /\ d' = d) as [-> ->] by (split; congruence). split; [reflexivity|]. split; [reflexivity|]. right.
    apply merge_files_none in HM. destruct HM as [f [A B]]. exists f. split; [|exact B]. match type of A with In f (skipn ?k _) => rewrite <- (firstn_skipn k args) end. apply in_or_app. right. exact A.
Qed.
Print Assumptions C90_exit.

(* ---- C91 ---- *)
(* clexport in options: with -cpp the file named there holds the image of what the export builds from the database, after
   the addresses of the map file, if one is named; the log, if one is named, holds its text. *)
Theorem C91_exports : forall can sf L apply_map log_text image fuel args d db db' out e file,
  (3 <= List.length args)%nat -> read_database sf (d (nth 1 args [])) = Ok (Some db) ->
  (no_value args (str "-map") /\ db' = db \/ exists m, option_value args (str "-map") m /\ m <> [] /\ apply_map (d m) db = Ok db') ->
  option_value args (str "-cpp") out -> out <> [] -> BuildCppExport L fuel db' = Ok e -> image e = Ok file -> can out = true ->
  exists d', export_main can sf L apply_map log_text image fuel args d = Ok (0, d') /\ d' out = Some file /\
    (no_value args (str "-cpp_log") -> only [out] d d') /\
    (forall log, option_value args (str "-cpp_log") log -> log <> [] ->
       only [out; log] d d' /\ (log <> out -> if can log then d' log = Some (log_text e) else d' log = d log)).
Proof.
  intros can sf L apply_map log_text image fuel args d db db' out e file Hn HR Hm Ho Hne HB HI Hc. unfold export_main.
  destruct (Nat.ltb_spec (List.length args) 3); [lia|]. rewrite HR. cbn [obind]. cbv zeta.
  assert (EM : (if is_nil (GetProperty args opt_map) then Ok db else apply_map (d (GetProperty args opt_map)) db) = Ok db').
  { destruct Hm as [[N ->]|[m [V [Nm A]]]]; [rewrite (GetProperty_none args opt_map N); reflexivity|]. rewrite (GetProperty_value args opt_map m V). destruct (is_nil_spec m); [contradiction|exact A]. }
  rewrite EM. cbn [obind]. rewrite (GetProperty_value args opt_export out Ho). destruct (is_nil_spec out); [contradiction|]. rewrite HB. cbn [obind]. rewrite HI. cbn [obind].
  eexists. split; [reflexivity|]. unfold write_if at 1. rewrite Hc. split; [apply put_same|]. split.
  - intros N q Hq. unfold write_if at 1. rewrite Hc, put_other by (intros ->; apply Hq; left; reflexivity). rewrite (GetProperty_none args opt_log N). reflexivity.
  - intros log V Nl. rewrite (GetProperty_value args opt_log log V). destruct (is_nil_spec log); [contradiction|]. split.
    + intros q Hq. unfold write_if. rewrite Hc, put_other by (intros ->; apply Hq; left; reflexivity). destruct (can log); [|reflexivity]. apply put_other. intros ->. apply Hq. right. left. reflexivity.
    + intros Nlo. unfold write_if. rewrite Hc, put_other by exact Nlo. destruct (can log); [apply put_same|reflexivity].
Qed.
Print Assumptions C91_exports.
(* Whatever the words are: a run that ends has exit code 0 or 1. With 1 the database could not be read, and nothing was
   written. With 0 at most the files named by -cpp and -cpp_log were, and none without -cpp. *)
Theorem C91_exit : forall can sf L apply_map log_text image fuel args d code d', export_main can sf L apply_map log_text image fuel args d = Ok (code, d') ->
  (code = 1 /\ d' = d /\ ((List.length args < 3)%nat \/ read_database sf (d (nth 1 args [])) = Ok None)) \/
  (code = 0 /\ (exists db, read_database sf (d (nth 1 args [])) = Ok (Some db)) /\
   (no_value args (str "-cpp") -> d' = d) /\
   forall p, d' p <> d p -> option_value args (str "-cpp") p \/ option_value args (str "-cpp_log") p).
Proof.
  intros can sf L apply_map log_text image fuel args d code d' H. unfold export_main in H. destruct (Nat.ltb_spec (List.length args) 3) as [Ln|Ln].
  { left. assert (code = 1 /\ d' = d) as [-> ->] by (split; congruence). auto. }
  apply obind_ok in H. destruct H as [m [HM H]]. destruct m as [db|].
  2: { left. assert (code = 1 /\ d' = d) as [-> ->] by (split; congruence). auto. }
  right. cbv zeta in H. apply obind_ok in H. destruct H as [db' [_ H]]. destruct (is_nil_spec (GetProperty args opt_export)) as [E|E].
  { assert (code = 0 /\ d' = d) as [-> ->] by (split; congruence). split; [reflexivity|]. split; [exists db; exact HM|]. split; [reflexivity|]. intros p Hp. congruence. }
  apply obind_ok in H. destruct H as [e [_ H]]. apply obind_ok in H. destruct H as [file [_ H]]. match type of H with Ok (0, ?x) = _ => assert (code = 0 /\ d' = x) as [-> ->] by (split; congruence) end.
  split; [reflexivity|]. split; [exists db; exact HM|]. split; [intros N; apply GetProperty_none in N; contradiction|]. intros p Hp.
  destruct (list_eq_dec Z.eq_dec p (GetProperty args opt_export)) as [->|N1]; [left; apply (GetProperty_some args opt_export); [reflexivity|exact E]|right].
  unfold write_if at 1 in Hp. assert (Hp' : (if is_nil (GetProperty args opt_log) then d else write_if can d (GetProperty args opt_log) (log_text e)) p <> d p).
  { destruct (can (GetProperty args opt_export)); [rewrite put_other in Hp by exact N1|]; exact Hp. }
  destruct (is_nil_spec (GetProperty args opt_log)) as [E2|E2]; [congruence|]. destruct (list_eq_dec Z.eq_dec p (GetProperty args opt_log)) as [->|N2]; [apply (GetProperty_some args opt_log); [reflexivity|exact E2]|].
  exfalso. apply Hp'. unfold write_if. destruct (can (GetProperty args opt_log)); [apply put_other; exact N2|reflexivity].
Qed.
Print Assumptions C91_exit.
(* Finding: success is reported when the output cannot be opened and nothing was written. *)
Theorem C91_success_refuted : forall can sf L apply_map log_text image fuel args d db out e file,
  (3 <= List.length args)%nat -> read_database sf (d (nth 1 args [])) = Ok (Some db) -> no_value args (str "-map") -> no_value args (str "-cpp_log") ->
  option_value args (str "-cpp") out -> out <> [] -> BuildCppExport L fuel db = Ok e -> image e = Ok file -> can out = false ->
  export_main can sf L apply_map log_text image fuel args d = Ok (0, d).
Proof.
  intros can sf L apply_map log_text image fuel args d db out e file Hn HR Hm Hl Ho Hne HB HI Hc. unfold export_main.
  destruct (Nat.ltb_spec (List.length args) 3); [lia|]. rewrite HR. cbn [obind]. cbv zeta. rewrite (GetProperty_none args opt_map Hm). cbn [is_nil obind].
  rewrite (GetProperty_value args opt_export out Ho). destruct (is_nil_spec out); [contradiction|]. rewrite HB. cbn [obind]. rewrite (GetProperty_none args opt_log Hl). cbn [is_nil]. rewrite HI. cbn [obind].
  unfold write_if. rewrite Hc. reflexivity.
Qed.
Print Assumptions C91_success_refuted.

(* ---- C92 ---- *)
(* Sources scanned run by run into files of either kind, the files merged: what the exporter then reads has exactly the
   fields, functions and enum constants that some source declares, with numbers as text files keep them, since clmerge
   always writes text. *)
Theorem C92_end_to_end : forall can pf sf fuel n jobs ds m exe out d,
  Forall2 (job_leaves fuel can pf sf) jobs ds -> NoDup (map fst jobs) -> jobs <> [] -> Forall mergeable ds -> MergeAll db_empty ds = Ok m -> fits_text pf m ->
  plain_word exe -> plain_word out -> can out = true ->
  exists d1 d2 db, scan_runs can pf sf fuel d jobs = Ok d1 /\ merge_main can pf sf n (exe :: out :: map fst jobs) d1 = Ok (0, d2) /\
    only (out :: map fst jobs) d d2 /\ read_database sf (d2 out) = Ok (Some db) /\ db = text_stored pf sf m /\
    (forall k g, In (k, g) (m_fields db) <-> exists f, declared sf (map snd jobs) (ScanSpec.Field_ f) /\ k = n_hash (p_name (f_prim f)) /\ g = text_field f) /\
    (forall k f, In (k, f) (m_functions db) <-> declared sf (map snd jobs) (ScanSpec.Function_ f) /\ k = n_hash (p_name (fn_prim f))) /\
    (forall k g, In (k, g) (m_enum_consts db) <-> exists c, declared sf (map snd jobs) (ScanSpec.Const_ c) /\ k = n_hash (p_name (ec_prim c)) /\ g = text_const c).
Proof.
  intros can pf sf fuel n jobs ds m exe out d HF Hn Hj HM Hm Hft He Ho Hc. destruct (scan_runs_ok can pf sf fuel jobs ds HF Hn d) as [d1 [S1 [S2 S3]]].
  pose proof (jobs_inv _ _ _ _ _ _ HF) as Hi. assert (Hw : Forall wf_db ds) by (rewrite Forall_forall in *; intros s Hs; apply inv_wf; auto).
  pose proof (merged_inv ds m Hi Hw Hm) as Im. destruct (written_text pf sf m (inv_text pf m Im Hft)) as [text [W R]].
  assert (Hp : Forall plain_word (map fst jobs)).
  { clear -HF. induction HF as [|j db jobs ds [_ [_ [P _]]] _ IH]; cbn [map]; constructor; assumption. }
  exists d1, (put d1 out text), (text_stored pf sf m). split; [exact S1|]. split.
  { change (map fst jobs) with (@nil (list Z) ++ map fst jobs). rewrite (merge_main_form can pf sf n exe out [] [] [] (map fst jobs) d1 mo_none He Ho Hp) by (destruct jobs; [congruence|discriminate]).
    rewrite (merge_files_ok _ _ _ _ S3), Hm. cbn [obind]. unfold write_text. rewrite Hc, W. reflexivity. }
  split. { intros q Hq. rewrite put_other by (intros ->; apply Hq; left; reflexivity). apply S2. intros X. apply Hq. right. exact X. }
  rewrite put_same. split; [exact R|]. split; [reflexivity|].
  destruct (merged_fields ds m Hi Hw Hm) as [A _]. destruct (merged_functions ds m Hi Hw Hm) as [B _]. destruct (merged_consts ds m Hi Hw Hm) as [C _].
  split; [|split].
  - intros k g. rewrite (text_fields pf sf m k g Im). setoid_rewrite A.
    apply (text_rows _ m_fields (fun f => p_name (f_prim f)) ScanSpec.Field_ text_field can pf sf fuel jobs ds text_field_twice); [|intros; apply text_fields; assumption|exact HF].
    intros fuel' tus x w Hco Hs. exact (proj1 (ScanProps.C76_recorded_iff_declared _ _ _ _ _ Hco Hs)).
  - intros k g. rewrite (text_functions pf sf m Im), B.
    pose proof (text_rows _ m_functions (fun f => p_name (fn_prim f)) ScanSpec.Function_ (fun f => f) can pf sf fuel jobs ds (fun _ => eq_refl)) as X.
    assert (X' : (exists u, (exists s, In s ds /\ In (k, u) (m_functions s)) /\ g = u) <-> exists u, declared sf (map snd jobs) (ScanSpec.Function_ u) /\ k = n_hash (p_name (fn_prim u)) /\ g = u).
    { apply X; [|intros x k' v Hx; rewrite (text_functions pf sf x Hx); split; [intros Y; exists v; auto|intros [u [Y ->]]; exact Y]|exact HF].
      intros fuel' tus x w Hco Hs. exact (proj1 (proj2 (ScanProps.C76_recorded_iff_declared _ _ _ _ _ Hco Hs))). }
    split.
    + intros Y. destruct (proj1 X') as [u [U1 [U2 ->]]]; [exists g; auto|]. auto.
    + intros [Y1 Y2]. destruct (proj2 X') as [u [U1 ->]]; [exists g; auto|]. exact U1.
  - intros k g. rewrite (text_consts pf sf m k g). setoid_rewrite C.
    apply (text_rows _ m_enum_consts (fun f => p_name (ec_prim f)) ScanSpec.Const_ text_const can pf sf fuel jobs ds text_const_twice); [|intros; apply text_consts|exact HF].
    intros fuel' tus x w Hco Hs. exact (proj2 (proj2 (proj2 (ScanProps.C76_recorded_iff_declared _ _ _ _ _ Hco Hs)))).
Qed.
Print Assumptions C92_end_to_end.

(* ---- findings and examples: two sources, one scanned into a binary and one into a text file (ToolsWitness.v) ---- *)
(* Finding: options that do not stand right behind the name of the output are misread. The first input is skipped, and
   the file the option names is read as a database: any text is one (C38), so that the output is empty and success
   reported. *)
Theorem C90_options_last_refuted : exists can pf sf n d d' text,
  (exists db, read_database sf (d (str "v.csv")) = Ok (Some db) /\ List.length (m_fields db) = 5%nat) /\
  merge_main can pf sf n [str "clmerge"; str "out.csv"; str "v.csv"; str "-cpp_codegen"; str "gen.cpp"] d = Ok (0, d') /\
  d' (str "out.csv") = Some text /\ read_database sf (Some text) = Ok (Some db_empty).
Proof.
  exists t_can, t_pf, ScanWitness.w_sf, 2%nat, t_disk.
  assert (X : match merge_main t_can t_pf ScanWitness.w_sf 2 [str "clmerge"; str "out.csv"; str "v.csv"; str "-cpp_codegen"; str "gen.cpp"] t_disk with
    | Ok (0, d') => match d' (str "out.csv") with Some text => path_eqb text t_empty | None => false end
    | _ => false end = true) by (vm_compute; reflexivity).
  destruct (merge_main _ _ _ _ _ _) as [[code d']| | | ]; [|discriminate X..]. destruct code; [|discriminate X..]. destruct (d' (str "out.csv")) as [text|] eqn:E; [|discriminate X].
  exists d', text. split; [exists t_v; split; [apply t_read|vm_compute; reflexivity]|]. split; [reflexivity|]. split; [exact E|].
  destruct (path_eqb_spec text t_empty) as [->|]; [|discriminate X]. vm_compute. reflexivity.
Qed.
Print Assumptions C90_options_last_refuted.
(* Finding: no way leads around the loss in text files. Of an enum with the constants 0 and -1 the exporter reads 0 and
   429496729, although the scanner wrote a binary file. *)
Theorem C92_negative_refuted : exists can pf sf fuel n jobs ds m d, Forall2 (job_leaves fuel can pf sf) jobs ds /\ NoDup (map fst jobs) /\ Forall mergeable ds /\
  MergeAll db_empty ds = Ok m /\ fits_text pf m /\ ~ text_name (str "w.bin") /\ map fst jobs = [str "w.bin"] /\
  (exists c, declared sf (map snd jobs) (ScanSpec.Const_ c) /\ ec_value c = -1) /\
  exists d1 d2 db, scan_runs can pf sf fuel d jobs = Ok d1 /\ merge_main can pf sf n [str "clmerge"; str "m.csv"; str "w.bin"] d1 = Ok (0, d2) /\
    read_database sf (d2 (str "m.csv")) = Ok (Some db) /\ map (fun e => ec_value (snd e)) (m_enum_consts db) = [0; 429496729].
Proof.
  assert (XM : match MergeAll db_empty [ScanWitness.w_db] with Ok _ => true | _ => false end = true) by (vm_compute; reflexivity).
  destruct (MergeAll db_empty [ScanWitness.w_db]) as [m| | | ] eqn:EM; [|discriminate XM..].
  assert (EM' : m = match MergeAll db_empty [ScanWitness.w_db] with Ok m => m | _ => db_empty end) by (rewrite EM; reflexivity).
  assert (HJ : Forall2 (job_leaves 3 t_can t_pf ScanWitness.w_sf) [(str "w.bin", ScanWitness.w_tus)] [ScanWitness.w_db]).
  { constructor; [|constructor]. exact (Forall2_head _ _ _ _ _ _ _ t_leaves). }
  assert (HN : NoDup (map fst [(str "w.bin", ScanWitness.w_tus)])) by (constructor; [intros []|constructor]).
  assert (HG : Forall mergeable [ScanWitness.w_db]) by (constructor; [exact (Forall_inv t_mergeable)|constructor]).
  assert (HT : fits_text t_pf m) by (apply fits_textb_ok; rewrite EM'; vm_compute; reflexivity).
  exists t_can, t_pf, ScanWitness.w_sf, 3%nat, 2%nat, [(str "w.bin", ScanWitness.w_tus)], [ScanWitness.w_db], m, (fun _ => None).
  split; [exact HJ|]. split; [exact HN|]. split; [exact HG|]. split; [exact EM|]. split; [exact HT|]. split; [apply t_names|]. split; [reflexivity|].
  destruct (C92_end_to_end t_can t_pf ScanWitness.w_sf 3 2 [(str "w.bin", ScanWitness.w_tus)] [ScanWitness.w_db] m (str "clmerge") (str "m.csv") (fun _ => None) HJ HN ltac:(discriminate) HG EM HT ltac:(split; discriminate) ltac:(split; discriminate) eq_refl)
    as [d1 [d2 [db [A [B [_ [C [D _]]]]]]]]. split.
  - assert (W : map (fun e => ec_value (snd e)) (m_enum_consts ScanWitness.w_db) = [0; -1]) by (vm_compute; reflexivity).
    destruct (m_enum_consts ScanWitness.w_db) as [|[k1 c1] [|[k2 c2] [|]]] eqn:EC; try discriminate W. injection W as W1 W2.
    exists c2. split; [|exact W2]. exists ScanWitness.w_tus. split; [left; reflexivity|]. destruct ScanWitness.w_scan as [w Hs].
    destruct (ScanProps.C76_recorded_iff_declared _ _ _ _ _ ScanWitness.w_coherent Hs) as [_ [_ [_ F]]]. apply (proj1 (F k2 c2)). rewrite EC. right. left. reflexivity.
  - exists d1, d2, db. split; [exact A|]. split; [exact B|]. split; [exact C|]. rewrite D, EM'. vm_compute. reflexivity.
Qed.
Print Assumptions C92_negative_refuted.

(* Finding: a function declared in two sources, one scanned into a text and one into a binary file, gets its return value
   twice, since its offset -1 is another number in the text file; in the merged file the two are the same again, and the
   exported function has one of them among its parameters. Two binary files do not have this (C86). *)
Theorem C92_twice_refuted : exists can pf sf fuel jobs ds m, Forall2 (job_leaves fuel can pf sf) jobs ds /\ NoDup (map fst jobs) /\ Forall mergeable ds /\
  MergeAll db_empty ds = Ok m /\ fits_text pf m /\
  let db := text_stored pf sf m in exists i j k f, (i < j)%nat /\ nth_error (m_fields db) i = Some (k, f) /\ nth_error (m_fields db) j = Some (k, f) /\
    n_text (p_name (f_prim f)) = str "return" /\
    exists L fuel' e fn, BuildCppExport L fuel' db = Ok e /\ x_ret e (KFunction, fn) = Ptr (KField, i) /\ In (Ptr (KField, j)) (x_arr e (AParameters, (KFunction, fn))).
Proof.
  exists t_can, t_pf, ScanWitness.w_sf, 3%nat, t_jobs, [ScanWitness.w_db; t_v], t_m.
  split; [exact t_leaves|]. split; [constructor; [intros [E|[]]; discriminate E|constructor; [intros []|constructor]]|]. split; [exact t_mergeable|]. split; [exact t_merged|]. split; [exact t_fits|]. cbv zeta.
  exists 3%nat, 5%nat. do 2 eexists. split; [lia|]. split; [vm_compute; reflexivity|]. split; [vm_compute; reflexivity|]. split; [vm_compute; reflexivity|].
  exists ExportWitness.lay, 5%nat.
  assert (X : match BuildCppExport ExportWitness.lay 5 (text_stored t_pf ScanWitness.w_sf t_m) with Ok e => Some (x_ret e (KFunction, 2%nat), x_arr e (AParameters, (KFunction, 2%nat))) | _ => None end =
    Some (Ptr (KField, 3%nat), [Ptr (KField, 5%nat); Ptr (KField, 12%nat)])) by (vm_compute; reflexivity).
  destruct (BuildCppExport _ _ _) as [e| | | ]; [|discriminate X..]. injection X as X1 X2. exists e, 2%nat. split; [reflexivity|]. split; [exact X1|]. rewrite X2. left. reflexivity.
Qed.
Print Assumptions C92_twice_refuted.

Example C89_case : csv_name (str "v.csv") /\ ~ text_name (str "w.bin") /\ text_name (str "out") /\ ~ csv_name (str "out") /\
  fits_file t_pf (str "v.csv") v_db /\ fits_file t_pf (str "w.bin") ScanWitness.w_db.
Proof.
  destruct t_names as [T1 T2]. split; [exists (str "v"); reflexivity|]. split; [exact T2|]. split; [right; reflexivity|]. split.
  { intros [q E]. apply (f_equal (@List.length Z)) in E. rewrite app_length in E. change (List.length (str "out")) with 3%nat in E. change (List.length (str ".csv")) with 4%nat in E. lia. }
  split; [split; intros T; [apply fits_textb_ok; vm_compute; reflexivity|contradiction]|]. split; intros T; [contradiction|]. split; [apply w_fits|]. unfold distinct_texts. vm_compute. apply NoDup_nil.
Qed.
(* with both options, gen.h not there and gen.cpp written by hand *)
Example C90_case : exists d', merge_options [str "-h_codegen"; str "gen.h"; str "-cpp_codegen"; str "gen.cpp"] (str "gen.cpp") (str "gen.h") /\
  Forall plain_word [str "w.bin"; str "v.csv"] /\ Forall2 (fun f x => read_database ScanWitness.w_sf (t_disk f) = Ok (Some x)) [str "w.bin"; str "v.csv"] [ScanWitness.w_db; t_v] /\
  MergeAll db_empty [ScanWitness.w_db; t_v] = Ok t_m /\ db_ok t_m /\ (List.length (namespaces t_m) + 2 <= 3)%nat /\
  merge_main t_can t_pf ScanWitness.w_sf 3 [str "clmerge"; str "w.bin"; str "-h_codegen"; str "gen.h"; str "-cpp_codegen"; str "gen.cpp"; str "w.bin"; str "v.csv"] t_disk = Ok (0, d') /\
  d' (str "w.bin") = Some t_out /\ d' (str "v.csv") = t_disk (str "v.csv") /\ d' (str "gen.cpp") <> t_disk (str "gen.cpp") /\ d' (str "gen.h") <> None.
Proof.
  assert (P : forall s, In s ["w.bin"; "v.csv"; "gen.cpp"; "gen.h"; "clmerge"] -> plain_word (str s)).
  { intros s [<-|[<-|[<-|[<-|[<-|[]]]]]]; split; discriminate. }
  assert (HO : merge_options [str "-h_codegen"; str "gen.h"; str "-cpp_codegen"; str "gen.cpp"] (str "gen.cpp") (str "gen.h")) by (apply mo_h_cpp; [discriminate|discriminate|apply P; cbn; tauto|apply P; cbn; tauto]).
  assert (HP : Forall plain_word [str "w.bin"; str "v.csv"]) by (constructor; [apply P; cbn; tauto|constructor; [apply P; cbn; tauto|constructor]]).
  destruct t_read as [R1 [R2 R3]].
  assert (HR : Forall2 (fun f x => read_database ScanWitness.w_sf (t_disk f) = Ok (Some x)) [str "w.bin"; str "v.csv"] [ScanWitness.w_db; t_v]) by (constructor; [exact R1|constructor; [exact R2|constructor]]).
  assert (HD : db_ok t_m) by (apply db_okb_ok; vm_compute; reflexivity).
  assert (HL : (List.length (namespaces t_m) + 2 <= 3)%nat) by (apply Nat.leb_le; vm_compute; reflexivity).
  destruct (C90_merges t_can t_pf ScanWitness.w_sf 3 (str "clmerge") (str "w.bin") _ _ _ _ t_disk _ t_m t_out HO ltac:(apply P; cbn; tauto) ltac:(apply P; cbn; tauto) HP ltac:(discriminate) HR t_merged R3 eq_refl eq_refl) as [d' [A [B [C D]]]].
  { intros _. split; [exact HD|]. split; [exact HL|]. split; [discriminate|]. split; discriminate. }
  exists d'. split; [exact HO|]. split; [exact HP|]. split; [exact HR|]. split; [exact t_merged|]. split; [exact HD|]. split; [exact HL|]. split; [exact A|]. split; [exact B|].
  split; [apply C; intros [E|[E|[E|[]]]]; discriminate E|]. destruct D as [c [hc [hd [hh [G [G1 [G2 [D1 D2]]]]]]]]; [discriminate|].
  specialize (D1 ltac:(discriminate)). specialize (D2 ltac:(discriminate)). cbn [t_can str] in D1, D2. split.
  - intros E. change (t_can (str "gen.cpp")) with true in D1. cbv iota in D1. rewrite E in D1. change (t_disk (str "gen.cpp")) with (Some t_gen) in D1. cbn [left_by] in D1. destruct D1 as [_ [_ [D1 _]]].
    destruct G1 as [hx [body [_ [_ [G1 _]]]]]. assert (F : t_gen = c) by (apply D1; intros r F; discriminate F). rewrite G1 in F. discriminate F.
  - intros E. change (t_can (str "gen.h")) with true in D2. cbv iota in D2. rewrite E in D2. exact D2.
Qed.

Definition t_args : list (list Z) := [str "clexport"; str "m.csv"; str "-cpp"; str "x.bin"; str "-cpp_log"; str "x.log"].
Example C91_case : (3 <= List.length t_args)%nat /\ read_database ScanWitness.w_sf (t_disk (nth 1 t_args [])) = Ok (Some (text_stored t_pf ScanWitness.w_sf t_m)) /\
  no_value t_args (str "-map") /\ option_value t_args (str "-cpp") (str "x.bin") /\ option_value t_args (str "-cpp_log") (str "x.log") /\
  exists e, BuildCppExport ExportWitness.lay 5 (text_stored t_pf ScanWitness.w_sf t_m) = Ok e.
Proof.
  split; [apply Nat.leb_le; reflexivity|]. split; [vm_compute; reflexivity|].
  split; [left; intros [E|[E|[E|[E|[E|[E|[]]]]]]]; discriminate E|].
  split; [exists [str "clexport"; str "m.csv"], [str "-cpp_log"; str "x.log"]; split; [reflexivity|intros [E|[E|[]]]; discriminate E]|].
  split; [exists [str "clexport"; str "m.csv"; str "-cpp"; str "x.bin"], []; split; [reflexivity|intros [E|[E|[E|[E|[]]]]]; discriminate E]|].
  assert (X : match BuildCppExport ExportWitness.lay 5 (text_stored t_pf ScanWitness.w_sf t_m) with Ok _ => true | _ => false end = true) by (vm_compute; reflexivity).
  destruct (BuildCppExport _ _ _) as [e| | | ]; [exists e; reflexivity|discriminate X..].
Qed.
Example C92_case : Forall2 (job_leaves 3 t_can t_pf ScanWitness.w_sf) t_jobs [ScanWitness.w_db; t_v] /\ NoDup (map fst t_jobs) /\ t_jobs <> [] /\ Forall mergeable [ScanWitness.w_db; t_v] /\
  MergeAll db_empty [ScanWitness.w_db; t_v] = Ok t_m /\ fits_text t_pf t_m /\ List.length (m_fields t_m) = 15%nat.
Proof.
  split; [exact t_leaves|]. split; [constructor; [intros [E|[]]; discriminate E|constructor; [intros []|constructor]]|]. split; [discriminate|]. split; [exact t_mergeable|]. split; [exact t_merged|]. split; [exact t_fits|vm_compute; reflexivity].
Qed.
