(* C101: what the logs of a program hold, after any calls *)
From Verif Require Import Base Text LogModel LogSpec LogProofs LogFileProofs.
From Coq Require Import String.

(* Every text logged is printed, after the prefix of its tag, once for each time its tag was directed to standard output since it was last directed to a file *)
Theorem C101_stdout : forall can_open files cs, moderate [] cs ->
  exists w, lrun can_open (start files) cs = Ok w /\ l_out w = printed [] cs.
Proof. intros. destruct (run_printed can_open cs [] (start files) (inv_start files) H) as (w & A & B). exists w. auto. Qed.
Print Assumptions C101_stdout.

(* The calls are defined only as long as no indentation leaves its buffer and no tag is 0 or negative *)
Theorem C101_defined : forall can_open files cs, (forall n tag p text, In (Log n tag p text) cs -> - 2 ^ 31 <= tag < 2 ^ 31) ->
  ((exists w, lrun can_open (start files) cs = Ok w) <-> moderate [] cs).
Proof.
  intros * T. split.
  - intros (w & R). apply (run_moderate can_open cs [] (start files) w); auto using inv_start. cbn. lia.
  - intros M. destruct (C101_stdout can_open files cs M) as (w & A & _). exists w; exact A.
Qed.
Print Assumptions C101_defined.

(* A file one bit of one log is directed to holds exactly what is logged with it from then on, whatever else is logged or directed elsewhere *)
Theorem C101_file : forall can_open files before name i path after, 0 <= i < 31 -> can_open path = true ->
  let cs := before ++ SetLogToFile name (2 ^ i) path :: after in moderate [] cs ->
  Forall (fun c => match c with SetLogToFile _ _ q => q <> path | _ => True end) before -> Forall (spares path name i) after ->
  exists w, lrun can_open (start files) cs = Ok w /\ l_files w path = logged name i (SetLogToFile name (2 ^ i) path :: rev before) after.
Proof.
  intros * R O cs M B A. subst cs.
  destruct (run_before can_open path before [] (start files) _ (inv_start files) M B) as (w & E & I & M1 & P); [intros n j f [] |].
  rewrite app_nil_r in *. cbn [moderate] in M1. destruct M1 as (F & M1). destruct (inv_step can_open _ _ (SetLogToFile name (2 ^ i) path) I F) as (w1 & E1 & I1 & _).
  pose proof (finv_open can_open path name i w w1 R O P E1) as P1. destruct (run_after can_open path name i after _ _ _ I1 M1 A P1) as (w2 & E2 & fp & k & _ & _ & X & _).
  exists w2. rewrite E. cbn [lrun]. rewrite E1. cbn [obind]. split; [exact E2 | exact X].
Qed.
Print Assumptions C101_file.

(* a log that prints its warnings twice and its errors to file 5 *)
Definition some_calls : list lcall :=
  [SetLogToStdout 1 3; SetLogToStdout 1 2; SetLogToFile 1 4 5; PushIndent 1; Log 1 1 true (str "a"); Log 1 2 true (str "b"); Log 1 4 true (str "c"); Log 2 4 true (str "d"); PopIndent 1; Log 1 1 true (str "e"); Log 1 4 false (str "f")].
Theorem C101_witness : moderate [] some_calls /\
  Forall (fun c => match c with SetLogToFile _ _ q => q <> 5 | _ => True end) (firstn 2 some_calls) /\ Forall (spares 5 1 2) (skipn 3 some_calls) /\
  match lrun (fun _ => true) (start (fun _ => str "old")) some_calls with
  | Ok w => l_out w = [9] ++ str "aWARNING: bWARNING: be" /\ l_files w 5 = str "ERROR: cf"
  | _ => False
  end.
Proof.
  split; [cbn; repeat split; try lia; discriminate |]. split; [repeat constructor |]. split; [repeat constructor |]. vm_compute. auto.
Qed.
Print Assumptions C101_witness.

(* Directing a log to a file does take away the standard output it was directed to *)
Theorem C101_lost_refuted : ~ (forall files n tag path text w, tag = 2 ->
  lrun (fun _ => true) (start files) [SetLogToStdout n tag; SetLogToFile n 7 path; Log n tag true text] = Ok w -> l_out w = line_of 0 tag true text).
Proof.
  intros H. specialize (H (fun _ => []) 1 2 5 (str "x") _ eq_refl eq_refl). vm_compute in H. discriminate H.
Qed.
Print Assumptions C101_lost_refuted.

(* A file that several tags are directed to is not the lines in order: each tag writes from the start of the file *)
Theorem C101_mixed_refuted : ~ (forall files n path a b w,
  lrun (fun _ => true) (start files) [SetLogToFile n 7 path; Log n 1 true a; Log n 4 false b] = Ok w -> l_files w path = line_of 0 1 true a ++ line_of 0 4 false b).
Proof.
  intros H. specialize (H (fun _ => []) 1 5 (str "abc") (str "x") _ eq_refl). vm_compute in H. discriminate H.
Qed.
Print Assumptions C101_mixed_refuted.

(* Indentation is not without bound, and the buffer is not checked *)
Theorem C101_indent_refuted : ~ (forall files k text, exists w, lrun (fun _ => true) (start files) (repeat (PushIndent 1) k ++ [Log 1 1 true text]) = Ok w).
Proof.
  intros H. destruct (H (fun _ => []) 128%nat (str "x")) as (w & E). vm_compute in E. discriminate E.
Qed.
Print Assumptions C101_indent_refuted.
