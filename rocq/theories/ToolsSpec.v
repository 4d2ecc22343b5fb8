(* What the command lines of the tools mean. *)
From Coq Require Import String.
From Verif Require Import Base Text Maps DatabaseModel MergeModel BinarySpec TextDbSpec ScanModel PipeSpec.
From Verif Require ScanSpec.
Local Open Scope list_scope.

(* the files that exist, by name *)
Definition files := list Z -> option (list Z).
(* only files of these names differ *)
Definition only (ps : list (list Z)) (d d' : files) : Prop := forall p, ~ In p ps -> d' p = d p.

(* ---- the scanner's output ---- *)
Definition csv_name (p : list Z) : Prop := exists q, p = q ++ str ".csv".
(* the names that get a text file *)
Definition text_name (p : list Z) : Prop := csv_name p \/ length p = 3%nat.
(* the database fits the kind of file the name asks for *)
Definition fits_file (pf : Z -> list Z) (p : list Z) (db : database) : Prop :=
  (text_name p -> fits_text pf db) /\ (~ text_name p -> fits db /\ distinct_texts db).
(* what such a file gives back: text files lose what C37 says, binary files nothing *)
Definition given_back (pf : Z -> list Z) (sf : list Z -> Z) (p : list Z) (db db' : database) : Prop :=
  (text_name p -> db' = text_stored pf sf db) /\ (~ text_name p -> db' = db).

(* ---- clmerge <out> [-cpp_codegen <file>] [-h_codegen <file>] <inputs> ---- *)
(* a word that is none of the options *)
Definition plain_word (p : list Z) : Prop := p <> str "-cpp_codegen" /\ p <> str "-h_codegen".
(* the options right behind the output name, with the names they give; no name is empty *)
Inductive merge_options : list (list Z) -> list Z -> list Z -> Prop :=
| mo_none : merge_options [] [] []
| mo_cpp : forall c, c <> [] -> plain_word c -> merge_options [str "-cpp_codegen"; c] c []
| mo_h : forall h, h <> [] -> plain_word h -> merge_options [str "-h_codegen"; h] [] h
| mo_cpp_h : forall c h, c <> [] -> h <> [] -> plain_word c -> plain_word h -> merge_options [str "-cpp_codegen"; c; str "-h_codegen"; h] c h
| mo_h_cpp : forall c h, c <> [] -> h <> [] -> plain_word c -> plain_word h -> merge_options [str "-h_codegen"; h; str "-cpp_codegen"; c] c h.

(* ---- clexport <in> options ---- *)
(* the word behind the first occurrence of an option *)
Definition option_value (args : list (list Z)) (o v : list Z) : Prop :=
  exists a b, args = a ++ o :: v :: b /\ ~ In o a.
(* there is none *)
Definition no_value (args : list (list Z)) (o : list Z) : Prop :=
  ~ In o args \/ (exists a, args = a ++ [o] /\ ~ In o a) \/ option_value args o [].

(* ---- all three ---- *)
(* a field and a constant as text files keep them: the numbers are printed unsigned and cut to nine digits (C37) *)
Definition text_field (f : field) : field := mk_field (f_prim f) (f_type f) (f_qual f) (text_int (f_offset f)) (f_parent_uid f).
Definition text_const (c : enum_const) : enum_const := mk_econst (ec_prim c) (text_int (ec_value c)).
(* a run of the scanner over some sources, into a file that gives db back *)
Definition job_leaves (fuel : nat) (can : list Z -> bool) (pf : Z -> list Z) (sf : list Z -> Z) (j : list Z * list (env * list decl)) (db : database) : Prop :=
  fst j <> [] /\ zlen (fst j) < 2 ^ 63 /\ plain_word (fst j) /\ can (fst j) = true /\ ScanSpec.coherent (ScanSpec.units (snd j)) /\
  exists found w, scan fuel sf (snd j) = Ok (found, w) /\ fits_file pf (fst j) found /\ given_back pf sf (fst j) found db.
