(* The command lines of the three tools: src/clReflectCore/Arguments.h, src/clReflectMerge/Main.cpp,
   src/clReflectExport/Main.cpp, and what src/clReflectScan/Main.cpp does with its result. *)
From Coq Require Import String.
From Verif Require Import Base Text Maps DatabaseModel MergeModel BinaryModel TextDbModel CodeGenModel ExportModel ScanModel MapFileModel.
Local Open Scope list_scope.

Notation path := (list Z) (only parsing).
Definition path_eqb (a b : path) : bool := if list_eq_dec Z.eq_dec a b then true else false.

(* ---- Arguments.h ---- *)
(* 38-54 GetIndexOf with occurrence 0, from index i on; None is -1 *)
Fixpoint index_from (args : list path) (arg : path) (i : nat) : option nat :=
  match args with
  | [] => None
  | a :: r => if path_eqb a arg then Some i else index_from r arg (S i)
  end.
Definition GetIndexOf (args : list path) (arg : path) : option nat := index_from args arg 0.
(* 62-72 GetProperty *)
Definition GetProperty (args : list path) (arg : path) : path :=
  match GetIndexOf args arg with
  | None => []
  | Some i => nth (S i) args []
  end.

(* ---- the disk: the contents of the files that can be opened ---- *)
Definition disk := path -> option (list Z).
Definition put (d : disk) (p : path) (c : list Z) : disk := fun q => if path_eqb q p then Some c else d q.

Section Tools.
(* can a file of that name be opened for writing *)
Variable can : path -> bool.
(* text of a float, and back (C37) *)
Variable pf : Z -> list Z.
Variable sf : list Z -> Z.

(* DatabaseTextSerialiser.cpp:268-304 and DatabaseBinarySerialiser.cpp:218-252 with the file they open: the result of fopen
   is not looked at, so that what is written to a null pointer is undefined. A failure while writing is a failure of the
   whole; what it leaves in the file is not modelled *)
Definition write_text (d : disk) (p : path) (db : database) : outcome disk :=
  if can p then do c <- WriteTextDatabase pf db; Ok (put d p c) else UB.
Definition write_binary (d : disk) (p : path) (db : database) : outcome disk :=
  if can p then do c <- WriteBinaryDatabase db; Ok (put d p c) else UB.

(* ---- clReflectScan/Main.cpp ---- *)
(* 31-34 EndsWith: both sides are size_t, and npos is its largest value *)
Definition EndsWith (s e : list Z) : bool :=
  u64 (match string_rfind s e None with Some p => Z.of_nat p | None => -1 end) =? u64 (zlen s - zlen e).
(* 36-46 WriteDatabase *)
Definition WriteDatabase (d : disk) (db : database) (filename : path) : outcome disk :=
  if EndsWith filename (str ".csv") then write_text d filename db else write_binary d filename db.
(* 104-190 main, once the options are read: clang's part is the declarations given; the logs and times are left out *)
Definition scan_main (fuel : nat) (d : disk) (output : path) (tus : list (env * list decl)) : outcome (Z * disk) :=
  do x <- scan fuel sf tus;
  match output with
  | [] => Ok (0, d)
  | _ => do d <- WriteDatabase d (fst x) output; Ok (0, d)
  end.
(* one run after the other *)
Fixpoint scan_runs (fuel : nat) (d : disk) (jobs : list (path * list (env * list decl))) : outcome disk :=
  match jobs with
  | [] => Ok d
  | j :: r => do x <- scan_main fuel d (fst j) (snd j); scan_runs fuel (snd x) r
  end.

(* ---- reading, clReflectMerge/Main.cpp:50-59 and clReflectExport/Main.cpp:32-42: binary first, then text; None when the
   file is neither ---- *)
Definition read_database (file : option (list Z)) : outcome (option database) :=
  do b <- ReadBinaryDatabase file db_empty;
  match b with
  | Some db => Ok (Some db)
  | None => ReadTextDatabase sf file db_empty
  end.

(* ---- clReflectMerge/Main.cpp ---- *)
(* 45-63 *)
Fixpoint merge_files (d : disk) (files : list path) (db : database) : outcome (option database) :=
  match files with
  | [] => Ok (Some db)
  | f :: r =>
      do x <- read_database (d f);
      match x with
      | None => Ok None
      | Some l => do db <- MergeDatabases db l; merge_files d r db
      end
  end.
(* clReflectMerge/CodeGen.cpp:442-463, and 97-105 for WriteToFile: a file that cannot be opened is left *)
Definition left_file (d : disk) (p : path) (c : option (option (list Z))) : disk :=
  match c with Some (Some c) => if can p then put d p c else d | _ => d end.
(* clReflectMerge/Main.cpp:69-71 and clReflectMerge/CodeGen.cpp:523-541: the source file is done before the header. Neither name is null, so both are done *)
Definition generate (n : nat) (d : disk) (cpp h : path) (db : database) : outcome disk :=
  do a <- GenMergedCppImpl n (Some (d cpp)) None db;
  let d := left_file d cpp (fst a) in
  do b <- GenMergedCppImpl n None (Some (d h)) db;
  Ok (left_file d h (snd b)).
Definition opt_cpp : path := str "-cpp_codegen".
Definition opt_h : path := str "-h_codegen".
Definition is_nil (p : path) : bool := match p with [] => true | _ => false end.
(* clReflectMerge/Main.cpp:24-73 main: the exit code and the disk *)
Definition merge_main (n : nat) (args : list path) (d : disk) : outcome (Z * disk) :=
  if (length args <? 3)%nat then Ok (1, d) else
  let cpp := GetProperty args opt_cpp in
  let h := GetProperty args opt_h in
  let arg_start := (2 + (if is_nil cpp then 0 else 2) + (if is_nil h then 0 else 2))%nat in
  do m <- merge_files d (skipn arg_start args) db_empty;
  match m with
  | None => Ok (1, d)
  | Some db =>
      do d <- write_text d (nth 1 args []) db;
      if negb (is_nil cpp) || negb (is_nil h) then do d <- generate n d cpp h db; Ok (0, d) else Ok (0, d)
  end.

(* ---- clReflectExport/Main.cpp ---- *)
Variable L : layout.
(* MapFileParser (C71-C74) on the database, the text of WriteCppExportAsText, and the file SaveCppExport (C70) writes for
   what BuildCppExport (C42-C66) gives *)
Variable apply_map : option (list Z) -> database -> outcome database.
Variable log_text : export -> list Z.
Variable image : export -> outcome (list Z).
Definition opt_map : path := str "-map".
Definition opt_export : path := str "-cpp".
Definition opt_log : path := str "-cpp_log".
Definition write_if (d : disk) (p : path) (c : list Z) : disk := if can p then put d p c else d.
(* clReflectExport/Main.cpp:20-74 main *)
Definition export_main (fuel : nat) (args : list path) (d : disk) : outcome (Z * disk) :=
  if (length args <? 3)%nat then Ok (1, d) else
  do m <- read_database (d (nth 1 args []));
  match m with
  | None => Ok (1, d)
  | Some db =>
      let map_file := GetProperty args opt_map in
      do db <- (if is_nil map_file then Ok db else apply_map (d map_file) db);
      let cpp := GetProperty args opt_export in
      if is_nil cpp then Ok (0, d) else
      do e <- BuildCppExport L fuel db;
      let log := GetProperty args opt_log in
      let d := if is_nil log then d else write_if d log (log_text e) in
      do f <- image e;
      Ok (0, write_if d cpp f)
  end.
End Tools.
