(* Logging: src/clReflectCore/Logging.cpp, inc Logging.h:15-103. Logs are named by the address of their name, which is what the program compares
   (Logging.cpp:147); files are named by path. Formatting (vsnprintf) is a parameter: the calls carry the formatted text. What happens at
   exit (151-165) is left out: it closes the files *)
From Verif Require Import Base Text.

(* Logging.cpp:26-88: the outputs; a FileStream by the number of its FILE, or with none if fopen failed *)
Inductive stream := Stdout | File (fp : Z) | Closed.
(* Logging.cpp:128-134: the linked list of each bit of the tag, first stream first *)
Record stream_set := mk_set { indent_depth : Z; streams : Z -> list stream }.
(* g_StreamMap (147-148), standard output, the files, each FILE with its path and its position, the number of the next FILE *)
Record logs := mk_logs { l_sets : Z -> stream_set; l_out : list Z; l_files : Z -> list Z; l_fps : Z -> Z * Z; l_next : Z }.
Definition upd {T} (f : Z -> T) (k : Z) (v : T) : Z -> T := fun x => if x =? k then v else f x.
(* a program starts with an empty map *)
Definition start (files : Z -> list Z) : logs := mk_logs (fun _ => mk_set 0 (fun _ => [])) [] files (fun _ => (0, 0)) 0.

(* fputs and fflush at a position of a file *)
Definition put (pos : Z) (text content : list Z) : list Z :=
  firstn (Z.to_nat pos) (content ++ repeat 0 (Z.to_nat pos - length content)) ++ text ++ skipn (Z.to_nat pos + length text) content.
(* Logging.cpp:45-49 and 76-84 *)
Definition stream_log (w : logs) (s : stream) (text : list Z) : logs :=
  match s with
  | Stdout => mk_logs (l_sets w) (l_out w ++ text) (l_files w) (l_fps w) (l_next w)
  | File fp =>
      let '(path, pos) := l_fps w fp in
      mk_logs (l_sets w) (l_out w) (upd (l_files w) path (put pos text (l_files w path))) (upd (l_fps w) fp (path, pos + zlen text)) (l_next w)
  | Closed => w
  end.

Inductive lcall :=
| SetLogToStdout (name tag : Z)
| SetLogToFile (name tag path : Z)
| Log (name tag : Z) (do_prefix : bool) (text : list Z)
| PushIndent (name : Z)
| PopIndent (name : Z).

(* Logging.cpp:122 *)
Definition tag_bits : list Z := map Z.of_nat (seq 0 31).
(* streams[i] = the new stream and those behind it *)
Definition set_streams (w : logs) (name i : Z) (l : list stream) : logs :=
  let s := l_sets w name in
  mk_logs (upd (l_sets w) name (mk_set (indent_depth s) (upd (streams s) i l))) (l_out w) (l_files w) (l_fps w) (l_next w).
(* fopen(path, w): an empty file; can_open tells if it succeeds *)
Section System.
Variable can_open : Z -> bool.
Definition fopen (w : logs) (path : Z) : logs * stream :=
  if can_open path then
    (mk_logs (l_sets w) (l_out w) (upd (l_files w) path []) (upd (l_fps w) (l_next w) (path, 0)) (l_next w + 1), File (l_next w))
  else (w, Closed).
(* Logging.cpp:180-183 for a StdoutStream: its implicit copy constructor copies next *)
Definition add_stdout (name : Z) (w : logs) (i : Z) : logs := set_streams w name i (Stdout :: streams (l_sets w name) i).
(* Logging.cpp:180-183 for a FileStream: its copy constructor (64-68) opens the file again and, naming no base, makes next null *)
Definition add_file (name path : Z) (w : logs) (i : Z) : logs := let '(w, s) := fopen w path in set_streams w name i [s].
(* Logging.cpp:168-186 *)
Definition set_log (tag : Z) (add : logs -> Z -> logs) (w : logs) : logs :=
  fold_left (fun w i => if Z.testbit tag i then add w i else w) tag_bits w.

(* Logging.cpp:189-212 *)
Definition Log2 (v : Z) : Z := if v =? 0 then -1 else Z.log2 (u32 v).
(* Logging.cpp:254-276: prefix has 128 bytes *)
Definition prefix_of (depth tag : Z) (do_prefix : bool) : outcome (list Z) :=
  if do_prefix then
    if tag =? 1 then if (0 <=? depth) && (depth <? 128) then Ok (repeat 9 (Z.to_nat depth)) else UB
    else if tag =? 2 then Ok (str "WARNING: ")
    else if tag =? 4 then Ok (str "ERROR: ")
    else Ok []
  else Ok [].
(* Logging.cpp:241-290: buffer has 512 bytes *)
Definition log (w : logs) (name tag : Z) (do_prefix : bool) (text : list Z) : outcome logs :=
  let buffer := firstn 511 text in
  let set := l_sets w name in
  do prefix <- prefix_of (indent_depth set) tag do_prefix;
  let index := Log2 tag in
  (* 104-113 *)
  do _ <- assert ((0 <=? index) && (index <? 31));
  Ok (fold_left (fun w s => let w := if do_prefix then stream_log w s prefix else w in stream_log w s buffer) (streams set index) w).
Definition set_indent (w : logs) (name depth : Z) : logs :=
  mk_logs (upd (l_sets w) name (mk_set depth (streams (l_sets w name)))) (l_out w) (l_files w) (l_fps w) (l_next w).
Definition lstep (w : logs) (c : lcall) : outcome logs :=
  match c with
  | SetLogToStdout name tag => Ok (set_log tag (add_stdout name) w)                  (* Logging.cpp:216-219 *)
  | SetLogToFile name tag path =>
      (* Logging.cpp:222-232: opened here and for the argument of SetLogToStream, whose FILEs are closed again *)
      let w := if can_open path then mk_logs (l_sets w) (l_out w) (upd (l_files w) path []) (l_fps w) (l_next w) else w in
      Ok (set_log tag (add_file name path) w)
  | Log name tag do_prefix text => log w name tag do_prefix text
  | PushIndent name =>
      (* Logging.cpp:293-296: an int *)
      let d := indent_depth (l_sets w name) in if d =? 2 ^ 31 - 1 then UB else Ok (set_indent w name (d + 1))
  | PopIndent name =>
      (* Logging.cpp:299-302 *)
      let d := indent_depth (l_sets w name) in if d =? - 2 ^ 31 then UB else Ok (set_indent w name (d - 1))
  end.
Fixpoint lrun (w : logs) (cs : list lcall) : outcome logs :=
  match cs with
  | [] => Ok w
  | c :: r => do w <- lstep w c; lrun w r
  end.
End System.
