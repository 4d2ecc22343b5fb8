(* What a program may expect of its logs. past is the list of earlier calls, last call first. *)
From Verif Require Import Base Text LogModel.

(* how deep a log is indented *)
Fixpoint depth (name : Z) (past : list lcall) : Z :=
  match past with
  | [] => 0
  | PushIndent n :: r => if n =? name then depth name r + 1 else depth name r
  | PopIndent n :: r => if n =? name then depth name r - 1 else depth name r
  | _ :: r => depth name r
  end.
(* how often bit i of a log is directed to standard output: directing it to a file takes away all that was before *)
Fixpoint printers (name i : Z) (past : list lcall) : nat :=
  match past with
  | [] => 0
  | SetLogToStdout n tag :: r => if (n =? name)%Z && Z.testbit tag i then S (printers name i r) else printers name i r
  | SetLogToFile n tag _ :: r => if (n =? name)%Z && Z.testbit tag i then 0 else printers name i r
  | _ :: r => printers name i r
  end.
(* what a call of Log writes to each stream *)
Definition line_of (d tag : Z) (do_prefix : bool) (text : list Z) : list Z :=
  (if do_prefix then if tag =? 1 then repeat 9 (Z.to_nat d) else if tag =? 2 then str "WARNING: " else if tag =? 4 then str "ERROR: " else [] else []) ++ firstn 511 text.
(* what is printed by the calls cs *)
Fixpoint printed (past cs : list lcall) : list Z :=
  match cs with
  | [] => []
  | c :: r =>
      match c with
      | Log name tag p text => concat (repeat (line_of (depth name past) tag p text) (printers name (Z.log2 tag) past))
      | _ => []
      end ++ printed (c :: past) r
  end.
(* what is logged under name and bit i by the calls cs *)
Fixpoint logged (name i : Z) (past cs : list lcall) : list Z :=
  match cs with
  | [] => []
  | c :: r =>
      match c with
      | Log n tag p text => if (n =? name) && (Z.log2 tag =? i) then line_of (depth n past) tag p text else []
      | _ => []
      end ++ logged name i (c :: past) r
  end.
(* tags are not 0 and fit an enum; lines with a prefix are not indented out of their buffer *)
Fixpoint moderate (past cs : list lcall) : Prop :=
  match cs with
  | [] => True
  | c :: r =>
      match c with
      | Log name tag p _ => 0 < tag < 2 ^ 31 /\ (p = true -> tag = 1 -> 0 <= depth name past < 128)
      | PushIndent name => depth name past < 2 ^ 31 - 1
      | PopIndent name => - 2 ^ 31 < depth name past
      | _ => True
      end /\ moderate (c :: past) r
  end.
(* calls that direct neither anything to this file, nor this bit of this log to a file *)
Definition spares (path name i : Z) (c : lcall) : Prop :=
  match c with SetLogToFile n tag p => p <> path /\ ~ (n = name /\ Z.testbit tag i = true) | _ => True end.
