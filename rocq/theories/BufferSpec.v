(* What a write buffer is supposed to be: bytes known at each offset, a position and
   the furthest position reached. Independent of BufferModel's helpers. *)
From Verif Require Import Base BufferModel.

Record abuf := mk_abuf {
  known : Z -> option Z;      (* byte at an offset, when it has been written *)
  apos : Z;                   (* write position *)
  ahigh : Z;                  (* furthest position ever reached *)
  anull : bool }.             (* nothing allocated yet *)

Definition a_new (null : bool) : abuf := mk_abuf (fun _ => None) 0 0 null.

(* the characters of a C string in memory *)
Fixpoint c_text (mem : list Z) : list Z :=
  match mem with
  | [] => []
  | c :: r => if c =? 0 then [] else c :: c_text r
  end.

Definition a_write (s : abuf) (bs : list Z) : abuf :=
  mk_abuf (fun i => if (apos s <=? i) && (i <? apos s + zlen bs) then znth bs (i - apos s) else known s i)
          (apos s + zlen bs) (Z.max (ahigh s) (apos s + zlen bs)) (anull s && (zlen bs =? 0)).

Definition a_step (s : abuf) (o : wop) : abuf :=
  match o with
  | WWrite d => a_write s d
  | WStr m => a_write s (c_text m)
  | WChar c => a_write s [c]
  | WAlloc n => mk_abuf (fun i => if (apos s <=? i) && (i <? apos s + n) then None else known s i)
                        (apos s + n) (Z.max (ahigh s) (apos s + n)) (anull s && (n =? 0))
  | WSeek d => mk_abuf (known s) (apos s + d) (ahigh s) (anull s)
  | WReset => mk_abuf (known s) 0 (ahigh s) (anull s)
  end.
Definition a_run (s : abuf) (l : list wop) : abuf := fold_left a_step l s.

(* two thirds of 2^32: beyond this 1.5x growth wraps *)
Definition limit : Z := 2863311531.

(* a call the buffer supports in state s *)
Definition a_ok (s : abuf) (o : wop) : Prop :=
  match o with
  | WWrite d => apos s + zlen d <= limit /\ (anull s = true -> d <> [])
  | WStr m => In 0 m /\ apos s + zlen (c_text m) <= limit /\ (anull s = true -> c_text m <> [])
  | WChar _ => apos s + 1 <= limit
  | WAlloc n => 0 <= n /\ apos s + n <= limit
  | WSeek d => 0 <= apos s + d <= ahigh s
  | WReset => True
  end.
Fixpoint a_all_ok (s : abuf) (l : list wop) : Prop :=
  match l with
  | [] => True
  | o :: r => a_ok s o /\ a_all_ok (a_step s o) r
  end.

(* For histories of plain writes and resets: the bytes written since the last Reset. *)
Fixpoint contents (acc : list Z) (l : list wop) : list Z :=
  match l with
  | [] => acc
  | WWrite d :: r => contents (acc ++ d) r
  | WStr m :: r => contents (acc ++ c_text m) r
  | WChar c :: r => contents (acc ++ [c]) r
  | WReset :: r => contents [] r
  | _ :: r => contents acc r
  end.
Definition op_size (o : wop) : Z :=
  match o with WWrite d => zlen d | WStr m => zlen (c_text m) | WChar _ => 1 | WAlloc n => n | _ => 0 end.
Definition total_size (l : list wop) : Z := fold_right (fun o z => op_size o + z) 0 l.
Definition plain (o : wop) : Prop :=
  match o with WWrite _ | WChar _ | WReset => True | WStr m => In 0 m | _ => False end.
