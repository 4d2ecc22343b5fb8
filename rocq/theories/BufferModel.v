(* clutl::WriteBuffer and clutl::ReadBuffer: src/clReflectUtil/Serialise.cpp,
   inc/clutl/Serialise.h:20-120. *)
From Verif Require Import Base.

(* A byte of heap memory; None is an indeterminate (never written) byte. *)
Notation cell := (option Z).

(* m_data is None when null; otherwise the block of m_dataEnd - m_data cells.
   wb_pos = m_dataWrite - m_data. Pointer comparisons are modelled as comparisons
   of offsets (m_dataWrite + length may point past the block, which C++ leaves
   undefined; the flat address space makes it an integer comparison). *)
Record wbuf := mk_wbuf { wb_data : option (list cell); wb_pos : Z }.

(* Serialise.h: WriteBuffer() = default *)
Definition wb_default : wbuf := mk_wbuf None 0.

(* new char[n]: n indeterminate bytes *)
Definition new_block (n : Z) : list cell := repeat None (Z.to_nat n).

(* Serialise.cpp:25-31 *)
Definition wb_new (initial_capacity : Z) : wbuf := mk_wbuf (Some (new_block initial_capacity)) 0.

(* Serialise.h:54-66 *)
Definition wb_cells (b : wbuf) : list cell := match wb_data b with Some d => d | None => [] end.
Definition GetBytesWritten (b : wbuf) : Z := u32 (wb_pos b).
Definition GetBytesAllocated (b : wbuf) : Z := u32 (zlen (wb_cells b)).

(* Serialise.cpp:38-41 *)
Definition wb_reset (b : wbuf) : wbuf := mk_wbuf (wb_data b) 0.

(* Serialise.cpp:51-54: while (write_pos + length > new_capacity) new_capacity += new_capacity / 2
   in unsigned int arithmetic. *)
Fixpoint grow (fuel : nat) (need capacity : Z) : outcome Z :=
  match fuel with
  | O => Fuel
  | S n => if need >? capacity then grow n need (u32 (capacity + capacity / 2)) else Ok capacity
  end.

(* Serialise.cpp:43-75. The result pairs the offset of the allocated space with the
   buffer. memcpy of m_dataWrite - m_data bytes is undefined when the new block is
   smaller than that. *)
Definition wb_alloc (fuel : nat) (b : wbuf) (length : Z) : outcome (Z * wbuf) :=
  let cap := zlen (wb_cells b) in
  if wb_pos b + length >? cap then
    let start := match wb_data b with None => 32 | Some _ => u32 cap end in
    let write_pos := u32 (wb_pos b) in
    do new_capacity <- grow fuel (u32 (write_pos + length)) start;
    if wb_pos b <=? new_capacity then
      let new_data := firstn (Z.to_nat (wb_pos b)) (wb_cells b) ++ new_block (new_capacity - wb_pos b) in
      Ok (write_pos, mk_wbuf (Some new_data) (write_pos + length))
    else UB
  else Ok (wb_pos b, mk_wbuf (wb_data b) (wb_pos b + length)).

(* store bytes at an offset of the block; outside it is undefined *)
Definition wb_store (b : wbuf) (off : Z) (bs : list Z) : outcome wbuf :=
  let d := wb_cells b in
  if (0 <=? off) && (off + zlen bs <=? zlen d) then
    Ok (mk_wbuf (Some (firstn (Z.to_nat off) d ++ map Some bs ++ skipn (Z.to_nat off + length bs) d)) (wb_pos b))
  else UB.

(* Serialise.cpp:77-82. memcpy is declared nonnull (Serialise.cpp:17-23): a null
   destination is undefined even for zero bytes. data holds the length bytes read. *)
Definition wb_write (fuel : nat) (b : wbuf) (data : list Z) : outcome wbuf :=
  do a <- wb_alloc fuel b (zlen data);
  match wb_data (snd a) with
  | None => UB
  | Some _ => wb_store (snd a) (fst a) data
  end.

(* Serialise.cpp:84-93 WriteStr: the bytes of str before its terminator. The length
   argument is converted to unsigned int. *)
Fixpoint until_zero (str : list Z) : outcome (list Z) :=
  match str with
  | [] => UB
  | c :: rest => if c =? 0 then Ok [] else do r <- until_zero rest; Ok (c :: r)
  end.
Definition wb_write_str (fuel : nat) (b : wbuf) (str : list Z) : outcome wbuf :=
  do s <- until_zero str; wb_write fuel b (firstn (Z.to_nat (u32 (zlen s))) s).

(* Serialise.cpp:95-99 *)
Definition wb_write_char (fuel : nat) (b : wbuf) (c : Z) : outcome wbuf :=
  do a <- wb_alloc fuel b 1; wb_store (snd a) (fst a) [c].

(* Serialise.cpp:101-107 *)
Definition wb_seek_rel (b : wbuf) (offset : Z) : outcome wbuf :=
  let p := wb_pos b + offset in
  do _ <- assert (0 <=? p);
  do _ <- assert (p <=? zlen (wb_cells b));
  Ok (mk_wbuf (wb_data b) p).

(* A history of calls on a write buffer *)
Inductive wop :=
| WWrite (data : list Z)
| WStr (str : list Z)      (* memory from the string pointer on *)
| WChar (c : Z)
| WAlloc (length : Z)
| WSeek (offset : Z)
| WReset.
Definition wb_step (fuel : nat) (b : wbuf) (o : wop) : outcome wbuf :=
  match o with
  | WWrite d => wb_write fuel b d
  | WStr s => wb_write_str fuel b s
  | WChar c => wb_write_char fuel b c
  | WAlloc n => do a <- wb_alloc fuel b n; Ok (snd a)
  | WSeek o => wb_seek_rel b o
  | WReset => Ok (wb_reset b)
  end.
Fixpoint wb_run (fuel : nat) (b : wbuf) (l : list wop) : outcome wbuf :=
  match l with
  | [] => Ok b
  | o :: r => do b' <- wb_step fuel b o; wb_run fuel b' r
  end.

(* ---- ReadBuffer ---- rb_null: m_data is null (default-constructed WriteBuffer) *)
Record rbuf := mk_rbuf { rb_data : list cell; rb_null : bool; rb_pos : Z }.

(* Serialise.cpp:109-114 *)
Definition rb_of_wb (b : wbuf) : rbuf :=
  mk_rbuf (firstn (Z.to_nat (GetBytesWritten b)) (wb_cells b))
          (match wb_data b with None => true | Some _ => false end) 0.
(* Serialise.cpp:116-121, data not null *)
Definition rb_of_bytes (l : list Z) : rbuf := mk_rbuf (map Some l) false 0.

(* Serialise.cpp:123-129 *)
Definition rb_read (r : rbuf) (length : Z) : outcome (list cell * rbuf) :=
  do _ <- assert (rb_pos r + length <=? zlen (rb_data r));
  if rb_null r || (rb_pos r <? 0) then UB
  else Ok (slice (rb_data r) (rb_pos r) length, mk_rbuf (rb_data r) (rb_null r) (rb_pos r + length)).

(* Serialise.cpp:131-135; the result is an offset into the data *)
Definition rb_read_at (r : rbuf) (position : Z) : outcome Z :=
  do _ <- assert (position <=? zlen (rb_data r)); Ok position.

(* Serialise.cpp:137-141 *)
Definition rb_seek_rel (r : rbuf) (offset : Z) : outcome rbuf :=
  do _ <- assert (rb_pos r + offset <=? zlen (rb_data r));
  Ok (mk_rbuf (rb_data r) (rb_null r) (rb_pos r + offset)).

(* Serialise.h:100-111 *)
Definition GetBytesRead (r : rbuf) : Z := u32 (rb_pos r).
Definition GetTotalBytes (r : rbuf) : Z := u32 (zlen (rb_data r)).
Definition GetBytesRemaining (r : rbuf) : Z := u32 (zlen (rb_data r) - rb_pos r).

(* reading a list of chunk lengths one after the other *)
Fixpoint rb_read_all (r : rbuf) (lens : list Z) : outcome (list (list cell) * rbuf) :=
  match lens with
  | [] => Ok ([], r)
  | n :: rest =>
      do x <- rb_read r n;
      do y <- rb_read_all (snd x) rest;
      Ok (fst x :: fst y, snd y)
  end.
