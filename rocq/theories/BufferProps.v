(* Property theorems: C13, C14, C15 (WriteBuffer, ReadBuffer). *)
From Verif Require Import Base BufferModel BufferSpec BufferProofs.

(* C13: any history of Write, WriteStr, WriteChar and Reset leaves exactly the
   concatenation of what was written since the last Reset. *)
Theorem C13_contents : forall fuel cap l, (64 <= fuel)%nat -> 2 <= cap < 2 ^ 32 ->
  Forall plain l -> total_size l <= 2863311531 ->
  exists b, wb_run fuel (wb_new cap) l = Ok b /\
    GetBytesWritten b = zlen (contents [] l) /\
    firstn (length (contents [] l)) (wb_cells b) = map Some (contents [] l) /\
    wb_pos b = zlen (contents [] l).
Proof. exact plain_history. Qed.
Print Assumptions C13_contents.

(* C13, with Alloc and SeekRel: bytes known to have been written at an offset are
   still there, whatever growth happened in between; the capacity is respected. *)
Theorem C13_history : forall fuel b0 null l, (64 <= fuel)%nat ->
  (null = true /\ b0 = wb_default) \/ (null = false /\ exists cap, 2 <= cap < 2 ^ 32 /\ b0 = wb_new cap) ->
  a_all_ok (a_new null) l ->
  exists b, wb_run fuel b0 l = Ok b /\
    GetBytesWritten b = apos (a_run (a_new null) l) /\
    GetBytesWritten b <= GetBytesAllocated b /\
    (forall i v, known (a_run (a_new null) l) i = Some v -> znth (wb_cells b) i = Some (Some v)).
Proof. exact history_ok. Qed.
Print Assumptions C13_history.

(* finding: the first call on a default-constructed buffer being an empty write hands
   a null pointer to memcpy *)
Theorem C13_empty_first_write_refuted : forall fuel, wb_run fuel wb_default [WStr [0]] = UB.
Proof. intros [|fuel]; reflexivity. Qed.
Print Assumptions C13_empty_first_write_refuted.

Definition hist := [WWrite [1; 2; 3]; WAlloc 2; WChar 7; WSeek (-3); WWrite [8; 9]; WSeek 1; WStr [65; 66; 67; 0; 5]].
Example C13_witness :
  a_all_ok (a_new true) hist /\ a_all_ok (a_new false) hist /\
  (do b <- wb_run 64 (wb_new 2) hist; Ok (wb_pos b, firstn 9 (wb_cells b))) =
    Ok (9, [Some 1; Some 2; Some 3; Some 8; Some 9; Some 7; Some 65; Some 66; Some 67]) /\
  Forall plain [WWrite [1; 2]; WReset; WStr [65; 0]; WChar 6] /\
  contents [] [WWrite [1; 2]; WReset; WStr [65; 0]; WChar 6] = [65; 6].
Proof.
  split; [vm_compute; intuition (discriminate || congruence)|].
  split; [vm_compute; intuition (discriminate || congruence)|].
  split; [vm_compute; reflexivity|]. split; [|reflexivity].
  repeat (apply Forall_cons; [cbn; auto|]). apply Forall_nil.
Qed.

(* seeking outside the allocated bytes stops the program rather than moving the position there *)
Theorem C13_seek_traps : forall b offset,
  (wb_seek_rel b offset = Trap <-> wb_pos b + offset < 0 \/ zlen (wb_cells b) < wb_pos b + offset) /\
  (0 <= wb_pos b + offset <= zlen (wb_cells b) -> exists b', wb_seek_rel b offset = Ok b' /\ wb_pos b' = wb_pos b + offset /\ wb_cells b' = wb_cells b).
Proof.
  intros b o. unfold wb_seek_rel. cbv zeta. destruct (Z.leb_spec 0 (wb_pos b + o)), (Z.leb_spec (wb_pos b + o) (zlen (wb_cells b))); cbn; (split; [split; intros; try discriminate; try lia; reflexivity|]); intros; try lia.
  eexists. split; [reflexivity|]. split; reflexivity.
Qed.
Print Assumptions C13_seek_traps.

(* C14: growth terminates within 64 rounds for capacities of two or more and needs of
   at most two thirds of 2^32 *)
Theorem C14_growth_terminates : forall fuel need capacity, (64 <= fuel)%nat ->
  0 <= need <= 2863311531 -> 2 <= capacity < 2 ^ 32 ->
  exists c', grow fuel need capacity = Ok c' /\ need <= c' /\ capacity <= c' < 2 ^ 32.
Proof. exact grow_enough. Qed.
Print Assumptions C14_growth_terminates.
(* refuted for capacities 0 and 1: no number of rounds is enough *)
Theorem C14_capacity_0_refuted : forall fuel, wb_write fuel (wb_new 0) [1] = Fuel.
Proof.
  intros fuel. unfold wb_write, wb_alloc, wb_new. cbn [wb_data wb_cells wb_pos].
  change (zlen (new_block 0)) with 0. change (zlen [1]) with 1. cbn [Z.add Z.gtb Z.compare].
  change (u32 0) with 0. change (u32 (0 + 1)) with 1. rewrite grow_stuck_0; [reflexivity|lia].
Qed.
Print Assumptions C14_capacity_0_refuted.
Theorem C14_capacity_1_refuted : forall fuel, wb_write fuel (wb_new 1) [1; 2] = Fuel.
Proof.
  intros fuel. unfold wb_write, wb_alloc, wb_new. cbn [wb_data wb_cells wb_pos].
  change (zlen (new_block 1)) with 1. change (zlen [1; 2]) with 2. change (0 + 2 >? 1) with true.
  cbn match. change (u32 0) with 0. change (u32 1) with 1. change (u32 (0 + 2)) with 2.
  rewrite grow_stuck_1; [reflexivity|lia].
Qed.
Print Assumptions C14_capacity_1_refuted.
(* and just above the bound: the capacity wraps to zero and the loop never ends *)
Theorem C14_wrap_refuted : forall fuel, grow fuel 2863311532 2863311531 = Fuel.
Proof. exact grow_stuck_limit. Qed.
Print Assumptions C14_wrap_refuted.

(* C15: chunks written are read back unchanged, and nothing is left over *)
Theorem C15_write_then_read : forall fuel cap chunks, (64 <= fuel)%nat -> 2 <= cap < 2 ^ 32 ->
  zlen (concat chunks) <= 2863311531 ->
  exists b r, wb_run fuel (wb_new cap) (map WWrite chunks) = Ok b /\
    rb_read_all (rb_of_wb b) (map (@zlen Z) chunks) = Ok (map (map Some) chunks, r) /\
    GetBytesRemaining r = 0.
Proof. exact write_read_ok. Qed.
Print Assumptions C15_write_then_read.
(* C15: a read past the end traps and nothing else does; no out-of-bounds access *)
Theorem C15_read_traps : forall r n, 0 <= rb_pos r -> rb_null r = false -> 0 <= n ->
  (rb_read r n = Trap <-> zlen (rb_data r) < rb_pos r + n) /\ rb_read r n <> UB.
Proof. exact read_trap_iff. Qed.
Print Assumptions C15_read_traps.
Theorem C15_read_at_traps : forall r p,
  rb_read_at r p = Trap <-> zlen (rb_data r) < p.
Proof.
  intros r p. unfold rb_read_at. destruct (Z.leb_spec p (zlen (rb_data r))); cbn; split; intros; try discriminate; try lia; reflexivity.
Qed.
Print Assumptions C15_read_at_traps.
Theorem C15_seek_traps : forall r o,
  rb_seek_rel r o = Trap <-> zlen (rb_data r) < rb_pos r + o.
Proof.
  intros r o. unfold rb_seek_rel. destruct (Z.leb_spec (rb_pos r + o) (zlen (rb_data r))); cbn; split; intros; try discriminate; try lia; reflexivity.
Qed.
Print Assumptions C15_seek_traps.
(* finding: seeking before the start is accepted and the next read is out of bounds *)
Theorem C15_seek_underflow_refuted : exists r r',
  rb_seek_rel r (-1) = Ok r' /\ rb_read r' 1 = UB /\ rb_pos r = 0.
Proof. exists (rb_of_bytes [1; 2]), (mk_rbuf [Some 1; Some 2] false (-1)). vm_compute. auto. Qed.
Print Assumptions C15_seek_underflow_refuted.
Example C15_witness :
  (do b <- wb_run 64 (wb_new 2) (map WWrite [[1; 2; 3]; []; [4]]);
   do x <- rb_read_all (rb_of_wb b) [3; 0; 1]; Ok (fst x)) = Ok [[Some 1; Some 2; Some 3]; []; [Some 4]].
Proof. vm_compute. reflexivity. Qed.
