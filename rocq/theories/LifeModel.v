(* Database objects over their life: construction, Load, destruction (src/clReflectCpp/clcpp.cpp:558-608), any number of them, sharing
   any number of allocators. The memory of a loaded database is as in QueryModel.v; addr a b is the address of block b of allocator a.
   Allocators and files are as in MmapModel.v. *)
From Verif Require Import Base Maps MmapModel QueryModel.

(* clcpp.h: the members of Database; o_mem is the block m_DatabaseMem points at and its content, o_alloc is m_Allocator (the number of
   the allocator, -1 is the null pointer) *)
Record object := mk_object { o_mem : option (Z * list Z); o_alloc : Z }.
(* each allocator has its next block and its live blocks; objects are found by address *)
Record world := mk_world { w_next : Z -> Z; w_live : Z -> list Z; w_objects : zmap object }.
Definition set {T} (f : Z -> T) (a : Z) (v : T) : Z -> T := fun x => if x =? a then v else f x.
(* an allocator seen by a call that reads the file *)
Definition env_of (w : world) (a : Z) (file : list Z) : env := mk_env file (w_next w a) (w_live w a).
Definition with_env (w : world) (a : Z) (e : env) (os : zmap object) : world := mk_world (set (w_next w) a (e_next e)) (set (w_live w) a (e_live e)) os.

(* what a program does with Database objects; to is the load address of the executable and options are those of Load. The other Load
   (clcpp.cpp:570-574) gets to from the system *)
Inductive call :=
| Construct (this : Z)
| Load (this a : Z) (file : list Z) (to options : Z)
| Destruct (this : Z).

(* clcpp.cpp:576-608 Database::Load on an object, with its answer *)
Definition LoadObject (addr : Z -> Z -> Z) (w : world) (this : Z) (o : object) (a : Z) (file : list Z) (to options : Z) : outcome (world * bool) :=
  do _ <- assert (match o_mem o with None => true | Some _ => false end);
  do r <- LoadMemoryMappedDatabase (addr a) (env_of w a file);
  match r with
  | (None, e) => Ok (with_env w a e (m_update this (mk_object None a) (w_objects w)), false)
  | (Some (b, img), e) =>
      do mem <- FinishLoad (addr a b) img this to options;
      Ok (with_env w a e (m_update this (mk_object (Some (b, mem)) a) (w_objects w)), true)
  end.
(* clcpp.cpp:564-568: the destructor gives the block to m_Allocator *)
Definition DestructObject (w : world) (this : Z) (o : object) : outcome world :=
  let os := filter (fun x => negb (fst x =? this)) (w_objects w) in
  match o_mem o with
  | None => Ok (mk_world (w_next w) (w_live w) os)
  | Some (b, _) => do e <- free (env_of w (o_alloc o) []) b; Ok (with_env w (o_alloc o) e os)
  end.
(* one call and its answer; constructing over an object and using what is not one are undefined behaviour *)
Definition step (addr : Z -> Z -> Z) (w : world) (c : call) : outcome (world * bool) :=
  match c with
  | Construct this =>
      (* clcpp.cpp:558-562 *)
      match m_find this (w_objects w) with
      | Some _ => UB
      | None => Ok (mk_world (w_next w) (w_live w) ((this, mk_object None (-1)) :: w_objects w), true)
      end
  | Load this a file to options =>
      match m_find this (w_objects w) with Some o => LoadObject addr w this o a file to options | None => UB end
  | Destruct this =>
      match m_find this (w_objects w) with Some o => do w' <- DestructObject w this o; Ok (w', true) | None => UB end
  end.
(* a history and the answers to its calls *)
Fixpoint run (addr : Z -> Z -> Z) (w : world) (cs : list call) : outcome (world * list bool) :=
  match cs with
  | [] => Ok (w, [])
  | c :: r => do s <- step addr w c; do t <- run addr (fst s) r; Ok (fst t, snd s :: snd t)
  end.
