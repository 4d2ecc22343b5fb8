(* What a program may expect of Database objects over their life. *)
From Coq Require Import Permutation.
From Verif Require Import Base Maps DatabaseModel ExportModel ExportSpec MmapModel MmapSpec ImageModel LaidModel LaidSpec QueryModel QuerySpec LifeModel.

(* where programs start: no Database, allocators that have given out some blocks, each once *)
Definition fresh_start (w : world) : Prop := w_objects w = [] /\ forall a, NoDup (w_live w a) /\ Forall (fun b => b < w_next w a) (w_live w a).
(* files are bytes *)
Definition file_of_bytes (c : call) : Prop := match c with Load _ _ file _ _ => Forall is_byte file | _ => True end.
(* a history: calls that ran to the end *)
Definition history (addr : Z -> Z -> Z) (w0 : world) (cs : list call) (answers : list bool) (w : world) : Prop :=
  fresh_start w0 /\ Forall file_of_bytes cs /\ run addr w0 cs = Ok (w, answers).

(* the block of an object, if it came from allocator a *)
Definition block_of (a : Z) (o : object) : list Z := match o_mem o with Some (b, _) => if o_alloc o =? a then [b] else [] | None => [] end.
(* the blocks of allocator a that hold databases *)
Definition blocks (a : Z) (os : list (Z * object)) : list Z := flat_map (fun x => block_of a (snd x)) os.

(* no call of the history is a Load that fails after it accepted the header *)
Definition not_cut (c : call) (answer : bool) : Prop :=
  match c with Load _ _ file _ _ => answer = true \/ zlen file < 32 \/ firstn 12 file <> magic | _ => True end.

(* after any history, Load of a file the exporter makes of db on an object that is not loaded answers true, and whatever follows, the
   memory of the object has P until it is destroyed *)
Definition lives_loaded (L : layout) (fuel : nat) (db : database) (P : forall fb base this to options : Z, list Z -> list Z -> Prop) : Prop :=
  exports L fuel db (fun e => forall heap pad fb start relpad, heap_ok e heap -> 0 < start -> start + image_size e heap < 2 ^ 64 ->
    (forall k, length (fst (relpad k)) = 4%nat /\ length (snd (relpad k)) = 4%nat) ->
    exists file, SaveCppExport start (image e heap pad fb start) relpad = Ok file /\
      forall addr w0 cs answers w this o a rest to options, history addr w0 cs answers w -> In (this, o) (w_objects w) -> o_mem o = None ->
        0 < addr a (w_next w a) -> addr a (w_next w a) + image_size e heap < 2 ^ 64 ->
      exists w' before mem, step addr w (Load this a (file ++ rest) to options) = Ok (w', true) /\
        P fb (addr a (w_next w a)) this to options before mem /\
        forall later w'' answers', ~ In (Destruct this) later -> run addr w' later = Ok (w'', answers') ->
          In (this, mk_object (Some (w_next w a, mem)) a) (w_objects w'')).
