(* Arrays of the tools: src/clReflectCore/Array.h, any number of arrays and allocators. Simplifications: elements are one value each, which
   constructing sets to 0 and which is copied by assignment; memory that was allocated and not constructed holds 0; an array over
   memory of the caller (34-40) is left out. *)
From Verif Require Import Base.

(* the members of clcpp::CArray (inc/clcpp/clcpp.h); 0 is the null pointer, of blocks and of allocators *)
Record carray := mk_carray { a_size : Z; a_data : Z; a_alloc : Z }.
(* the address of the next block, the live blocks with the allocator they came from, the arrays by address *)
Record heap := mk_heap { h_next : Z; h_blocks : Z -> option (Z * list Z); h_arrays : Z -> option carray }.
Definition upd {T} (f : Z -> T) (k : Z) (v : T) : Z -> T := fun x => if x =? k then v else f x.
Definition start : heap := mk_heap 1 (fun _ => None) (fun _ => None).

(* data[i] of a block, read and written *)
Definition read (h : heap) (b i : Z) : outcome Z :=
  match h_blocks h b with
  | Some (_, c) => if (0 <=? i) && (i <? zlen c) then Ok (nth (Z.to_nat i) c 0) else UB
  | None => UB
  end.
Definition write (h : heap) (b i v : Z) : outcome heap :=
  match h_blocks h b with
  | Some (o, c) =>
      if (0 <=? i) && (i <? zlen c) then
        Ok (mk_heap (h_next h) (upd (h_blocks h) b (Some (o, firstn (Z.to_nat i) c ++ v :: skipn (S (Z.to_nat i)) c))) (h_arrays h))
      else UB
  | None => UB
  end.
(* IAllocator::Alloc and Free: only the allocator a block came from can free it, and once *)
Definition alloc (h : heap) (allocator size : Z) : heap * Z :=
  (mk_heap (h_next h + 1) (upd (h_blocks h) (h_next h) (Some (allocator, repeat 0 (Z.to_nat size)))) (h_arrays h), h_next h).
Definition free (h : heap) (allocator b : Z) : outcome heap :=
  match h_blocks h b with
  | Some (o, _) => if o =? allocator then Ok (mk_heap (h_next h) (upd (h_blocks h) b None) (h_arrays h)) else UB
  | None => UB
  end.
Definition set_array (h : heap) (this : Z) (a : option carray) : heap := mk_heap (h_next h) (h_blocks h) (upd (h_arrays h) this a).

(* Array.h:109-110, the loop from i on for n rounds *)
Fixpoint shift (n : nat) (h : heap) (b i : Z) : outcome heap :=
  match n with
  | O => Ok h
  | S n => do v <- read h b (i + 1); do h <- write h b i v; shift n h b (i + 1)
  end.
(* Array.h:124-125 *)
Fixpoint copy (n : nat) (h : heap) (dest src i : Z) : outcome heap :=
  match n with
  | O => Ok h
  | S n => do v <- read h src i; do h <- write h dest i v; copy n h dest src (i + 1)
  end.

Inductive acall :=
| New (this : Z)
| NewSized (this size allocator : Z)
| Get (this index : Z)
| Set_ (this index value : Z)
| StableRemove (this index : Z)
| UnstableRemove (this index : Z)
| DeepCopy (dest src allocator : Z)
| ShallowCopy (dest src : Z)
| Delete (this : Z).

(* one call and its answer; constructing over an array and using what is none are undefined *)
Definition astep (h : heap) (c : acall) : outcome (heap * Z) :=
  match c with
  | New this =>
      (* Array.h:14-20 *)
      match h_arrays h this with Some _ => UB | None => Ok (set_array h this (Some (mk_carray 0 0 0)), 0) end
  | NewSized this size allocator =>
      (* Array.h:22-32 *)
      match h_arrays h this with
      | Some _ => UB
      | None => if allocator =? 0 then UB else let '(h, b) := alloc h allocator size in Ok (set_array h this (Some (mk_carray size b allocator)), 0)
      end
  | Get this index =>
      (* Array.h:53-62 *)
      match h_arrays h this with None => UB | Some a => do _ <- assert (index <? a_size a); do v <- read h (a_data a) index; Ok (h, v) end
  | Set_ this index value =>
      match h_arrays h this with None => UB | Some a => do _ <- assert (index <? a_size a); do h <- write h (a_data a) index value; Ok (h, 0) end
  | StableRemove this index =>
      (* Array.h:103-112 *)
      match h_arrays h this with
      | None => UB
      | Some a =>
          do _ <- assert (index <? a_size a);
          do h <- shift (Z.to_nat (u32 (a_size a - 1) - index)) h (a_data a) index;
          Ok (set_array h this (Some (mk_carray (a_size a - 1) (a_data a) (a_alloc a))), 0)
      end
  | UnstableRemove this index =>
      (* Array.h:92-100 *)
      match h_arrays h this with
      | None => UB
      | Some a =>
          do _ <- assert (index <? a_size a);
          do v <- read h (a_data a) (a_size a - 1);
          do h <- write h (a_data a) index v;
          Ok (set_array h this (Some (mk_carray (a_size a - 1) (a_data a) (a_alloc a))), 0)
      end
  | DeepCopy dest src allocator =>
      (* Array.h:115-126: the allocator of dest is left as it is *)
      match h_arrays h dest, h_arrays h src with
      | Some d, Some s =>
          do _ <- assert (negb (allocator =? 0));
          let '(h, b) := alloc h allocator (a_size s) in
          let h := set_array h dest (Some (mk_carray (a_size s) b (a_alloc d))) in
          do h <- copy (Z.to_nat (a_size s)) h b (match h_arrays h src with Some s => a_data s | None => 0 end) 0;
          Ok (h, 0)
      | _, _ => UB
      end
  | ShallowCopy dest src =>
      (* Array.h:83-89: what dest held is not freed *)
      match h_arrays h dest, h_arrays h src with
      | Some _, Some s => Ok (set_array h dest (Some (mk_carray (a_size s) (a_data s) (a_alloc s))), 0)
      | _, _ => UB
      end
  | Delete this =>
      (* Array.h:42-51 *)
      match h_arrays h this with
      | None => UB
      | Some a =>
          do h <- (if a_alloc a =? 0 then Ok h else free h (a_alloc a) (a_data a));
          Ok (set_array h this None, 0)
      end
  end.
Fixpoint arun (h : heap) (cs : list acall) : outcome (heap * list Z) :=
  match cs with
  | [] => Ok (h, [])
  | c :: r => do x <- astep h c; do y <- arun (fst x) r; Ok (fst y, snd x :: snd y)
  end.
