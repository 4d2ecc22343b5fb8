(* Memory-mapped databases: written by the exporter (src/clReflectExport/PtrRelocator.cpp,
   CppExport.cpp SaveCppExport), read by the run-time (src/clReflectCpp/clcpp.cpp).
   64-bit build: size_t, size_type and pointers are 8 bytes. Alignment of accesses is not modelled. *)
From Verif Require Import Base.

(* ---- exporter ---- *)
(* PtrRelocator.h:23-58 PtrSchema: stride and pointer offsets. The handle is the index in the schema list. *)
Record schema := mk_schema { sc_stride : Z; sc_offsets : list Z }.
(* PtrRelocator.h:63-73 PtrRelocation; the two 4-byte holes the compiler leaves are carried as rl_pad0/1,
   their content is arbitrary *)
Record reloc := mk_reloc { rl_handle : Z; rl_pad0 : list Z; rl_offset : Z; rl_nb : Z; rl_pad1 : list Z }.

(* PtrRelocator.cpp:28-46 AddSchema followed by the operator() calls that push offs.
   base is the handle of the base schema, if any *)
Definition AddSchema (ss : list schema) (stride : Z) (base : option Z) (offs : list Z) : outcome (list schema) :=
  do inherited <- match base with None => Ok [] | Some h => do b <- rd ss h; Ok (sc_offsets b) end;
  Ok (ss ++ [mk_schema stride (inherited ++ offs)]).
(* PtrRelocator.cpp:48-59 AddPointers; start is m_Start *)
Definition AddPointers (start : Z) (rs : list reloc) (handle data nb : Z) (pad0 pad1 : list Z) : list reloc :=
  if data =? 0 then rs else rs ++ [mk_reloc handle pad0 (u64 (data - start)) nb pad1].

(* PtrRelocator.cpp:79-86: one pointer of the image img whose first byte is at address start *)
Definition rel_ptr (start size : Z) (img : list Z) (ptr_offset : Z) : outcome (list Z) :=
  do bs <- rd_bytes img ptr_offset 8;
  let ptr := le_val bs in
  if ptr =? 0 then Ok img
  else let d := u64 (ptr - start) in
       do _ <- assert (d <=? size);
       wr_bytes img ptr_offset (le_bytes 8 d).
(* PtrRelocator.cpp:75-77: the offsets of one object; ptr_offset is an unsigned int *)
Fixpoint rel_object (start size object_offset : Z) (offs : list Z) (img : list Z) : outcome (list Z) :=
  match offs with
  | [] => Ok img
  | o :: r => do img' <- rel_ptr start size img (u32 (u64 (object_offset + o))); rel_object start size object_offset r img'
  end.
(* PtrRelocator.cpp:70-74: objects j, j+1, ... (n of them) *)
Fixpoint rel_objects (start size : Z) (r : reloc) (s : schema) (j : Z) (n : nat) (img : list Z) : outcome (list Z) :=
  match n with
  | O => Ok img
  | S n' => do img' <- rel_object start size (u64 (rl_offset r + u64 (j * sc_stride s))) (sc_offsets s) img;
            rel_objects start size r s (j + 1) n' img'
  end.
(* PtrRelocator.cpp:61-90 MakeRelative; a non-positive nb_objects does nothing *)
Fixpoint MakeRelative (start size : Z) (ss : list schema) (rs : list reloc) (img : list Z) : outcome (list Z) :=
  match rs with
  | [] => Ok img
  | r :: rest => do s <- rd ss (rl_handle r);
                 do img' <- rel_objects start size r s 0 (Z.to_nat (rl_nb r)) img;
                 MakeRelative start size ss rest img'
  end.

(* clcpp_internal.h:61-80 and clcpp.cpp:702-711: the header. 'pclc' and '\0bdp' are multi-character
   constants, first character in the most significant byte *)
Definition SIG0 : Z := 1885564003.
Definition SIG1 : Z := 6448240.
Definition VERSION : Z := 2.
Record header := mk_header { h_sig0 : Z; h_sig1 : Z; h_version : Z; h_schemas : Z; h_offsets : Z; h_relocs : Z; h_size : Z }.
Definition header_bytes (h : header) : list Z :=
  le_bytes 4 (h_sig0 h) ++ le_bytes 4 (h_sig1 h) ++ le_bytes 4 (h_version h) ++ le_bytes 4 (h_schemas h) ++
  le_bytes 4 (h_offsets h) ++ le_bytes 4 (h_relocs h) ++ le_bytes 8 (h_size h).

(* CppExport.cpp:1450-1460: stride, first offset, count of each schema *)
Fixpoint schema_table (ptrs_offset : Z) (ss : list schema) : list Z :=
  match ss with
  | [] => []
  | s :: r => le_bytes 8 (sc_stride s) ++ le_bytes 8 ptrs_offset ++ le_bytes 8 (zlen (sc_offsets s)) ++
              schema_table (ptrs_offset + zlen (sc_offsets s)) r
  end.
Definition reloc_bytes (r : reloc) : list Z :=
  le_bytes 4 (rl_handle r) ++ rl_pad0 r ++ le_bytes 8 (rl_offset r) ++ le_bytes 4 (rl_nb r) ++ rl_pad1 r.
(* front() of an empty vector is undefined behaviour (CppExport.cpp:1466, 1470) *)
Definition front_ok {A} (l : list A) : outcome unit := match l with [] => UB | _ => Ok tt end.
Fixpoint offset_table (ss : list schema) : outcome (list Z) :=
  match ss with
  | [] => Ok []
  | s :: r => do _ <- front_ok (sc_offsets s); do t <- offset_table r; Ok (flat_map (le_bytes 8) (sc_offsets s) ++ t)
  end.
(* CppExport.cpp:1420-1472: the end of SaveCppExport, from MakeRelative on; the file content *)
Definition SaveFile (start : Z) (ss : list schema) (rs : list reloc) (img : list Z) : outcome (list Z) :=
  do img' <- MakeRelative start (zlen img) ss rs img;
  let nb_ptr_offsets := zlen (flat_map sc_offsets ss) in
  let h := mk_header SIG0 SIG1 VERSION (zlen ss) nb_ptr_offsets (zlen rs) (zlen img) in
  do offs <- offset_table ss;
  do _ <- front_ok rs;
  Ok (header_bytes h ++ img' ++ schema_table 0 ss ++ offs ++ flat_map reloc_bytes rs).

(* ---- loader ---- *)
(* the caller's file and allocator. IFile::Read(dest, n) takes the next n bytes, failing when fewer
   remain (clcpp.h:457-462, the contract). The allocator never fails; blocks are numbered.
   Free of a block that is not live is undefined behaviour. *)
Record env := mk_env { e_file : list Z; e_next : Z; e_live : list Z }.
Definition file_read (e : env) (n : Z) : option (list Z) * env :=
  if n <=? zlen (e_file e)
  then (Some (firstn (Z.to_nat n) (e_file e)), mk_env (skipn (Z.to_nat n) (e_file e)) (e_next e) (e_live e))
  else (None, e).
Definition alloc (e : env) : Z * env := (e_next e, mk_env (e_file e) (e_next e + 1) (e_live e ++ [e_next e])).
Definition free (e : env) (b : Z) : outcome env :=
  if existsb (Z.eqb b) (e_live e)
  then Ok (mk_env (e_file e) (e_next e) (filter (fun x => negb (x =? b)) (e_live e))) else UB.

Definition parse_header (bs : list Z) : header :=
  mk_header (le_val (slice bs 0 4)) (le_val (slice bs 4 4)) (le_val (slice bs 8 4))
    (s32 (le_val (slice bs 12 4))) (s32 (le_val (slice bs 16 4))) (s32 (le_val (slice bs 20 4))) (le_val (slice bs 24 8)).

(* clcpp.cpp:29-41 PtrSchema and PtrRelocation as the run-time declares them *)
Record rt_schema := mk_rts { rs_stride : Z; rs_first : Z; rs_count : Z }.
Record rt_reloc := mk_rtr { rr_handle : Z; rr_offset : Z; rr_nb : Z }.
Definition parse_schema (bs : list Z) : rt_schema := mk_rts (le_val (slice bs 0 8)) (le_val (slice bs 8 8)) (le_val (slice bs 16 8)).
Definition parse_reloc (bs : list Z) : rt_reloc :=
  mk_rtr (s32 (le_val (slice bs 0 4))) (le_val (slice bs 8 8)) (s32 (le_val (slice bs 16 4))).
Fixpoint chunks (n sz : nat) (bs : list Z) : list (list Z) :=
  match n with O => [] | S n' => firstn sz bs :: chunks n' sz (skipn sz bs) end.

(* clcpp.cpp:180-195 ReadArray; nb is an int converted to unsigned int. On failure the new block is freed *)
Definition ReadArray {T} (sz : nat) (parse : list Z -> T) (nb : Z) (e : env) : outcome (option (Z * list T) * env) :=
  let n := u32 nb in
  let '(b, e1) := alloc e in
  match file_read e1 (u64 (n * Z.of_nat sz)) with
  | (Some bs, e2) => Ok (Some (b, map parse (chunks (Z.to_nat n) sz bs)), e2)
  | (None, e2) => do e3 <- free e2 b; Ok (None, e3)
  end.

(* clcpp.cpp:246-255: one pointer *)
Definition patch_ptr (base size : Z) (img : list Z) (ptr_offset : Z) : outcome (list Z) :=
  do bs <- rd_bytes img ptr_offset 8;
  let ptr := le_val bs in
  do _ <- assert (ptr <=? size);
  if ptr =? 0 then Ok img else wr_bytes img ptr_offset (le_bytes 8 (u64 (ptr + base))).
(* clcpp.cpp:243-256: n pointers from the k-th on. The CArray made at 233-236 has u32 count entries
   and starts at entry first of the offsets array; operator[] checks only the count *)
Fixpoint patch_object (base size object_offset : Z) (offs : list Z) (first count k : Z) (n : nat) (img : list Z) : outcome (list Z) :=
  match n with
  | O => Ok img
  | S n' => do _ <- assert (u32 k <? u32 count);
            do o <- rd offs (first + u32 k);
            do img' <- patch_ptr base size img (u64 (object_offset + o));
            patch_object base size object_offset offs first count (k + 1) n' img'
  end.
(* clcpp.cpp:239-241 *)
Fixpoint patch_objects (base size : Z) (r : rt_reloc) (s : rt_schema) (offs : list Z) (j : Z) (n : nat) (img : list Z) : outcome (list Z) :=
  match n with
  | O => Ok img
  | S n' => do img' <- patch_object base size (u64 (rr_offset r + u64 (j * rs_stride s))) offs (u32 (rs_first s)) (rs_count s) 0 (Z.to_nat (rs_count s)) img;
            patch_objects base size r s offs (j + 1) n' img'
  end.
(* clcpp.cpp:226-258 *)
Fixpoint patch_all (base size : Z) (ss : list rt_schema) (offs : list Z) (rs : list rt_reloc) (i : Z) (n : nat) (img : list Z) : outcome (list Z) :=
  match n with
  | O => Ok img
  | S n' => do r <- rdA rs (u32 i);
            do s <- rdA ss (u32 (rr_handle r));
            do _ <- rdA offs (u32 (rs_first s));
            do img' <- patch_objects base size r s offs 0 (Z.to_nat (rr_nb r)) img;
            patch_all base size ss offs rs (i + 1) n' img'
  end.

(* clcpp.cpp:197-267 LoadMemoryMappedDatabase. addr gives the address of a block. The result is the
   block that holds the database and its content *)
Definition LoadMemoryMappedDatabase (addr : Z -> Z) (e : env) : outcome (option (Z * list Z) * env) :=
  match file_read e 32 with
  | (None, e0) => Ok (None, e0)
  | (Some hb, e0) =>
      let h := parse_header hb in
      if negb (h_version h =? VERSION) then Ok (None, e0)
      else if negb (h_sig0 h =? SIG0) || negb (h_sig1 h =? SIG1) then Ok (None, e0)
      else
        let '(base, e1) := alloc e0 in
        match file_read e1 (h_size h) with
        | (None, e2) => Ok (None, e2)
        | (Some img, e2) =>
            do x <- ReadArray 24 parse_schema (h_schemas h) e2;
            match x with
            | (None, e3) => Ok (None, e3)
            | (Some (bs, ss), e3) =>
                do y <- ReadArray 8 le_val (h_offsets h) e3;
                match y with
                | (None, e4) => Ok (None, e4)
                | (Some (bo, offs), e4) =>
                    do z <- ReadArray 24 parse_reloc (h_relocs h) e4;
                    match z with
                    | (None, e5) => Ok (None, e5)
                    | (Some (br, rs), e5) =>
                        do img' <- patch_all (addr base) (h_size h) ss offs rs 0 (Z.to_nat (h_relocs h)) img;
                        do e6 <- free e5 br;
                        do e7 <- free e6 bo;
                        do e8 <- free e7 bs;
                        Ok (Some (base, img'), e8)
                    end
                end
            end
        end
  end.
(* clcpp.cpp:564-568 ~Database *)
Definition destroy (db : option (Z * list Z)) (e : env) : outcome env :=
  match db with None => Ok e | Some (b, _) => free e b end.
