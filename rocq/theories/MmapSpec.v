(* What exporting and loading a memory image must achieve. *)
From Verif Require Import Base MmapModel.

(* the places in the image that hold pointers, listed by a set of relocations *)
Definition object_slots (off : Z) (offs : list Z) : list Z := map (fun o => off + o) offs.
Definition reloc_slots (ss : list schema) (r : reloc) : list Z :=
  match znth ss (rl_handle r) with
  | None => []
  | Some s => flat_map (fun j => object_slots (rl_offset r + Z.of_nat j * sc_stride s) (sc_offsets s)) (seq 0 (Z.to_nat (rl_nb r)))
  end.
Definition slots (ss : list schema) (rs : list reloc) : list Z := flat_map (reloc_slots ss) rs.

(* the pointer stored at a place *)
Definition ptr_at (img : list Z) (p : Z) : Z := le_val (slice img p 8).

(* relocations that list separate pointers lying inside an image of the given size *)
Definition slots_ok (size : Z) (l : list Z) : Prop :=
  (forall p, In p l -> 0 <= p /\ p + 8 <= size) /\ ForallOrdPairs (fun p q => p + 8 <= q \/ q + 8 <= p) l.
Definition tables_ok (ss : list schema) (rs : list reloc) : Prop :=
  ss <> [] /\ rs <> [] /\ zlen ss < 2 ^ 31 /\ zlen rs < 2 ^ 31 /\ zlen (flat_map sc_offsets ss) < 2 ^ 31 /\
  Forall (fun s => is_u64 (sc_stride s) /\ sc_offsets s <> [] /\ Forall is_u64 (sc_offsets s)) ss /\
  Forall (fun r => 0 <= rl_handle r < zlen ss /\ is_u64 (rl_offset r) /\ is_s32 (rl_nb r) /\
                   length (rl_pad0 r) = 4%nat /\ length (rl_pad1 r) = 4%nat) rs.
(* every listed pointer is null or points into the image at start, past its first byte
   (one past the end is allowed) *)
Definition pointers_ok (start : Z) (img : list Z) (l : list Z) : Prop :=
  forall p, In p l -> ptr_at img p = 0 \/ start < ptr_at img p <= start + zlen img.

(* img' is img moved from address start to address base *)
Definition moved (start base : Z) (l : list Z) (img img' : list Z) : Prop :=
  zlen img' = zlen img /\
  (forall p, In p l -> ptr_at img' p = if ptr_at img p =? 0 then 0 else ptr_at img p - start + base) /\
  (forall i, (forall p, In p l -> ~ (p <= i < p + 8)) -> znth img' i = znth img i).

(* the first twelve bytes of a current database file: "clcppdb", a zero, version 2 in little-endian *)
Definition magic : list Z := [99; 108; 99; 112; 112; 100; 98; 0; 2; 0; 0; 0].

(* every block handed out so far has a smaller number than the next one *)
Definition env_ok (e : env) : Prop := Forall (fun b => b < e_next e) (e_live e).

(* the blocks a failed load of file f leaves allocated when the first block it gets is number b:
   nothing if the header is rejected; the image if reading it or the schemas fails; then also the
   schemas, then also the offsets *)
Definition leaked (b : Z) (f : list Z) : list Z :=
  if zlen f <? 32 then [] else
  if negb (if list_eq_dec Z.eq_dec (firstn 12 f) magic then true else false) then [] else
  let field off n := le_val (slice f off n) in
  let after_schemas := 32 + field 24 8 + 24 * field 12 4 in
  let after_offsets := after_schemas + 8 * field 16 4 in
  if zlen f <? after_schemas then [b] else
  if zlen f <? after_offsets then [b; b + 1] else [b; b + 1; b + 2].
(* the length the header asks for *)
Definition full_length (f : list Z) : Z :=
  let field off n := le_val (slice f off n) in
  32 + field 24 8 + 24 * field 12 4 + 8 * field 16 4 + 24 * field 20 4.
