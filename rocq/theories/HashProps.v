(* Property theorems about name hashing: C01, C02. *)
From Verif Require Import Base HashModel HashSpec HashProofs.

(* C01: hashing a zero-terminated name yields the published hash of the bytes
   before the terminator, whatever follows it. *)
Theorem C01_name_hash_is_murmur3 : forall name rest seed,
  Forall is_byte name -> no_zero name -> is_u32 seed ->
  HashNameString (name ++ 0 :: rest) seed = Ok (hash32 name seed).
Proof. exact hash_name_correct. Qed.
Print Assumptions C01_name_hash_is_murmur3.

(* C01: HashData hashes exactly the first len bytes. *)
Theorem C01_data_hash_is_murmur3 : forall key rest seed,
  Forall is_byte key -> is_u32 seed ->
  HashData (key ++ rest) (zlen key) seed = Ok (hash32 key seed).
Proof. exact murmur_correct. Qed.
Print Assumptions C01_data_hash_is_murmur3.

(* C01: the result is a 32-bit value. *)
Theorem C01_hash_range : forall name seed,
  is_u32 seed -> zlen name < 2 ^ 31 -> 0 <= hash32 name seed < 2 ^ 32.
Proof. exact hash32_range. Qed.
Print Assumptions C01_hash_range.

(* published test vectors of MurmurHash3_x86_32 *)
Example C01_vector_empty : HashNameString [0] 0 = Ok 0.
Proof. vm_compute. reflexivity. Qed.
Example C01_vector_seed1 : HashNameString [0] 1 = Ok 0x514E28B7.
Proof. vm_compute. reflexivity. Qed.
Example C01_vector_test : (* "test" *) HashNameString [116;101;115;116;0] 0 = Ok 0xba6bd213.
Proof. vm_compute. reflexivity. Qed.
Example C01_vector_hello : (* "Hello, world!" seed 0x9747b28c *)
  HashNameString [72;101;108;108;111;44;32;119;111;114;108;100;33;0;7;7] 0x9747b28c = Ok 0x24884CBA.
Proof. vm_compute. reflexivity. Qed.

(* C02: two names of equal length that differ only inside one aligned four-byte
   word, or only in the final (at most four) bytes, never collide. *)
Theorem C02_one_word_apart_never_collide : forall pre w1 w2 post rest1 rest2 seed,
  zlen pre mod 4 = 0 -> length w1 = length w2 ->
  (length w1 = 4%nat \/ ((length w1 <= 4)%nat /\ post = [])) ->
  Forall is_byte (pre ++ w1 ++ post) -> Forall is_byte (pre ++ w2 ++ post) ->
  no_zero (pre ++ w1 ++ post) -> no_zero (pre ++ w2 ++ post) ->
  is_u32 seed -> zlen (pre ++ w1 ++ post) < 2 ^ 31 ->
  HashNameString ((pre ++ w1 ++ post) ++ 0 :: rest1) seed =
  HashNameString ((pre ++ w2 ++ post) ++ 0 :: rest2) seed ->
  w1 = w2.
Proof. exact names_word_inj. Qed.
Print Assumptions C02_one_word_apart_never_collide.

(* C02: in particular two different names of the same length of at most four bytes. *)
Theorem C02_short_names_never_collide : forall a b rest1 rest2 seed,
  length a = length b -> (length a <= 4)%nat ->
  Forall is_byte a -> Forall is_byte b -> no_zero a -> no_zero b -> is_u32 seed ->
  HashNameString (a ++ 0 :: rest1) seed = HashNameString (b ++ 0 :: rest2) seed -> a = b.
Proof. exact short_names_inj. Qed.
Print Assumptions C02_short_names_never_collide.

Theorem C02_mixhashes_injective_in_value : forall a b b',
  is_u32 a -> is_u32 b -> is_u32 b' -> MixHashes a b = MixHashes a b' -> b = b'.
Proof. exact mixhashes_inj_b. Qed.
Print Assumptions C02_mixhashes_injective_in_value.

Theorem C02_mixhashes_injective_in_seed : forall a a' b,
  is_u32 a -> is_u32 a' -> is_u32 b -> MixHashes a b = MixHashes a' b -> a = a'.
Proof. exact mixhashes_inj_a. Qed.
Print Assumptions C02_mixhashes_injective_in_seed.

(* MixHashes always produces a value on 32-bit arguments (so the above are not
   about error outcomes). *)
Theorem C02_mixhashes_defined : forall a b, is_u32 a -> is_u32 b ->
  exists h, MixHashes a b = Ok h /\ is_u32 h.
Proof. exact mixhashes_defined. Qed.
Print Assumptions C02_mixhashes_defined.

Example C02_witness :
  (* "abcd" and "abce" meet the hypotheses and do hash differently *)
  HashNameString ([97;98;99;100] ++ [0]) 0 <> HashNameString ([97;98;99;101] ++ [0]) 0 /\
  Forall is_byte [97;98;99;100] /\ no_zero [97;98;99;100] /\ is_u32 0.
Proof.
  split; [vm_compute; discriminate|]. split; [repeat constructor; unfold is_byte; lia|].
  split; [unfold no_zero; cbn; lia|unfold is_u32; lia].
Qed.
