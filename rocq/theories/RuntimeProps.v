(* Property theorems: C09 rebasing, C10 inheritance, C11 enum names, C12 array
   iterators, C53 iterator life cycle. *)
From Verif Require Import Base RuntimeModel RuntimeProofs.
From Coq Require Import Relations.

(* C09: after Load, address i is old - recorded base + actual base modulo 2^64, null
   stays null; with the option bit set nothing moves; owners are set in all tables. *)
Theorem C09_rebased : forall m db base options i owner a,
  Z.land options 1 = 0 -> znth (mem_functions m) i = Some (owner, a) ->
  znth (mem_functions (finish_load m db base options)) i =
    Some (db, if a =? 0 then 0 else (a - mem_function_base m + base) mod 2 ^ 64).
Proof.
  intros m db base options i owner a Ho H. unfold finish_load. cbn [mem_functions].
  rewrite Ho. cbn [Z.eqb]. rewrite BaseProofs.znth_map.
  rewrite (rebase_ok _ _ _ i a) by (rewrite BaseProofs.znth_map, H; reflexivity). reflexivity.
Qed.
Print Assumptions C09_rebased.
Theorem C09_not_rebased : forall m db base options,
  Z.land options 1 <> 0 ->
  map snd (mem_functions (finish_load m db base options)) = map snd (mem_functions m).
Proof.
  intros m db base options Ho. unfold finish_load. cbn [mem_functions].
  destruct (Z.eqb_spec (Z.land options 1) 0); [contradiction|]. rewrite map_map. cbn. apply map_id.
Qed.
Print Assumptions C09_not_rebased.
Theorem C09_owner : forall m db base options,
  let m' := finish_load m db base options in
  Forall (fun l => Forall (fun o => o = db) l)
    [mem_types m'; mem_enum_constants m'; mem_enums m'; mem_fields m'; map fst (mem_functions m');
     mem_classes m'; mem_templates m'; mem_template_types m'; mem_namespaces m';
     mem_flag_attributes m'; mem_int_attributes m'; mem_float_attributes m';
     mem_primitive_attributes m'; mem_text_attributes m'] /\
  length (mem_functions m') = length (mem_functions m) /\
  length (mem_types m') = length (mem_types m).
Proof.
  intros m db base options m'. subst m'. split.
  - repeat (constructor; [try apply map_const_Forall|]); [|constructor].
    cbn [mem_functions finish_load]. rewrite map_map. apply Forall_forall. intros x Hx.
    apply in_map_iff in Hx. destruct Hx as [y [<- _]]. reflexivity.
  - unfold finish_load, set_owner, RebaseFunctions. cbn [mem_functions mem_types].
    rewrite !map_length. split; [|reflexivity].
    destruct (Z.land options 1 =? 0); rewrite ?map_length; reflexivity.
Qed.
Print Assumptions C09_owner.
(* finding: the global namespace keeps the owner found in the file *)
Theorem C09_global_namespace_refuted : exists m db,
  mem_global_namespace (finish_load m db 0 0) <> db.
Proof. exists (mk_dbmem 0 [] [] [] [] [] [] [] [] [] [] [] [] [] [] 0), 1. discriminate. Qed.
Print Assumptions C09_global_namespace_refuted.
Example C09_witness :
  let m := mk_dbmem 4096 [0] [] [] [] [(0, 5000); (0, 0); (0, 100)] [] [] [] [] [] [] [] [] [] 0 in
  mem_functions (finish_load m 7 8192 0) = [(7, 9096); (7, 0); (7, 4196)] /\
  mem_functions (finish_load m 7 8192 1) = [(7, 5000); (7, 0); (7, 100)].
Proof. vm_compute. auto. Qed.

(* C10: on a finite acyclic hierarchy DerivesFrom terminates, with recursion depth at
   most the number of types, and answers "some proper ancestor has this hash". *)
Theorem C10_derives_from : forall g h fuel t,
  (forall t b, base_of g t b -> 0 <= b < zlen g) ->
  (forall t, ~ clos_trans_1n Z (base_of g) t t) ->
  0 <= t < zlen g -> (length g < fuel)%nat ->
  exists r, DerivesFrom fuel g t h = Ok r /\
    (r = true <-> exists a at', clos_trans_1n Z (base_of g) t a /\ znth g a = Some at' /\ ty_hash at' = h).
Proof. exact derives_ok. Qed.
Print Assumptions C10_derives_from.
(* with a cycle the search for an absent hash never returns *)
Theorem C10_cyclic_never_returns : exists g t h, forall fuel, DerivesFrom fuel g t h = Fuel.
Proof. exists [mk_type 5 [0]], 0, 6. intros fuel. apply cyclic_never_returns. discriminate. Qed.
Print Assumptions C10_cyclic_never_returns.
(* diamond: 3 -> 1,2 -> 0 *)
Definition diamond := [mk_type 10 []; mk_type 11 [0]; mk_type 12 [0]; mk_type 13 [1; 2]].
Example C10_witness :
  (forall t b, base_of diamond t b -> 0 <= b < zlen diamond) /\
  (forall t, ~ clos_trans_1n Z (base_of diamond) t t) /\
  DerivesFrom 5 diamond 3 10 = Ok true /\ DerivesFrom 5 diamond 3 13 = Ok false /\
  DerivesFrom 5 diamond 1 12 = Ok false.
Proof.
  assert (H : forall t b, base_of diamond t b -> 0 <= b < t /\ t < 4).
  { intros t b [ty [Hty Hin]]. pose proof (BaseProofs.znth_range _ _ _ _ Hty) as Hr. change (zlen diamond) with 4 in Hr.
    assert (t = 0 \/ t = 1 \/ t = 2 \/ t = 3) as Ht by lia. destruct Ht as [-> | [-> | [-> | -> ]]]; vm_compute in Hty; inversion Hty; subst ty; cbn in Hin;
    repeat (destruct Hin as [<-|Hin]; [lia|]); contradiction. }
  split; [intros t b Hb; specialize (H t b Hb); change (zlen diamond) with 4; lia|].
  split; [apply (rank_acyclic diamond (fun t => t)); intros t b Hb; specialize (H t b Hb); lia|].
  vm_compute. auto.
Qed.

(* C11 *)
Theorem C11_value_name_found : forall N (cs : list (N * Z)) v n,
  GetValueName cs v = Some n <->
  exists pre post, cs = pre ++ (n, v) :: post /\ forall c, In c pre -> snd c <> v.
Proof. exact value_name_some. Qed.
Print Assumptions C11_value_name_found.
Theorem C11_value_name_absent : forall N (cs : list (N * Z)) v,
  GetValueName cs v = None <-> forall c, In c cs -> snd c <> v.
Proof. exact value_name_none. Qed.
Print Assumptions C11_value_name_absent.
Example C11_witness :
  GetValueName [(1%nat, 0); (2%nat, -1); (3%nat, -1)] (-1) = Some 2%nat /\
  GetValueName [(1%nat, 0); (2%nat, -1)] 7 = None.
Proof. auto. Qed.

(* C12: reading count elements yields base + i * element size for i = 0 .. count-1,
   and the next access traps. *)
Theorem C12_read_iterator : forall f container,
  let es := if af_is_ptr f then 8 else af_size f in
  0 < container -> 0 < es -> 0 <= af_count f < 2 ^ 32 -> af_count f * es < 2 ^ 64 ->
  exists it it', array_init f container = Ok it /\
    read_n (Z.to_nat (af_count f)) it =
      Ok (map (fun i => (container + Z.of_nat i * es) mod 2 ^ 64) (seq 0 (Z.to_nat (af_count f))), it') /\
    array_get it' = Trap.
Proof. exact array_read_ok. Qed.
Print Assumptions C12_read_iterator.
Theorem C12_write_iterator : forall f container,
  let es := if af_is_ptr f then 8 else af_size f in
  0 < container -> 0 < es -> 0 <= af_count f < 2 ^ 32 -> af_count f * es < 2 ^ 64 ->
  exists it it', array_init f container = Ok it /\
    write_n (Z.to_nat (af_count f)) it =
      Ok (map (fun i => (container + Z.of_nat i * es) mod 2 ^ 64) (seq 0 (Z.to_nat (af_count f))), it') /\
    array_add_empty it' = Trap.
Proof.
  intros f container es H1 H2 H3 H4. destruct (array_read_ok f container H1 H2 H3 H4) as [it [it' [A [B C]]]].
  exists it, it'. split; [exact A|]. split; [rewrite write_n_read_n; exact B|]. unfold array_add_empty. rewrite C. reflexivity.
Qed.
Print Assumptions C12_write_iterator.
(* finding: an array of a type of size 0 (not reflected) traps on its first element *)
Theorem C12_zero_size_refuted : exists f container it,
  0 < container /\ af_count f = 3 /\ array_init f container = Ok it /\ array_get it = Trap.
Proof. exists (mk_array_field 0 false 3), 4096, (mk_iter 4096 0 0 0). vm_compute. auto. Qed.
Print Assumptions C12_zero_size_refuted.
Example C12_witness :
  let f := mk_array_field 12 false 3 in
  (do it <- array_init f 4096; do r <- read_n 3 it; Ok (fst r)) = Ok [4096; 4108; 4120] /\
  (do it <- array_init (mk_array_field 12 true 2) 4096; do r <- write_n 2 it; Ok (fst r)) = Ok [4096; 4104].
Proof. vm_compute. auto. Qed.

(* C53: a WriteIterator can always be destroyed, whatever Initialise calls were made *)
Theorem C53_write_iterator_destroy : forall l w,
  fold_left (fun ow a => do w <- ow; w_init w a) l (Ok w_new) = Ok w -> w_destroy w = Ok tt.
Proof. exact write_iterator_destroy_ok. Qed.
Print Assumptions C53_write_iterator_destroy.
(* a ReadIterator can be destroyed exactly when some Initialise succeeded *)
Theorem C53_read_iterator_destroy_iff : forall l w,
  fold_left (fun ow a => do w <- ow; r_init w a) l (Ok w_new) = Ok w ->
  (r_destroy w = Ok tt <->
   exists a, In a l /\ match a with InitType ci cd _ => ci && cd | InitField ci => ci end = true).
Proof. exact read_iterator_destroy_iff. Qed.
Print Assumptions C53_read_iterator_destroy_iff.
Theorem C53_read_iterator_unused_refuted : r_destroy w_new = UB.
Proof. reflexivity. Qed.
Print Assumptions C53_read_iterator_unused_refuted.
Example C53_witness :
  fold_left (fun ow a => do w <- ow; w_init w a) [InitField false; InitType true true 64] (Ok w_new) = Ok (mk_wrapper true true) /\
  fold_left (fun ow a => do w <- ow; r_init w a) [InitField false; InitType true true 64] (Ok w_new) = Ok (mk_wrapper true false).
Proof. auto. Qed.
