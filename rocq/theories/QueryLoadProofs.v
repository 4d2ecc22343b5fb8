(* The end of Database::Load on the memory of an exported database. *)
From Coq Require Import String Permutation Sorted.
From Verif Require Import Base BaseProofs Text Maps RuntimeModel DatabaseModel ExportModel ExportSpec ExportProofs ExportTablesProofs.
From Verif Require Import ImageLayout ImageModel ImageSpec LaidModel LaidSpec LaidProofs LaidImageProofs LaidLinkProofs LaidReadProofs QueryModel QueryViewProofs.
#[local] Open Scope string_scope.
#[local] Open Scope Z_scope.
#[local] Open Scope list_scope.

Definition db_array_check : bool :=
  forallb (fun x => match fst x with
                    | [m] => pair_eqb (leaf_at (Struct DatabaseMem) [m; "size"]) (OffsetOf DatabaseMem m + array_size_ofs) 4 &&
                             pair_eqb (leaf_at (Struct DatabaseMem) [m; "data"]) (OffsetOf DatabaseMem m + array_ofs) 8
                    | _ => true
                    end) db_arrays.
Lemma db_array_ofs : forall m t, In ([m], t) db_arrays -> In ([m; "size"], OffsetOf DatabaseMem m + array_size_ofs, 4) (leaves (Struct DatabaseMem)) /\ In ([m; "data"], OffsetOf DatabaseMem m + array_ofs, 8) (leaves (Struct DatabaseMem)).
Proof.
  intros m t I. assert (C : db_array_check = true) by (vm_compute; reflexivity). unfold db_array_check in C. rewrite forallb_forall in C. specialize (C _ I). cbn [fst] in C. apply andb_prop in C. destruct C as [C1 C2]. split; apply leaf_at_in; assumption.
Qed.
Lemma database_leaf : forall k, In (["database"], OffsetOf Primitive "database", 8) (leaves (Struct (struct_of k))).
Proof. intros k. apply leaf_at_in. destruct k; vm_compute; reflexivity. Qed.
Lemma hash_leaf : forall k, In (["name"; "hash"], OffsetOf Primitive "name" + OffsetOf Name "hash", 4) (leaves (Struct (struct_of k))).
Proof. intros k. apply leaf_at_in. destruct k; vm_compute; reflexivity. Qed.
Lemma address_leaf : In (["address"], OffsetOf Function_ "address", 8) (leaves (Struct (struct_of KFunction))).
Proof. apply leaf_at_in. vm_compute. reflexivity. Qed.
Lemma fb_leaf : In (["function_base_address"], OffsetOf DatabaseMem "function_base_address", 8) (leaves (Struct DatabaseMem)).
Proof. apply leaf_at_in. vm_compute. reflexivity. Qed.

Section Finish.
Variables (e : export) (heap : list (tag * list Z)) (pad fb base : Z).
Hypothesis LK : linked e.
Hypothesis HO : heap_ok e heap.
Hypothesis S0 : 0 < base.
Hypothesis S1 : base + image_size e heap < 2 ^ 64.
Notation img := (image e heap pad fb base).
Notation vw := (view e heap pad fb base).
Notation plc := (LaidModel.place e heap base).
Notation cel := (at_cell e heap fb base).
Notation rows k := (length (x_rows e k)).

Lemma db_cell : forall p lo w, In (p, lo, w) (leaves (Struct DatabaseMem)) -> cel SDb 0 p lo w (lookup (db_values e heap fb base) p).
Proof. intros p lo w I. exists 0, lo, (lookup (db_values e heap fb base)). split; [reflexivity|]. split; [reflexivity|]. split; [exact I|]. split; [cbn [type_of]; lia|reflexivity]. Qed.
Lemma row_cell : forall k j r p lo w, nth_error (x_rows e k) j = Some r -> In (p, lo, w) (leaves (Struct (struct_of k))) ->
  exists pos, cel (STable k) j p pos w (lookup (prim_values e heap base k (j, r)) p) /\ base + pos = plc (k, j) + lo.
Proof.
  intros k j r p lo w E I. destruct (fixed_has e heap fb LK HO _ (table_fixed k)) as [o O]. exists (o + Z.of_nat j * size_of (Struct (struct_of k)) + lo). split.
  - exists o, lo, (lookup (prim_values e heap base k (j, r))). split; [exact O|]. split; [apply row_elem; exact E|]. split; [exact I|]. split; reflexivity.
  - unfold LaidModel.place. cbn [fst snd]. rewrite (adr_has e heap base _ _ O). lia.
Qed.
Definition db_kept (f : tag -> nat -> list string -> option Z) : Prop := forall p, f SDb 0%nat p = None.
Lemma array_view : forall f mem m t, vw f mem -> db_kept f -> In ([m], t) db_arrays ->
  array_size base mem (array_at base m) = Ok (live e t) /\ array_data base mem (array_at base m) = Ok (address e heap base t).
Proof.
  intros f mem m t V K I. destruct (db_array_ofs m t I) as [L1 L2]. destruct (db_lookup e heap fb base [m] t I) as [Q1 Q2]. unfold array_size, array_data, array_at. split.
  - replace (base + OffsetOf DatabaseMem m + array_size_ofs) with (base + (OffsetOf DatabaseMem m + array_size_ofs)) by lia. rewrite (view_load e heap pad fb base LK HO f mem _ _ _ _ _ _ V (db_cell _ _ _ L1)).
    unfold now. rewrite K. change [m; "size"] with ([m] ++ ["size"]). rewrite Q1. f_equal. apply (small_mod e heap pad fb LK HO). right. left. apply in_map_iff. exists ([m], t). auto.
  - replace (base + OffsetOf DatabaseMem m + array_ofs) with (base + (OffsetOf DatabaseMem m + array_ofs)) by lia. rewrite (view_load e heap pad fb base LK HO f mem _ _ _ _ _ _ V (db_cell _ _ _ L2)).
    unfold now. rewrite K. change [m; "data"] with ([m] ++ ["data"]). rewrite Q2. f_equal. apply (adr_mod e heap pad fb base LK HO S0 S1).
Qed.
Lemma table_view : forall f mem k i, vw f mem -> db_kept f -> (i < rows k)%nat ->
  element base mem (array_at base (table_of k)) (size_of (Struct (struct_of k))) (Z.of_nat i) = Ok (plc (k, i)).
Proof.
  intros f mem k i V K I. destruct (array_view f mem _ _ V K (table_member k)) as [Q1 Q2]. unfold element. rewrite Q1. cbn [obind live]. unfold zlen. replace (Z.of_nat i <? Z.of_nat (rows k)) with true by lia. rewrite Q2. reflexivity.
Qed.
Lemma rows_small : forall k, Z.of_nat (rows k) <= CAPACITY.
Proof.
  intros k. assert (R : reach e (STable k)) by (right; left; apply in_map_iff; exists ([table_of k], STable k); split; [reflexivity|apply table_member]).
  pose proof (live_small e heap pad fb LK HO _ R) as Q. cbn [live] in Q. unfold zlen in Q. lia.
Qed.
Lemma for_each_view : forall k (F : nat -> tag -> nat -> list string -> option Z) body, (forall i, db_kept (F i)) ->
  (forall i mem, (i < rows k)%nat -> vw (F i) mem -> exists mem', body mem (plc (k, i)) = Ok mem' /\ vw (F (S i)) mem') ->
  forall n i mem, (i + n = rows k)%nat -> vw (F i) mem ->
  exists mem', for_each (S n) body base (array_at base (table_of k)) (size_of (Struct (struct_of k))) (Z.of_nat i) mem = Ok mem' /\ vw (F (rows k)) mem'.
Proof.
  intros k F body K B. pose proof (rows_small k) as RS. unfold CAPACITY in RS. induction n as [|n IH]; intros i mem N V; cbn [for_each]; destruct (array_view _ mem _ _ V (K i) (table_member k)) as [Q1 _]; rewrite Q1; cbn [obind live]; unfold zlen.
  - replace (Z.of_nat i <? Z.of_nat (rows k)) with false by lia. exists mem. split; [reflexivity|]. replace (rows k) with i by lia. exact V.
  - replace (Z.of_nat i <? Z.of_nat (rows k)) with true by lia. rewrite (table_view _ mem k i V (K i)) by lia. cbn [obind]. destruct (B i mem ltac:(lia) V) as (mem' & E & V'). rewrite E. cbn [obind].
    replace (u32 (Z.of_nat i + 1)) with (Z.of_nat (S i)) by (unfold u32; rewrite Z.mod_small by lia; lia). apply IH; [lia|exact V'].
Qed.
Lemma run_table : forall k (F : nat -> tag -> nat -> list string -> option Z) body mem, (forall i, db_kept (F i)) ->
  (forall i mem, (i < rows k)%nat -> vw (F i) mem -> exists mem', body mem (plc (k, i)) = Ok mem' /\ vw (F (S i)) mem') -> vw (F 0%nat) mem ->
  exists mem', (do n <- rounds base mem (array_at base (table_of k)); for_each n body base (array_at base (table_of k)) (size_of (Struct (struct_of k))) 0 mem) = Ok mem' /\ vw (F (rows k)) mem'.
Proof.
  intros k F body mem K B V. destruct (array_view _ mem _ _ V (K 0%nat) (table_member k)) as [Q1 _]. unfold rounds. rewrite Q1. cbn [obind live]. unfold zlen. rewrite Nat2Z.id. exact (for_each_view k F body K B (rows k) 0 mem eq_refl V).
Qed.

(* the first n k primitives of each kind have an owner and the first m functions have moved *)
Definition done (n : kind -> nat) (m : nat) (this : Z) (new : nat -> Z) (t : tag) (j : nat) (p : list string) : option Z :=
  match t with
  | STable k => if list_eq_dec string_dec p ["database"] then if (j <? n k)%nat then Some this else None
                else if (if list_eq_dec string_dec p ["address"] then kind_eqb k KFunction && (j <? m)%nat else false) then Some (new j) else None
  | _ => None
  end.
Definition old_address (j : nat) : Z := match nth_error (x_rows e KFunction) j with Some r => lookup (prim_values e heap base KFunction (j, r)) ["address"] mod 2 ^ 64 | None => 0 end.
Definition new_address (to : Z) (j : nat) : Z := rebase_address (fb mod 2 ^ 64) to (old_address j).
Lemma rebase_view : forall mem to this n, vw (done n 0 this (new_address to)) mem ->
  exists mem', RebaseFunctionsAt base mem to = Ok mem' /\ vw (done n (rows KFunction) this (new_address to)) mem'.
Proof.
  intros mem to this n V. unfold RebaseFunctionsAt. cbv zeta. apply (run_table KFunction (fun i => done n i this (new_address to)) _ mem); [intros i p; reflexivity| |exact V].
  clear mem V. intros i mem I V. cbv beta. destruct (nth_error (x_rows e KFunction) i) as [r|] eqn:E; [|apply nth_error_None in E; lia]. destruct (row_cell KFunction i r _ _ _ E address_leaf) as (pos & C & P).
  rewrite <- P. assert (NW : now (done n i this (new_address to)) (STable KFunction) i ["address"] (lookup (prim_values e heap base KFunction (i, r)) ["address"]) = lookup (prim_values e heap base KFunction (i, r)) ["address"]).
  { unfold now, done. rewrite Nat.ltb_irrefl. reflexivity. }
  rewrite (view_load e heap pad fb base LK HO _ mem _ _ _ _ _ _ V C), NW. cbn [obind]. change (256 ^ 8) with (2 ^ 64).
  assert (OA : old_address i = lookup (prim_values e heap base KFunction (i, r)) ["address"] mod 2 ^ 64) by (unfold old_address; rewrite E; reflexivity). rewrite <- OA.
  assert (EX : forall t j p, upd (done n i this (new_address to)) (STable KFunction) i ["address"] (new_address to i) t j p = done n (S i) this (new_address to) t j p).
  { intros t j p. unfold upd, done. destruct (tag_dec (STable KFunction) t) as [<-|NT].
    - destruct (Nat.eq_dec i j) as [<-|NJ].
      + destruct (list_eq_dec string_dec ["address"] p) as [<-|NP].
        * cbn [kind_eqb andb]. replace (i <? S i)%nat with true by (symmetry; apply Nat.ltb_lt; lia). reflexivity.
        * destruct (list_eq_dec string_dec p ["address"]); [congruence|reflexivity].
      + destruct (list_eq_dec string_dec p ["database"]); [reflexivity|]. destruct (list_eq_dec string_dec p ["address"]); [|reflexivity]. cbn [kind_eqb andb].
        replace (j <? S i)%nat with (j <? i)%nat; [reflexivity|]. destruct (Nat.ltb_spec j i), (Nat.ltb_spec j (S i)); try reflexivity; lia.
    - destruct t as [| | |k| | | |h|]; try reflexivity. destruct (list_eq_dec string_dec p ["database"]); [reflexivity|]. destruct (list_eq_dec string_dec p ["address"]); [|reflexivity].
      destruct (kind_eqb_spec k KFunction) as [->|NK]; [congruence|]. reflexivity. }
  destruct (Z.eqb_spec (old_address i) 0) as [Z|NZ].
  - exists mem. split; [reflexivity|]. apply (view_ext e heap pad fb base _ _ mem EX). apply (view_skip e heap pad fb base LK HO _ mem _ _ _ _ _ _ _ V C). rewrite NW. change (256 ^ 8) with (2 ^ 64). rewrite <- OA. unfold new_address, rebase_address. rewrite Z. reflexivity.
  - assert (L : load base mem (base + OffsetOf DatabaseMem "function_base_address") 8 = Ok (fb mod 2 ^ 64)).
    { rewrite (view_load e heap pad fb base LK HO _ mem _ _ _ _ _ _ V (db_cell _ _ _ fb_leaf)). unfold now. cbn [done]. rewrite (lookup_nodup _ _ fb (db_keys e heap fb base)); [reflexivity|left; reflexivity]. }
    rewrite L. cbn [obind].
    destruct (view_store e heap pad fb base LK HO _ mem _ _ _ _ _ _ (new_address to i) V C) as (mem' & ST & V'). exists mem'. split; [|exact (view_ext e heap pad fb base _ _ mem' EX V')].
    rewrite <- ST. unfold new_address, rebase_address. replace (old_address i =? 0) with false by lia. reflexivity.
Qed.
Lemma owner_view : forall k mem n m this new, vw (done n m this new) mem -> n k = 0%nat ->
  exists mem', ParentPrimitivesToDatabase base mem (table_of k) (struct_of k) this = Ok mem' /\ vw (done (fun k' => if kind_eqb k k' then rows k else n k') m this new) mem'.
Proof.
  intros k mem n m this new V N. unfold ParentPrimitivesToDatabase. apply (run_table k (fun i => done (fun k' => if kind_eqb k k' then i else n k') m this new)); [intros i p; reflexivity| |].
  - clear mem V. intros i mem I V. destruct (nth_error (x_rows e k) i) as [r|] eqn:E; [|apply nth_error_None in E; lia]. destruct (row_cell k i r _ _ _ E (database_leaf k)) as (pos & C & P). rewrite <- P.
    destruct (view_store e heap pad fb base LK HO _ mem _ _ _ _ _ _ this V C) as (mem' & ST & V'). exists mem'. split; [exact ST|]. refine (view_ext e heap pad fb base _ _ mem' _ V').
    intros t j p. unfold upd, done. destruct (tag_dec (STable k) t) as [<-|NT].
    + destruct (kind_eqb_spec k k) as [_|]; [|congruence]. destruct (Nat.eq_dec i j) as [<-|NJ].
      * destruct (list_eq_dec string_dec ["database"] p) as [<-|NP].
        { replace (i <? S i)%nat with true by (symmetry; apply Nat.ltb_lt; lia). reflexivity. }
        { destruct (list_eq_dec string_dec p ["database"]); [congruence|reflexivity]. }
      * destruct (list_eq_dec string_dec p ["database"]); [|reflexivity]. replace (j <? S i)%nat with (j <? i)%nat; [reflexivity|]. destruct (Nat.ltb_spec j i), (Nat.ltb_spec j (S i)); try reflexivity; lia.
    + destruct t as [| | |k'| | | |h|]; try reflexivity. destruct (kind_eqb_spec k k') as [->|NK]; [congruence|]. reflexivity.
  - refine (view_ext e heap pad fb base _ _ mem _ V). intros t j p. unfold done. destruct t as [| | |k'| | | |h|]; try reflexivity. destruct (kind_eqb_spec k k') as [<-|NK]; [rewrite N; reflexivity|reflexivity].
Qed.
Lemma parents_view : forall ks mem n m this new, NoDup ks -> (forall k, In k ks -> n k = 0%nat) -> vw (done n m this new) mem ->
  exists mem', parent_all base this (map (fun k => (table_of k, struct_of k)) ks) mem = Ok mem' /\ vw (done (fun k => if existsb (kind_eqb k) ks then rows k else n k) m this new) mem'.
Proof.
  induction ks as [|k ks IH]; intros mem n m this new ND N V; cbn [map parent_all].
  - exists mem. split; [reflexivity|exact V].
  - inversion ND as [|x y ND1 ND2]; subst x y. destruct (owner_view k mem n m this new V (N k (or_introl eq_refl))) as (mem1 & E1 & V1). rewrite E1. cbn [obind].
    destruct (IH mem1 (fun k' => if kind_eqb k k' then rows k else n k') m this new ND2) as (mem2 & E2 & V2); [|exact V1|].
    + intros k' I. destruct (kind_eqb_spec k k') as [<-|]; [contradiction|]. apply N. right. exact I.
    + exists mem2. split; [exact E2|]. refine (view_ext e heap pad fb base _ _ mem2 _ V2). intros t j p. unfold done. destruct t as [| | |k'| | | |h|]; try reflexivity. cbn [existsb].
      destruct (kind_eqb_spec k k') as [<-|NK]; [|destruct (kind_eqb_spec k' k) as [->|_]; [congruence|reflexivity]]. destruct (kind_eqb_spec k k) as [_|]; [|congruence]. cbn [orb]. destruct (existsb (kind_eqb k) ks); reflexivity.
Qed.
Definition finished (this to options : Z) : tag -> nat -> list string -> option Z := done (fun k => rows k) (if Z.land options 1 =? 0 then rows KFunction else 0%nat) this (new_address to).
Lemma finish_view : forall this to options, exists mem', FinishLoad base img this to options = Ok mem' /\ vw (finished this to options) mem'.
Proof.
  intros this to options. assert (V0 : vw (done (fun _ => 0%nat) 0 this (new_address to)) img).
  { refine (view_ext e heap pad fb base _ _ _ _ (view_start e heap pad fb base LK HO)). intros t j p. unfold done. destruct t as [| | |k| | | |h|]; try reflexivity. destruct (list_eq_dec string_dec p ["database"]); [reflexivity|].
    destruct (list_eq_dec string_dec p ["address"]); [|reflexivity]. replace (j <? 0)%nat with false by (symmetry; apply Nat.ltb_ge; lia). rewrite andb_false_r. reflexivity. }
  assert (G : forall m mem, vw (done (fun _ => 0%nat) m this (new_address to)) mem -> exists mem', parent_all base this parented mem = Ok mem' /\ vw (done (fun k => rows k) m this (new_address to)) mem').
  { intros m mem V. change parented with (map (fun k => (table_of k, struct_of k)) built). assert (ND : NoDup built) by (repeat (constructor; [cbn; intuition discriminate|]); constructor).
    destruct (parents_view built mem _ m this (new_address to) ND (fun _ _ => eq_refl) V) as (mem' & E & V'). exists mem'. split; [exact E|]. refine (view_ext e heap pad fb base _ _ mem' _ V'). intros t j p. unfold done. destruct t as [| | |k| | | |h|]; try reflexivity. destruct k; reflexivity. }
  unfold FinishLoad, finished. destruct (Z.land options 1 =? 0).
  - destruct (rebase_view img to this _ V0) as (mem1 & E1 & V1). rewrite E1. cbn [obind]. exact (G _ _ V1).
  - cbn [obind]. exact (G _ _ V0).
Qed.
End Finish.
