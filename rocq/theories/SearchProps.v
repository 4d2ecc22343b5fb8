(* Property theorems about run-time lookup: C03, C04. *)
From Verif Require Import Base HashModel HashSpec SearchModel SearchProofs.
From Coq Require Import Sorting.Sorted.

(* C03: on a sorted array the lookup terminates without trap, returns an entry with
   the requested hash when there is one and null otherwise. *)
Theorem C03_find_primitive : forall A (l : list (entry A)) h,
  StronglySorted (fun a b => fst a <= fst b) l -> zlen l <= 2 ^ 30 ->
  exists r, FindPrimitive l h = Ok r /\
    match r with
    | Some e => In e l /\ fst e = h
    | None => forall e, In e l -> fst e <> h
    end.
Proof. exact find_primitive_ok. Qed.
Print Assumptions C03_find_primitive.

(* C03: Database::GetName(text) finds the name with the hash of the text; the empty
   name is returned exactly when the hash is zero or absent. *)
Theorem C03_get_name : forall A (names : list (entry A)) text rest,
  StronglySorted (fun a b => fst a <= fst b) names -> zlen names <= 2 ^ 30 ->
  Forall is_byte text -> no_zero text ->
  exists r, GetNameText names (Some (text ++ 0 :: rest)) = Ok r /\
    match r with
    | Some e => In e names /\ fst e = hash32 text 0 /\ hash32 text 0 <> 0
    | None => hash32 text 0 = 0 \/ forall e, In e names -> fst e <> hash32 text 0
    end.
Proof. exact get_name_text_ok. Qed.
Print Assumptions C03_get_name.

(* C03, finding: above 2^30 entries the midpoint computation overflows int. *)
Theorem C03_huge_array_refuted : exists size get h,
  size = 2 ^ 30 + 2 /\ (forall i, 0 <= i < size -> get i = Ok 0) /\
  BinarySearch size get h = UB.
Proof.
  exists (2 ^ 30 + 2), (fun _ => Ok 0), 1. split; [reflexivity|]. split; [reflexivity|].
  vm_compute. reflexivity.
Qed.
Print Assumptions C03_huge_array_refuted.

(* C04: the returned half-open range holds all and only the matching indices. *)
Theorem C04_find_overloaded : forall A (l : list (entry A)) h,
  StronglySorted (fun a b => fst a <= fst b) l -> zlen l <= 2 ^ 30 ->
  exists first last, FindOverloadedPrimitive l h = Ok (first, last) /\
    0 <= first <= last /\ last <= zlen l /\
    (forall i e, znth l i = Some e -> (fst e = h <-> first <= i < last)) /\
    (first = last -> first = 0 /\ last = 0).
Proof. exact find_overloaded_ok. Qed.
Print Assumptions C04_find_overloaded.

(* C04, as lists: the entries of the range are exactly the matches in order. *)
Theorem C04_overload_set : forall A (l : list (entry A)) h,
  StronglySorted (fun a b => fst a <= fst b) l -> zlen l <= 2 ^ 30 ->
  exists first last, FindOverloadedPrimitive l h = Ok (first, last) /\
    slice l first (last - first) = filter (fun e => fst e =? h) l /\
    (filter (fun e => fst e =? h) l = [] -> first = 0 /\ last = 0).
Proof. exact find_overloaded_list. Qed.
Print Assumptions C04_overload_set.

(* a concrete array with duplicates meets the hypotheses *)
Definition sample : list (entry nat) := [(3,0%nat);(5,1%nat);(5,2%nat);(5,3%nat);(9,4%nat)].
Example C03_C04_witness :
  StronglySorted (fun a b => fst a <= fst b) sample /\ zlen sample <= 2 ^ 30 /\
  FindPrimitive sample 9 = Ok (Some (9,4%nat)) /\ FindPrimitive sample 4 = Ok None /\
  FindOverloadedPrimitive sample 5 = Ok (1, 4) /\ FindOverloadedPrimitive sample 4 = Ok (0, 0) /\
  FindPrimitive ([] : list (entry nat)) 4 = Ok None.
Proof.
  split; [unfold sample; repeat (constructor; [|repeat constructor; cbn; lia]); constructor|].
  split; [vm_compute; discriminate|]. vm_compute. auto.
Qed.
