(* What should happen to the parameters of functions: where they are put, and the lives of their objects. *)
From Coq Require Import Permutation.
From Verif Require Import Base DatabaseModel JsonObjModel ParamModel.

Section Spec.
Variable E : list rtype.
(* the space a parameter takes: a pointer, or an object of its type (also for a reference) *)
Definition space (p : param) : Z :=
  match pr_op p with
  | POINTER => 8
  | _ => match nth_error E (pr_type p) with Some t => rt_size t | None => 0 end
  end.
Definition space_of (ps : list param) : Z := fold_right (fun p n => space p + n) 0 ps.
(* they are put one after the other *)
Fixpoint placed (address : Z) (ps : list param) : list (param * Z) :=
  match ps with [] => [] | p :: r => (p, address) :: placed (address + space p) r end.
Definition known_type (p : param) : Prop := exists t, nth_error E (pr_type p) = Some t /\ 0 <= rt_size t < 2 ^ 32.

(* the objects that are not pointers and whose type has the function *)
Definition objects (has : nat -> option (Z -> list Z -> list Z)) (l : list (param * Z)) : list (nat * Z) :=
  flat_map (fun x => match pr_op (fst x), has (pr_type (fst x)) with
                     | POINTER, _ | _, None => []
                     | _, Some _ => [(pr_type (fst x), snd x)]
                     end) l.
Definition constructions (l : list (nat * Z)) : list event := map (fun x => Constructed (fst x) (snd x)) l.
Definition destructions (l : list (nat * Z)) : list event := map (fun x => Destroyed (fst x) (snd x)) l.

Variable ctor dtor : nat -> option (Z -> list Z -> list Z).
Variable at_ : nat -> Z.
(* The events of a use of a cache that holds a block (its number and size) or none. In each round either the block is
   big enough for all the parameters of the function, or it is replaced by one that is; then the objects are
   constructed, each at its place in the block, then they are destroyed in the same order. In the end the block is freed. *)
Definition address_of (held : option (nat * Z)) : Z := match held with None => 0 | Some (k, _) => at_ k end.
Definition room_in (held : option (nat * Z)) : Z := match held with None => 0 | Some (_, size) => size end.
Inductive history : option (nat * Z) -> list round -> list event -> Prop :=
| hist_none : history None [] []
| hist_end : forall k size, history (Some (k, size)) [] [Freed k]
| hist_keep : forall held r rest events,
    space_of (rd_function r) <= room_in held ->
    let objs := placed (address_of held) (map fst (rd_allocated r)) in
    history held rest events ->
    history held (r :: rest) (constructions (objects ctor objs) ++ destructions (objects dtor objs) ++ events)
| hist_grow : forall held k size r rest events,
    space_of (rd_function r) <= size -> match held with None => True | Some (j, _) => (j < k)%nat end ->
    let objs := placed (at_ k) (map fst (rd_allocated r)) in
    history (Some (k, size)) rest events ->
    history held (r :: rest)
      (Allocated k size :: match held with None => [] | Some (j, _) => [Freed j] end ++
       constructions (objects ctor objs) ++ destructions (objects dtor objs) ++ events).
End Spec.

(* Well-behaved events: what is constructed does not exist yet, what is destroyed exists, blocks come and go only when no
   object exists, and in the end none does *)
Inductive lifetimes : list (nat * Z) -> list event -> Prop :=
| life_end : lifetimes [] []
| life_construct : forall live ty a r, ~ In (ty, a) live -> lifetimes ((ty, a) :: live) r -> lifetimes live (Constructed ty a :: r)
| life_destroy : forall l1 l2 ty a r, ~ In (ty, a) (l1 ++ l2) -> lifetimes (l1 ++ l2) r -> lifetimes (l1 ++ (ty, a) :: l2) (Destroyed ty a :: r)
| life_allocate : forall k n r, lifetimes [] r -> lifetimes [] (Allocated k n :: r)
| life_free : forall k r, lifetimes [] r -> lifetimes [] (Freed k :: r).

(* a round the cache supports: what is allocated is among the function's parameters, at most fifteen *)
Definition round_ok (E : list rtype) (r : round) : Prop :=
  Forall (known_type E) (rd_function r) /\ space_of E (rd_function r) <= 2 ^ 31 /\
  (exists others, Permutation (map fst (rd_allocated r) ++ others) (rd_function r)) /\ (length (rd_allocated r) <= 15)%nat.

(* ---- arguments in JSON ---- *)
From Verif Require Import JsonNumModel JsonObjSpec.
(* the parameters in the order of the call *)
Definition call_order (f call : list param) : Prop :=
  Permutation call f /\ forall i p, nth_error call i = Some p -> pr_offset p = Z.of_nat i.
(* each argument is constructed at its address, then stored there as a JSON value is stored in a field *)
Fixpoint store_arguments (E : list rtype) (F : floats) (lut : list (option basic)) (tf : Z) (ctor : nat -> option (Z -> list Z -> list Z)) (l : list ((param * Z) * json)) (mem : list Z) : outcome (list Z) :=
  match l with
  | [] => Ok mem
  | ((p, a), j) :: r =>
      let mem := match pr_op p, ctor (pr_type p) with POINTER, _ | _, None => mem | _, Some run => run a mem end in
      do mem <- store E F lut tf j mem a (Some (pr_type p)) (is_pointer (pr_op p)) (Some (as_field p));
      store_arguments E F lut tf ctor r mem
  end.
