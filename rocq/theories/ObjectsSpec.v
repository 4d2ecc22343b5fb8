(* What an object group is supposed to be: the list of objects it holds. *)
From Verif Require Import Base ObjectsModel.

Definition lookup (m : list object) (id : Z) : option object := find (fun o => o_id o =? id) m.
Definition s_step (m : list object) (op : gop) : list object :=
  match op with
  | GAdd o => o :: m
  | GRemove o => filter (fun o' => negb (o_id o' =? o_id o)) m
  end.
Definition s_run (l : list gop) : list object := fold_left s_step l [].

(* legal call: add an object with a fresh non-zero 32-bit id, remove one that is there;
   at most 2^29 objects at a time *)
Definition s_ok (m : list object) (op : gop) : Prop :=
  match op with
  | GAdd o => o_id o <> 0 /\ is_u32 (o_id o) /\ (forall o', In o' m -> o_id o' <> o_id o) /\ zlen m < 2 ^ 29
  | GRemove o => exists o', In o' m /\ o_id o' = o_id o
  end.
Fixpoint s_all_ok (m : list object) (l : list gop) : Prop :=
  match l with
  | [] => True
  | op :: r => s_ok m op /\ s_all_ok (s_step m op) r
  end.

(* groups produced by a legal history, with the objects they hold *)
Definition reachable (g : group) (m : list object) : Prop :=
  exists l, s_all_ok [] l /\ g_run group_new l = Ok g /\ m = s_run l.

(* ---- several groups ---- *)
(* group gi of the heap was produced by a legal history and holds m *)
Definition holds (hp : heap) (gi : Z) (m : list object) : Prop :=
  exists c, znth hp gi = Some c /\ reachable (c_group c) m.

(* all objects of a group and of the groups nested in it: `objects hp g l` *)
Inductive objects (hp : heap) : Z -> list object -> Prop :=
| objects_intro : forall g m l, holds hp g m -> nested hp m l -> objects hp g (m ++ l)
with nested (hp : heap) : list object -> list object -> Prop :=
| nested_nil : nested hp [] []
| nested_leaf : forall o os l, o_group o = None -> nested hp os l -> nested hp (o :: os) l
| nested_group : forall o os child l1 l2, o_group o = Some child ->
    objects hp child l1 -> nested hp os l2 -> nested hp (o :: os) (l1 ++ l2).

(* the chain of enclosing groups, innermost first, as what each holds *)
Inductive chain (hp : heap) : option Z -> list (list object) -> Prop :=
| chain_nil : chain hp None []
| chain_cons : forall gi c m ms, znth hp gi = Some c -> reachable (c_group c) m ->
    chain hp (c_parent c) ms -> chain hp (Some gi) (m :: ms).

(* first answer along a list of scopes *)
Fixpoint first_found (ms : list (list object)) (id : Z) : option object :=
  match ms with
  | [] => None
  | m :: r => match lookup m id with Some o => Some o | None => first_found r id end
  end.

(* the object named by a path of ids from a group *)
Inductive path (hp : heap) : Z -> list Z -> option object -> Prop :=
| path_last : forall g m id, holds hp g m -> path hp g [id] (lookup m id)
| path_missing : forall g m id id2 rest, holds hp g m -> lookup m id = None ->
    path hp g (id :: id2 :: rest) None
| path_not_group : forall g m id id2 rest o, holds hp g m -> lookup m id = Some o -> o_group o = None ->
    path hp g (id :: id2 :: rest) None
| path_step : forall g m id id2 rest o child r, holds hp g m -> lookup m id = Some o ->
    o_group o = Some child -> path hp child (id2 :: rest) r -> path hp g (id :: id2 :: rest) r.

(* types CreateObject can make: a class with both a constructor and a destructor, or ObjectGroup itself *)
Definition creatable (t : ctype) : Prop :=
  ct_is_class t = true /\ (ct_is_object_group t = true \/ (ct_has_ctor t = true /\ ct_has_dtor t = true)).
