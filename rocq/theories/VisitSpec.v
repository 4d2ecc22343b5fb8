(* What visiting the fields of an object should do. Something that can be visited is described as in a call of Visit: an
   address, the field it is in, its type and qualifier. *)
From Coq Require Import Sorted.
From Verif Require Import Base DatabaseModel VisitModel.

Section Spec.
Variable E : list vtype.
Variable contents : nat -> Z -> nat * bool * list Z.
Variable stop_flags : Z.

(* the address of the elements of an array *)
Definition elements (address size : Z) (count : nat) : list Z := map (fun i => address + Z.of_nat i * size) (seq 0 count).
Definition plain (is_ptr : bool) : qual := mk_qual (if is_ptr then POINTER else VALUE) false.
Definition points (q : qual) : bool := match q_op q with POINTER => true | _ => false end.
Definition size_in_array (f : vfield) : Z := if points (vf_qual f) then 8 else match nth_error E (vf_type f) with Some t => vt_size t | None => 0 end.
(* what a field holds: itself, or its elements *)
Definition held_by (object : Z) (f : vfield) : list visit :=
  match vf_count f with
  | None => [mk_visit (object + vf_offset f) (Some f) (vf_type f) (vf_qual f)]
  | Some count => map (fun a => mk_visit a (Some f) (vf_type f) (plain (points (vf_qual f)))) (elements (object + vf_offset f) (size_in_array f) (Z.to_nat count))
  end.
Definition bases_of (object : Z) (t : vtype) : list visit := map (fun b => mk_visit object None b (mk_qual VALUE false)) (vt_bases t).
(* what something is made of: a class of its fields and its bases, a container of its values, which are in the container's
   field, another template type of its bases. Pointers are not followed, and what is in a stopped field is not looked at *)
Definition stopped (v : visit) : bool := match vi_field v with Some f => negb (Z.land (vf_flags f) stop_flags =? 0) | None => false end.
Definition parts (v : visit) : list visit :=
  if stopped v || points (vi_qual v) then []
  else match nth_error E (vi_type v) with
       | None => []
       | Some t =>
           match vt_kind t with
           | V_class fields => flat_map (held_by (vi_object v)) fields ++ bases_of (vi_object v) t
           | V_template None => bases_of (vi_object v) t
           | V_template (Some _) =>
               let '(ty, is_ptr, values) := contents (vi_type v) (vi_object v) in map (fun a => mk_visit a (vi_field v) ty (plain is_ptr)) values
           | _ => []
           end
       end.
(* what is found by going from part to part; the path says which part is taken each time *)
Inductive found (root : visit) : list nat -> visit -> Prop :=
| found_root : found root [] root
| found_part : forall path v i w, found root path v -> nth_error (parts v) i = Some w -> found root (path ++ [i]) w.
(* what is to be visited: pointers, and with VFT_All the values of basic types and enums *)
Definition to_visit (what : visit_type) (v : visit) : Prop :=
  stopped v = false /\
  (points (vi_qual v) = true \/
   what = VFT_All /\ points (vi_qual v) = false /\ exists t, nth_error E (vi_type v) = Some t /\ (vt_kind t = V_type \/ vt_kind t = V_enum)).

(* the order of paths: parts in turn *)
Inductive before : list nat -> list nat -> Prop :=
| before_here : forall i j p q, (i < j)%nat -> before (i :: p) (j :: q)
| before_later : forall i p q, before p q -> before (i :: p) (i :: q).

(* what is found can be visited: its type is known and of a kind that has values, the values of containers can be read,
   and arrays lie in memory *)
Definition visitable (v : visit) : Prop :=
  stopped v = false -> points (vi_qual v) = false ->
  exists t, nth_error E (vi_type v) = Some t /\
    match vt_kind t with
    | V_other | V_template (Some false) => False
    | V_class fields => forall f count, In f fields -> vf_count f = Some count ->
        0 <= count < 2 ^ 32 /\ 0 < size_in_array f /\ 0 < vi_object v + vf_offset f /\ vi_object v + vf_offset f + count * size_in_array f <= 2 ^ 64 /\
        (vf_type f < length E)%nat
    | _ => True
    end.
End Spec.
