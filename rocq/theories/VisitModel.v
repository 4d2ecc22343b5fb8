(* Visiting fields: src/clReflectUtil/FieldVisitor.cpp. Addresses are integers; those the C-array iterator computes wrap at
   2^64. The visitor is the list of its Visit calls; it is taken not to change containers while they are visited. *)
From Verif Require Import Base DatabaseModel RuntimeModel.

(* Qualifier (clcpp.h) *)
Record qual := mk_qual { q_op : qop; q_const : bool }.
(* clcpp.h Qualifier::Qualifier() *)
Definition default_qual : qual := mk_qual VALUE false.
(* Field: its name's hash, offset, flag_attributes, type, qualifier, and the count of its container info if it has one *)
Record vfield := mk_vfield { vf_name : Z; vf_offset : Z; vf_flags : Z; vf_type : nat; vf_qual : qual; vf_count : option Z }.
(* kinds of type; a template type's container info says whether its read iterator class has a constructor and a destructor *)
Inductive vkind := V_type | V_enum | V_class (fields : list vfield) | V_template (ci : option bool) | V_other.
Record vtype := mk_vtype { vt_size : Z; vt_kind : vkind; vt_bases : list nat }.
(* FieldVisitor.h:28-31 a call of Visit *)
Record visit := mk_visit { vi_object : Z; vi_field : option vfield; vi_type : nat; vi_qual : qual }.
(* 14-18 *)
Inductive visit_type := VFT_All | VFT_Pointers.

Section Visit.
Variable E : list vtype.
(* what the read iterator of a template type finds at an address: type of the values, whether they are pointers, and the
   address of each, in order *)
Variable contents : nat -> Z -> nat * bool * list Z.
Variable visit_what : visit_type.
Variable stop_flags : Z.

Definition get_vtype (ty : nat) : outcome vtype := match nth_error E ty with Some t => Ok t | None => UB end.
Definition is_pointer_op (q : qual) : bool := match q_op q with POINTER => true | _ => false end.
(* the loops: one call after the other *)
Fixpoint visit_all {A} (f : A -> outcome (list visit)) (l : list A) : outcome (list visit) :=
  match l with
  | [] => Ok []
  | a :: r => do x <- f a; do y <- visit_all f r; Ok (x ++ y)
  end.
(* 58-68 VisitContainerFields over a C array: f is the call of VisitField *)
Fixpoint visit_array (f : Z -> outcome (list visit)) (k : nat) (it : array_iter) : outcome (list visit) :=
  match k with
  | O => Ok []
  | S k => do p <- array_get it; do x <- f p; do y <- visit_array f k (array_next it); Ok (x ++ y)
  end.
Definition element_qual (is_ptr : bool) : qual := mk_qual (if is_ptr then POINTER else VALUE) false.

(* 21-55 VisitField; 71-85 VisitTemplateTypeFields; 88-111 VisitClassFields. n bounds the depth of the recursion *)
Fixpoint VisitField (n : nat) (object : Z) (field : option vfield) (ty : nat) (q : qual) : outcome (list visit) :=
  match n with
  | O => Fuel
  | S n =>
      if match field with Some f => negb (Z.land (vf_flags f) stop_flags =? 0) | None => false end then Ok []
      else if is_pointer_op q then Ok [mk_visit object field ty q]
      else
        do t <- get_vtype ty;
        match vt_kind t with
        | V_type | V_enum => match visit_what with VFT_All => Ok [mk_visit object field ty q] | VFT_Pointers => Ok [] end
        | V_class fields =>
            do a <- visit_all (fun f =>
                match vf_count f with
                | Some count =>
                    do et <- get_vtype (vf_type f);
                    do it <- array_init (mk_array_field (vt_size et) (is_pointer_op (vf_qual f)) count) (object + vf_offset f);
                    visit_array (fun p => VisitField n p (Some f) (vf_type f) (element_qual (is_pointer_op (vf_qual f)))) (Z.to_nat (u32 count)) it
                | None => VisitField n (object + vf_offset f) (Some f) (vf_type f) (vf_qual f)
                end) fields;
            do b <- visit_all (fun base => VisitField n object None base default_qual) (vt_bases t);
            Ok (a ++ b)
        | V_template (Some usable) =>
            if usable then
              let '(value_type, is_ptr, values) := contents ty object in
              visit_all (fun p => VisitField n p field value_type (element_qual is_ptr)) values
            else UB   (* Containers.cpp:141-160: nothing is constructed, yet the read iterator's destructor runs *)
        | V_template None => visit_all (fun base => VisitField n object None base default_qual) (vt_bases t)
        | V_other => Trap
        end
  end.
(* 115-118 *)
Definition VisitFields (n : nat) (object : Z) (ty : nat) : outcome (list visit) := VisitField n object None ty default_qual.
End Visit.
