(* What a program may expect of Module objects over their life. *)
From Verif Require Import Base Maps ModuleModel.

(* how many modules hold a library *)
Definition holders (h : Z) (ms : list (Z * module)) : nat := length (filter (fun x => m_handle (snd x) =? h) ms).
(* which library an object has after a call, if it had those of held before *)
Definition held_after (held : Z -> Z) (c : mcall) : Z -> Z :=
  match c with
  | NewModule this | DeleteModule this => fun x => if x =? this then 0 else held x
  | LoadModule this _ handle => fun x => if x =? this then handle else held x
  | _ => held
  end.
(* references to a library that are lost, because the object that holds it is loaded again *)
Fixpoint lost (h : Z) (held : Z -> Z) (cs : list mcall) : nat :=
  match cs with
  | [] => 0
  | c :: r => (match c with LoadModule this _ _ => if (held this =? h)%Z then 1 else 0 | _ => 0 end + lost h (held_after held c) r)%nat
  end.
(* programs that construct where there is no object, and call and destroy only objects there are *)
Fixpoint orderly (alive : Z -> bool) (cs : list mcall) : Prop :=
  match cs with
  | [] => True
  | NewModule this :: r => alive this = false /\ orderly (fun x => if x =? this then true else alive x) r
  | DeleteModule this :: r => alive this = true /\ orderly (fun x => if x =? this then false else alive x) r
  | LoadModule this _ _ :: r | GetFunction this _ :: r | GetReflectionDB this :: r => alive this = true /\ orderly alive r
  end.
(* calls that leave an object as it is *)
Definition leaves (this : Z) (c : mcall) : Prop := match c with LoadModule t _ _ | DeleteModule t => t <> this | _ => True end.
