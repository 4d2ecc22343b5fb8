(* Arrays as lists. The bool tells if the array was made with a size, and so frees its memory. *)
From Verif Require Import Base ArrayModel.

Definition lists := Z -> option (bool * list Z).
Definition in_list (i : Z) (l : list Z) : bool := (0 <=? i) && (i <? zlen l).
Definition replace (i v : Z) (l : list Z) : list Z := firstn (Z.to_nat i) l ++ v :: skipn (S (Z.to_nat i)) l.
(* None: not a call on lists (an index outside, something that is no array, a copy into an array made with a size or of an array onto itself, a shallow copy, which makes two arrays of the same elements) *)
Definition list_step (s : lists) (c : acall) : option (lists * Z) :=
  match c with
  | New this => match s this with None => Some (upd s this (Some (false, [])), 0) | Some _ => None end
  | NewSized this size allocator =>
      match s this with
      | None => if (0 <=? size) && (size <? 4294967296) && negb (allocator =? 0) then Some (upd s this (Some (true, repeat 0 (Z.to_nat size))), 0) else None
      | Some _ => None
      end
  | Get this i => match s this with Some (_, l) => if in_list i l then Some (s, nth (Z.to_nat i) l 0) else None | None => None end
  | Set_ this i v => match s this with Some (z, l) => if in_list i l then Some (upd s this (Some (z, replace i v l)), 0) else None | None => None end
  | StableRemove this i =>
      match s this with
      | Some (z, l) => if in_list i l then Some (upd s this (Some (z, firstn (Z.to_nat i) l ++ skipn (S (Z.to_nat i)) l)), 0) else None
      | None => None
      end
  | UnstableRemove this i =>
      match s this with
      | Some (z, l) => if in_list i l then Some (upd s this (Some (z, removelast (replace i (last l 0) l))), 0) else None
      | None => None
      end
  | DeepCopy dest src allocator =>
      match s dest, s src with
      | Some (false, _), Some (_, l) => if negb (dest =? src) && negb (allocator =? 0) then Some (upd s dest (Some (false, l)), 0) else None
      | _, _ => None
      end
  | ShallowCopy _ _ => None
  | Delete this => match s this with Some _ => Some (upd s this None, 0) | None => None end
  end.
Fixpoint list_run (s : lists) (cs : list acall) : option (lists * list Z) :=
  match cs with
  | [] => Some (s, [])
  | c :: r =>
      match list_step s c with
      | Some (s, v) => match list_run s r with Some (s, vs) => Some (s, v :: vs) | None => None end
      | None => None
      end
  end.
Definition no_lists : lists := fun _ => None.
Definition copies (c : acall) : bool := match c with DeepCopy _ _ _ | ShallowCopy _ _ => true | _ => false end.
