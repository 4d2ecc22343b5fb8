(* clobj::ObjectGroup, ObjectIterator, CreateObject/DestroyObject:
   src/clReflectUtil/Objects.cpp, inc/clutl/Objects.h. *)
From Verif Require Import Base.

(* An Object: its unique id (Objects.h:77, not changed while in a group), its address
   and, when its type is a class with FLAG_ATTR_IS_OBJECT_GROUP, which group it is. *)
Record object := mk_object { o_id : Z; o_ptr : Z; o_group : option Z }.

(* Objects.cpp:20-26 HashEntry: hash, and the object pointer (None is null) *)
Notation entry := (prod Z (option object)).
Definition empty_entry : entry := (0, None).

(* Objects.h:139-142 *)
Record group := mk_group { g_max : Z; g_nb : Z; g_occ : Z; g_table : list entry }.

(* Objects.cpp:101-109, 266: new HashEntry[n] *)
Definition new_table (n : Z) : list entry := repeat empty_entry (Z.to_nat n).
Definition group_new : group := mk_group 8 0 0 (new_table 8).

(* Objects.cpp:143-151, the loop of FindObject *)
Fixpoint find_loop (fuel : nat) (t : list entry) (mask id index : Z) : outcome Z :=
  match fuel with
  | O => Fuel
  | S n =>
      do e <- rd t index;
      if fst e =? 0 then Ok index
      else if (fst e =? id) && (match snd e with Some _ => true | None => false end) then Ok index
      else find_loop n t mask id (Z.land (u32 (index + 1)) mask)
  end.
(* Objects.cpp:138-156 *)
Definition FindObject (g : group) (id : Z) : outcome (option object) :=
  let mask := u32 (g_max g - 1) in
  do i <- find_loop (S (Z.to_nat (g_max g))) (g_table g) mask id (Z.land id mask);
  do e <- rd (g_table g) i;
  Ok (snd e).

(* Objects.cpp:208-209 *)
Fixpoint free_loop (fuel : nat) (t : list entry) (mask index : Z) : outcome Z :=
  match fuel with
  | O => Fuel
  | S n =>
      do e <- rd t index;
      if fst e =? 0 then Ok index
      else match snd e with
           | None => Ok index
           | Some _ => free_loop n t mask (Z.land (u32 (index + 1)) mask)
           end
  end.

(* Objects.cpp:202-226 AddHashEntry and 244-271 Resize. Fuel bounds the nesting
   Add -> Resize -> Add. *)
Fixpoint AddHashEntry (fuel : nat) (g : group) (o : object) : outcome group :=
  match fuel with
  | O => Fuel
  | S n =>
      let mask := u32 (g_max g - 1) in
      do i <- free_loop (S (Z.to_nat (g_max g))) (g_table g) mask (Z.land (o_id o) mask);
      do t <- wr (g_table g) i (o_id o, Some o);
      let g1 := mk_group (g_max g) (u32 (g_nb g + 1)) (u32 (g_occ g + 1)) t in
      let resize (new_max : Z) :=
        fold_left (fun og (e : entry) =>
                     do g' <- og;
                     match snd e with
                     | Some o' => AddHashEntry n g' o'
                     | None => Ok g'
                     end)
                  (g_table g1) (Ok (mk_group new_max 0 0 (new_table new_max))) in
      if g_nb g1 >? u32 (g_max g1 * 2) / 3 then
        resize (if g_max g1 <? 8192 * 4 then u32 (g_max g1 * 4) else u32 (g_max g1 * 2))
      else if g_occ g1 =? g_max g1 then resize (g_max g1)
      else Ok g1
  end.

(* Objects.cpp:119-124 AddObject *)
Definition AddObject (g : group) (o : object) : outcome group :=
  do _ <- assert (negb (o_id o =? 0));
  AddHashEntry 2 g o.

(* Objects.cpp:231-235 *)
Fixpoint remove_loop (fuel : nat) (t : list entry) (mask hash index : Z) : outcome Z :=
  match fuel with
  | O => Fuel
  | S n =>
      do e <- rd t index;
      if (fst e =? 0) || (fst e =? hash) then Ok index
      else remove_loop n t mask hash (Z.land (u32 (index + 1)) mask)
  end.
(* Objects.cpp:229-241 *)
Definition RemoveHashEntry (g : group) (hash : Z) : outcome group :=
  let mask := u32 (g_max g - 1) in
  do i <- remove_loop (S (Z.to_nat (g_max g))) (g_table g) mask hash (Z.land hash mask);
  do e <- rd (g_table g) i;
  do t <- wr (g_table g) i (fst e, None);
  Ok (mk_group (g_max g) (u32 (g_nb g - 1)) (g_occ g) t).
(* Objects.cpp:127-135 RemoveObject; also what ~Object runs (92-96) *)
Definition RemoveObject (g : group) (o : object) : outcome group :=
  if o_id o =? 0 then Ok g else RemoveHashEntry g (o_id o).

(* a history of calls on one group *)
Inductive gop := GAdd (o : object) | GRemove (o : object).
Definition g_step (g : group) (op : gop) : outcome group :=
  match op with GAdd o => AddObject g o | GRemove o => RemoveObject g o end.
Fixpoint g_run (g : group) (l : list gop) : outcome group :=
  match l with
  | [] => Ok g
  | op :: r => do g' <- g_step g op; g_run g' r
  end.

(* ---- several groups: a group pointer is an index; None is null ---- *)
Record cell := mk_cell { c_group : group; c_parent : option Z (* Object::object_group *) }.
Definition heap := list cell.

(* Objects.cpp:159-174 *)
Fixpoint FindObjectSearchParents (fuel : nat) (hp : heap) (g : option Z) (id : Z) : outcome (option object) :=
  match g with
  | None => Ok None
  | Some gi =>
      match fuel with
      | O => Fuel
      | S n =>
          do c <- rd hp gi;
          do r <- FindObject (c_group c) id;
          match r with
          | Some o => Ok (Some o)
          | None => FindObjectSearchParents n hp (c_parent c) id
          end
      end
  end.

(* Objects.cpp:177-199; ids is the memory at unique_ids, nb the unsigned count.
   `this` is fixed: the lookup in the loop is this->FindObject. *)
Fixpoint relative_loop (fuel : nat) (hp : heap) (this cur : Z) (ids : list Z) (nb : Z)
  : outcome (option (Z * list Z)) :=
  match fuel with
  | O => Fuel
  | S n =>
      if u32 (nb - 1) >? 0 then
        do id <- rd ids 0;
        do c <- rd hp this;
        do r <- FindObject (c_group c) id;
        match r with
        | None => Ok None
        | Some o =>
            match o_group o with
            | None => Ok None
            | Some child => relative_loop n hp this child (tl ids) (u32 (nb - 1))
            end
        end
      else Ok (Some (cur, ids))
  end.
Definition FindObjectRelative (hp : heap) (this : Z) (ids : list Z) (nb : Z) : outcome (option object) :=
  do r <- relative_loop (S (length ids)) hp this this ids nb;
  match r with
  | None => Ok None
  | Some (cur, rest) =>
      do id <- rd rest 0;
      do c <- rd hp cur;
      FindObject (c_group c) id
  end.

(* ---- ObjectIterator, Objects.cpp:274-393 ---- *)
Record iterator := mk_iterator {
  i_recursive : bool;
  i_groups : option (list Z);    (* m_GroupsToScan, None is null; its length is m_GroupsCapacity *)
  i_nb : Z;                      (* m_NbGroupsToScan *)
  i_group : option Z;            (* m_ObjectGroup *)
  i_pos : Z }.

(* Objects.cpp:359-385 PushGroup; new arrays are zero filled here (C++: indeterminate) *)
Definition PushGroup (it : iterator) (g : Z) : outcome iterator :=
  do gs <- match i_groups it with
           | None => Ok (repeat 0 4, 0)
           | Some arr =>
               if i_nb it =? zlen arr
               then Ok (arr ++ repeat 0 (length arr), i_nb it)
               else Ok (arr, i_nb it)
           end;
  do arr' <- wr (fst gs) (snd gs) g;
  Ok (mk_iterator (i_recursive it) (Some arr') (snd gs + 1) (i_group it) (i_pos it)).

(* Objects.cpp:388-392 *)
Definition PopGroup (it : iterator) : outcome (Z * iterator) :=
  do _ <- assert (i_nb it >? 0);
  match i_groups it with
  | None => UB
  | Some arr =>
      do g <- rd arr (i_nb it - 1);
      Ok (g, mk_iterator (i_recursive it) (Some arr) (i_nb it - 1) (i_group it) (i_pos it))
  end.

(* Objects.cpp:320-341: the for loop over slots from i_pos; the list is the rest of the
   table. The flag says whether an object was found. *)
Fixpoint scan_slots (hp : heap) (it : iterator) (rest : list entry) : outcome (bool * iterator) :=
  match rest with
  | [] => Ok (false, it)
  | e :: r =>
      match snd e with
      | None => scan_slots hp (mk_iterator (i_recursive it) (i_groups it) (i_nb it) (i_group it) (i_pos it + 1)) r
      | Some o =>
          match i_recursive it, o_group o with
          | true, Some child =>
              do c <- rd hp child;
              if g_nb (c_group c) >? 0
              then do it' <- PushGroup it child; Ok (true, it')
              else Ok (true, it)
          | _, _ => Ok (true, it)
          end
      end
  end.

(* Objects.cpp:313-356 *)
Fixpoint ScanForEntry (fuel : nat) (hp : heap) (it : iterator) : outcome iterator :=
  match i_group it with
  | None => Ok it
  | Some gi =>
      match fuel with
      | O => Fuel
      | S n =>
          do c <- rd hp gi;
          do s <- scan_slots hp it (skipn (Z.to_nat (i_pos it)) (g_table (c_group c)));
          if fst s then Ok (snd s)
          else if i_nb (snd s) >? 0 then
            do p <- PopGroup (snd s);
            ScanForEntry n hp (mk_iterator (i_recursive (snd p)) (i_groups (snd p)) (i_nb (snd p)) (Some (fst p)) 0)
          else Ok (mk_iterator (i_recursive (snd s)) (i_groups (snd s)) (i_nb (snd s)) None (i_pos (snd s)))
      end
  end.
Definition scan (hp : heap) (it : iterator) : outcome iterator :=
  ScanForEntry (S (S (Z.to_nat (i_nb it)))) hp it.

(* Objects.cpp:274-284 *)
Definition iter_new (hp : heap) (g : Z) (recursive : bool) : outcome iterator :=
  scan hp (mk_iterator recursive None 0 (Some g) 0).
(* Objects.cpp:293-297 *)
Definition iter_get (hp : heap) (it : iterator) : outcome (option object) :=
  match i_group it with
  | None => Trap
  | Some gi => do c <- rd hp gi; do e <- rd (g_table (c_group c)) (i_pos it); Ok (snd e)
  end.
(* Objects.cpp:300-304 *)
Definition iter_next (hp : heap) (it : iterator) : outcome iterator :=
  scan hp (mk_iterator (i_recursive it) (i_groups it) (i_nb it) (i_group it) (i_pos it + 1)).
(* Objects.cpp:307-310 *)
Definition iter_valid (it : iterator) : bool := match i_group it with Some _ => true | None => false end.

(* the client's loop: while (it.IsValid()) { it.GetObject(); it.MoveNext(); } *)
Fixpoint drain (fuel : nat) (hp : heap) (it : iterator) : outcome (list object) :=
  match fuel with
  | O => Fuel
  | S n =>
      if iter_valid it then
        do o <- iter_get hp it;
        match o with
        | None => UB
        | Some ob => do it' <- iter_next hp it; do r <- drain n hp it'; Ok (ob :: r)
        end
      else Ok []
  end.

(* ---- CreateObject / DestroyObject, Objects.cpp:29-88 ----
   What CreateObject looks at in the type. *)
Record ctype := mk_ctype { ct_is_class : bool; ct_is_object_group : bool; ct_has_ctor : bool; ct_has_dtor : bool }.
(* fresh is the object built by the constructor, at a new address *)
Definition CreateObject (ty : option ctype) (id : Z) (ptr : Z) (child : option Z) (g : option group)
  : outcome (option object * option group) :=
  match ty with
  | None => Ok (None, g)
  | Some t =>
      if negb (ct_is_class t) then Ok (None, g)
      else if negb (ct_is_object_group t) && (negb (ct_has_ctor t) || negb (ct_has_dtor t)) then Ok (None, g)
      else
        let o := mk_object id ptr child in
        match g with
        | None => Ok (Some o, None)
        | Some gr => do gr' <- AddObject gr o; Ok (Some o, Some gr')
        end
  end.
(* Objects.cpp:69-88 with ~Object (92-96) when the object is in a group *)
Definition DestroyObject (t : ctype) (o : object) (g : option group) : outcome (option group) :=
  do _ <- (if ct_is_object_group t then Ok tt
           else do _ <- assert (ct_is_class t); assert (ct_has_dtor t));
  match g with
  | None => Ok None
  | Some gr => do gr' <- RemoveObject gr o; Ok (Some gr')
  end.
