(* Methods of the primitives of a loaded database that walk its arrays, on the bytes of the database
   (src/clReflectCpp/clcpp.cpp:443-460 and 492-503); memory is as in QueryModel.v. *)
From Coq Require Import String.
From Verif Require Import Base ImageLayout ImageModel QueryModel.
#[local] Open Scope string_scope.
#[local] Open Scope Z_scope.
#[local] Open Scope list_scope.

(* clcpp.cpp:446-450 and 453-457: for (i = 0; i < array.size; i++) if (test(array[i])) return true; the array of pointers is at
   address a, and its size is read again in each round *)
Fixpoint any_of (n : nat) (test : Z -> outcome bool) (base : Z) (mem : list Z) (a i : Z) : outcome bool :=
  match n with
  | O => Fuel
  | S n =>
      do size <- array_size base mem a;
      if i <? size then
        do p <- element base mem a 8 i;
        do b <- load base mem p 8;
        do r <- test b;
        if r then Ok true else any_of n test base mem a (u32 (i + 1))
      else Ok false
  end.
(* clcpp.cpp:443-460 Type::DerivesFrom of the type at address t; depth bounds the depth of the calls *)
Fixpoint DerivesFromAt (depth : nat) (base : Z) (mem : list Z) (t h : Z) : outcome bool :=
  match depth with
  | O => Fuel
  | S d =>
      let bases := t + OffsetOf Type_ "base_types" in
      do n <- rounds base mem bases;
      do r <- any_of n (fun b => do x <- GetPrimitiveHash base mem b; Ok (x =? h)) base mem bases 0;
      if r then Ok true
      else any_of n (fun b => DerivesFromAt d base mem b h) base mem bases 0
  end.

(* clcpp.cpp:495-500, the loop of GetValueName from constant i on: the text of a constant, 0 is the null pointer *)
Fixpoint value_name (n : nat) (base : Z) (mem : list Z) (a value i : Z) : outcome Z :=
  match n with
  | O => Fuel
  | S n =>
      do size <- array_size base mem a;
      if i <? size then
        do p <- element base mem a 8 i;
        do c <- load base mem p 8;
        do v <- load base mem (c + OffsetOf EnumConstant "value") 4;
        if s32 v =? value then load base mem (c + OffsetOf Primitive "name" + OffsetOf Name "text") 8
        else value_name n base mem a value (u32 (i + 1))
      else Ok 0
  end.
(* clcpp.cpp:492-503 Enum::GetValueName of the enum at address e *)
Definition GetValueNameAt (base : Z) (mem : list Z) (e value : Z) : outcome Z :=
  let constants := e + OffsetOf Enum "constants" in
  do n <- rounds base mem constants;
  value_name n base mem constants value 0.
