(* Module objects over their life: src/clReflectUtil/Module.cpp:71-111, inc/clutl/Module.h:29-58, any number of them. The system's loader
   (LoadLibraryA, dlopen) is a parameter: what it answers to a Load is part of the call, it counts references to libraries, and closing a
   library with no reference left is undefined. Simplification: what a library exports does not change while it is open *)
From Verif Require Import Base Text Maps.

(* Module.h:50-57; 0 is the null pointer *)
Record module := mk_module { m_handle : Z; m_host : Z; m_db : Z }.
(* references to libraries by handle, and the modules by address *)
Record system := mk_system { s_refs : Z -> nat; s_modules : zmap module }.
Definition with_refs (f : Z -> nat) (h : Z) (n : nat) : Z -> nat := fun x => if x =? h then n else f x.

(* what a program does with Module objects. handle is what the loader answers, 0 if it cannot load the file *)
Inductive mcall :=
| NewModule (this : Z)
| LoadModule (this host handle : Z)
| GetFunction (this : Z) (name : list Z)
| GetReflectionDB (this : Z)
| DeleteModule (this : Z).

Section Libraries.
(* dlsym: the address of what a library exports under a name, 0 if nothing; what the function at an address answers *)
Variables (exported : Z -> list Z -> Z) (answer : Z -> Z).

(* Module.cpp:107-111 *)
Definition get_function (m : module) (name : list Z) : outcome Z :=
  do _ <- assert (negb (m_handle m =? 0)); Ok (exported (m_handle m) name).
(* Module.cpp:86-104: the module and the answer *)
Definition load_module (m : module) (host handle : Z) : outcome (module * Z) :=
  if handle =? 0 then Ok (mk_module 0 (m_host m) (m_db m), 0)
  else
    do _ <- assert (negb (host =? 0));
    let m := mk_module handle host (m_db m) in
    do f <- get_function m (str "GetReflectionDatabase");
    Ok (if f =? 0 then m else mk_module handle host (answer f), 1).
(* FreeSharedLibrary (60-67) *)
Definition close (refs : Z -> nat) (h : Z) : outcome (Z -> nat) :=
  match refs h with O => UB | S n => Ok (with_refs refs h n) end.
(* one call and its answer; constructing over an object and using what is not one are undefined behaviour *)
Definition mstep (s : system) (c : mcall) : outcome (system * Z) :=
  match c with
  | NewModule this =>
      (* Module.cpp:71-76 *)
      match m_find this (s_modules s) with
      | Some _ => UB
      | None => Ok (mk_system (s_refs s) ((this, mk_module 0 0 0) :: s_modules s), 0)
      end
  | LoadModule this host handle =>
      match m_find this (s_modules s) with
      | None => UB
      | Some m =>
          do x <- load_module m host handle;
          Ok (mk_system (if handle =? 0 then s_refs s else with_refs (s_refs s) handle (S (s_refs s handle))) (m_update this (fst x) (s_modules s)), snd x)
      end
  | GetFunction this name =>
      match m_find this (s_modules s) with Some m => do a <- get_function m name; Ok (s, a) | None => UB end
  | GetReflectionDB this =>
      (* Module.h:47 *)
      match m_find this (s_modules s) with Some m => Ok (s, m_db m) | None => UB end
  | DeleteModule this =>
      (* Module.cpp:79-83 *)
      match m_find this (s_modules s) with
      | None => UB
      | Some m =>
          do refs <- (if m_handle m =? 0 then Ok (s_refs s) else close (s_refs s) (m_handle m));
          Ok (mk_system refs (filter (fun x => negb (fst x =? this)) (s_modules s)), 0)
      end
  end.
Fixpoint mrun (s : system) (cs : list mcall) : outcome (system * list Z) :=
  match cs with
  | [] => Ok (s, [])
  | c :: r => do x <- mstep s c; do y <- mrun (fst x) r; Ok (fst y, snd x :: snd y)
  end.
End Libraries.
