(* What a program may expect of a database after Database::Load. *)
From Coq Require Import String.
From Verif Require Import Base HashModel DatabaseModel ExportModel ExportSpec.
From Verif Require Import ImageLayout ImageModel LaidModel LaidSpec QueryModel.
#[local] Open Scope string_scope.
#[local] Open Scope Z_scope.
#[local] Open Scope list_scope.

(* whatever the exporter makes of db, the file it saves and the place the file is loaded at (reaches_memory), the rest of
   Database::Load succeeds on the memory, and P holds of the memory before and after; this is the address of the
   Database, to the load address it is given *)
Definition reaches_loaded (L : layout) (fuel : nat) (db : database) (P : forall fb base this to options : Z, list Z -> list Z -> Prop) : Prop :=
  reaches_memory L fuel db (fun fb base mem => forall this to options, exists mem', FinishLoad base mem this to options = Ok mem' /\ P fb base this to options mem mem').

(* where an executable loaded at to has the function exported at address a of one loaded at fb; functions without an
   address keep none, and nothing moves when bit 0 of the options is set *)
Definition moved (fb to options a : Z) : Z := if Z.odd options || (a =? 0) then a else (a - fb + to) mod 2 ^ 64.

(* own_members but for the address of a function, which Load changes *)
Definition own_members_after (db : database) (base : Z) (mem : list Z) (l : loc) (i : item) : Prop :=
  match fst l with
  | KFunction => object_holds base mem l ["unique_id"] (it_uid i) /\ of_object base mem l ["return_parameter"] = object_or_null base mem (return_of db l)
  | _ => own_members db base mem l i
  end.

(* an answer to a look-up of hash h among the primitives ls: one of them with that hash, null only if there is none *)
Definition finds (db : database) (base : Z) (mem : list Z) (ls : list loc) (h : Z) (answer : outcome Z) : Prop :=
  exists p, answer = Ok p /\
    ((exists l, In l ls /\ hash_at db l = h /\ p = object base mem l) \/ (p = 0 /\ forall l, In l ls -> hash_at db l <> h)).
(* an answer to a look-up of all: the positions in ls with that hash, 0 and 0 if there are none *)
Definition finds_all (db : database) (ls : list loc) (h : Z) (answer : outcome (Z * Z)) : Prop :=
  exists first last, answer = Ok (first, last) /\ 0 <= first <= last /\ last <= zlen ls /\
    (forall j l, nth_error ls j = Some l -> (hash_at db l = h <-> first <= Z.of_nat j < last)) /\ (first = last -> first = 0 /\ last = 0).
(* an answer to a look-up of the name with hash h: that hash and the text, 0 and null if there is no such name *)
Definition finds_name (db : database) (base : Z) (mem : list Z) (h : Z) (answer : outcome (Z * Z)) : Prop :=
  (exists n text, In (h, n) (m_names db) /\ answer = Ok (h, text) /\ text_here base mem text (n_text n)) \/
  ((forall n, ~ In (h, n) (m_names db)) /\ answer = Ok (0, 0)).
