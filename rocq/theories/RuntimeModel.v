(* Run-time reflection queries, function rebasing and C-array iterators:
   src/clReflectCpp/clcpp.cpp and src/clReflectCpp/Containers.cpp. *)
From Verif Require Import Base.

(* ---- Type::DerivesFrom, clcpp.cpp:443-460 ----
   A type graph is a list of types; a Type* is an index in it (a null or wild
   pointer is any index outside). Only name.hash and base_types are kept. *)
Record type := mk_type { ty_hash : Z; ty_bases : list Z }.

(* clcpp.cpp:446-450, the loop over immediate bases *)
Fixpoint immediate_base (g : list type) (bases : list Z) (h : Z) : outcome bool :=
  match bases with
  | [] => Ok false
  | b :: rest =>
      do bt <- rd g b;
      if ty_hash bt =? h then Ok true else immediate_base g rest h
  end.

(* clcpp.cpp:443-460; fuel bounds the recursion depth (the C++ call depth). The
   inner fix is the loop of lines 453-457. *)
Fixpoint DerivesFrom (fuel : nat) (g : list type) (t : Z) (h : Z) : outcome bool :=
  match fuel with
  | O => Fuel
  | S n =>
      do ty <- rd g t;
      do imm <- immediate_base g (ty_bases ty) h;
      if imm then Ok true
      else
        (fix up (bases : list Z) : outcome bool :=
           match bases with
           | [] => Ok false
           | b :: rest =>
               do r <- DerivesFrom n g b h;
               if r then Ok true else up rest
           end) (ty_bases ty)
  end.

(* ---- Enum::GetValueName, clcpp.cpp:492-503 ----
   A constant is its name and value; None is the null pointer. *)
Fixpoint GetValueName {N : Type} (constants : list (N * Z)) (value : Z) : option N :=
  match constants with
  | [] => None
  | (name, v) :: rest => if v =? value then Some name else GetValueName rest value
  end.

(* ---- RebaseFunctions, clcpp.cpp:269-278 ----
   pointer_type arithmetic is modulo 2^64; 0 is "no address". *)
Definition rebase_address (function_base base a : Z) : Z :=
  if a =? 0 then a else u64 (u64 (a - function_base) + base).
Definition RebaseFunctions (function_base base : Z) (addresses : list Z) : list Z :=
  map (rebase_address function_base base) addresses.

(* The primitives of a loaded database: for each table, the owner (Primitive::database)
   of every entry; clcpp.h DatabaseMem. functions also carry their address. *)
Record dbmem := mk_dbmem {
  mem_function_base : Z;
  mem_types : list Z; mem_enum_constants : list Z; mem_enums : list Z;
  mem_fields : list Z; mem_functions : list (Z * Z) (* owner, address *);
  mem_classes : list Z; mem_templates : list Z; mem_template_types : list Z;
  mem_namespaces : list Z; mem_flag_attributes : list Z; mem_int_attributes : list Z;
  mem_float_attributes : list Z; mem_primitive_attributes : list Z;
  mem_text_attributes : list Z;
  mem_global_namespace : Z }.

(* clcpp.cpp:280-285 ParentPrimitivesToDatabase *)
Definition set_owner (db : Z) (l : list Z) : list Z := map (fun _ => db) l.

(* clcpp.cpp:583-605, the part of Database::Load after the file has been mapped.
   OPT_DONT_REBASE_FUNCTIONS is bit 0 (clcpp.h). *)
Definition finish_load (m : dbmem) (db base options : Z) : dbmem :=
  let addrs := map snd (mem_functions m) in
  let addrs' := if Z.land options 1 =? 0 then RebaseFunctions (mem_function_base m) base addrs else addrs in
  mk_dbmem (mem_function_base m)
    (set_owner db (mem_types m)) (set_owner db (mem_enum_constants m)) (set_owner db (mem_enums m))
    (set_owner db (mem_fields m)) (map (fun a => (db, a)) addrs')
    (set_owner db (mem_classes m)) (set_owner db (mem_templates m)) (set_owner db (mem_template_types m))
    (set_owner db (mem_namespaces m)) (set_owner db (mem_flag_attributes m)) (set_owner db (mem_int_attributes m))
    (set_owner db (mem_float_attributes m)) (set_owner db (mem_primitive_attributes m))
    (set_owner db (mem_text_attributes m))
    (mem_global_namespace m).

(* ---- C-array iterators, Containers.cpp:16-134 ----
   Addresses are integers; size_type is 64 bit. *)
Record array_iter := mk_iter { it_data : Z; it_esize : Z; it_pos : Z; it_size : Z }.

(* The field being iterated: size of its type, whether it is a pointer, ci->count. *)
Record array_field := mk_array_field { af_size : Z; af_is_ptr : bool; af_count : Z }.

(* Containers.cpp:26-48 and 87-109; the four Asserts about non-null arguments and the
   field kind are taken to hold except a null container object. m_Count is
   unsigned int. *)
Definition array_init (f : array_field) (container : Z) : outcome array_iter :=
  do _ <- assert (negb (container =? 0));
  let es := if af_is_ptr f then 8 else af_size f in
  Ok (mk_iter container es 0 (u64 (u32 (af_count f) * es))).

(* Containers.cpp:50-56 *)
Definition array_get (it : array_iter) : outcome Z :=
  do _ <- assert (it_pos it <? it_size it);
  Ok (u64 (it_data it + it_pos it)).

(* Containers.cpp:58-61 *)
Definition array_next (it : array_iter) : array_iter :=
  mk_iter (it_data it) (it_esize it) (u64 (it_pos it + it_esize it)) (it_size it).

(* Containers.cpp:111-122 ArrayWriteIterator::AddEmpty (with or without key) *)
Definition array_add_empty (it : array_iter) : outcome (Z * array_iter) :=
  do p <- array_get it; Ok (p, array_next it).

(* the client's loop: n times GetKeyValue, MoveNext (e.g. SerialiseJSON.cpp SaveContainer) *)
Fixpoint read_n (n : nat) (it : array_iter) : outcome (list Z * array_iter) :=
  match n with
  | O => Ok ([], it)
  | S k => do p <- array_get it;
           do r <- read_n k (array_next it);
           Ok (p :: fst r, snd r)
  end.
Fixpoint write_n (n : nat) (it : array_iter) : outcome (list Z * array_iter) :=
  match n with
  | O => Ok ([], it)
  | S k => do pi <- array_add_empty it;
           do r <- write_n k (snd pi);
           Ok (fst pi :: fst r, snd r)
  end.

(* ---- life cycle of the wrappers, Containers.cpp:135-239 ----
   impl: is there a constructed implementation in m_ImplData?  flag: m_Initialised.
   What can be initialised: a type or field, with or without a container interface,
   whose implementation class has (or lacks) constructor and destructor, and its size. *)
Record wrapper := mk_wrapper { w_impl : bool; w_flag : bool }.
Definition w_new : wrapper := mk_wrapper false false.   (* lines 135-138, 182-185 *)
Inductive init_arg :=
| InitType (has_ci has_ctor_dtor : bool) (impl_size : Z)
| InitField (has_ci : bool).

(* ReadIterator::Initialise, lines 150-179: m_Initialised is never set *)
Definition r_init (w : wrapper) (a : init_arg) : outcome wrapper :=
  match a with
  | InitType ci cd sz =>
      if negb ci then Ok w else if negb cd then Ok w
      else do _ <- assert (sz <? 128); Ok (mk_wrapper true (w_flag w))
  | InitField ci => if negb ci then Ok w else Ok (mk_wrapper true (w_flag w))
  end.
(* WriteIterator::Initialise, lines 201-233 *)
Definition w_init (w : wrapper) (a : init_arg) : outcome wrapper :=
  match a with
  | InitType ci cd sz =>
      if negb ci then Ok w else if negb cd then Ok w
      else do _ <- assert (sz <? 128); Ok (mk_wrapper true true)
  | InitField ci => if negb ci then Ok w else Ok (mk_wrapper true true)
  end.
(* ReadIterator::~ReadIterator, lines 141-148: virtual destructor call on m_ImplData,
   undefined when nothing was constructed there *)
Definition r_destroy (w : wrapper) : outcome unit := if w_impl w then Ok tt else UB.
(* WriteIterator::~WriteIterator, lines 188-198 *)
Definition w_destroy (w : wrapper) : outcome unit :=
  if w_flag w then (if w_impl w then Ok tt else UB) else Ok tt.
