(* The pointers of a memory-mapped database, from the declarations of its structures alone. *)
From Coq Require Import String Permutation.
From Verif Require Import Base MmapSpec ImageLayout.
#[local] Open Scope string_scope.
#[local] Open Scope Z_scope.
#[local] Open Scope list_scope.

(* every pointer inside a value of type t: the members that lead to it, and its offset *)
Fixpoint pointers_in (d : nat) (t : ctype) : list (list string * Z) :=
  match d with
  | O => []
  | S d' =>
    let inside (m : string * ctype * Z) := let '(n, u, o) := m in map (fun x => (n :: fst x, o + snd x)) (pointers_in d' u) in
    match t with
    | Scalar _ => []
    | Ptr _ => [([], 0)]
    | Arr _ => flat_map inside placed_array
    | Four e => flat_map (fun k => map (fun x => (fst x, Z.of_nat k * size_of e + snd x)) (pointers_in d' e)) (seq 0 4)
    | Struct s => (match base_of s with None => [] | Some b => pointers_in d' (Struct b) end) ++ flat_map inside (placed s)
    end
  end.
Definition pointers (t : ctype) : list (list string * Z) := pointers_in DEPTH t.

(* every CArray inside a value of type t: its offset and the type of its elements *)
Fixpoint arrays_in (d : nat) (t : ctype) : list (Z * ctype) :=
  match d with
  | O => []
  | S d' =>
    let inside (m : string * ctype * Z) := let '(_, u, o) := m in map (fun x => (o + fst x, snd x)) (arrays_in d' u) in
    match t with
    | Scalar _ | Ptr _ => []
    | Arr e => [(0, e)]
    | Four e => flat_map (fun k => map (fun x => (Z.of_nat k * size_of e + fst x, snd x)) (arrays_in d' e)) (seq 0 4)
    | Struct s => (match base_of s with None => [] | Some b => arrays_in d' (Struct b) end) ++ flat_map inside (placed s)
    end
  end.
Definition arrays (t : ctype) : list (Z * ctype) := arrays_in DEPTH t.

(* the pointers that have no business in a file: an array's allocator, the Database object a primitive was loaded
   into, and the name and parent of the one namespace that has none. They must be null in an exported image *)
Definition outside (n : list string) : bool :=
  match rev n with
  | x :: _ => String.eqb x "allocator" || String.eqb x "database"
  | [] => false
  end ||
  match n with
  | [g; x; y] => String.eqb g "global_namespace" && String.eqb x "name" && String.eqb y "text"
  | [g; x] => String.eqb g "global_namespace" && String.eqb x "parent"
  | _ => false
  end.

Definition u32_at (img : list Z) (p : Z) : Z := le_val (slice img p 4).

(* a run of values of one type, in memory *)
Record block := mk_block { b_addr : Z; b_type : ctype; b_count : Z }.
(* the address of element j *)
Definition elem (b : block) (j : Z) : Z := b_addr b + j * size_of (b_type b).

Section Image.
Variables (start : Z) (img : list Z).

(* the memory reached from the database at the front of the image through arrays. A path tells the way, last step
   first: take element j, follow the array at offset o in it. A CArray holds its size at 0 and its data at 8 *)
Inductive block_at : list (Z * Z) -> block -> Prop :=
| at_root : block_at [] (mk_block start (Struct DatabaseMem) 1)
| at_array : forall p b j o e, block_at p b -> 0 <= j < b_count b -> In (o, e) (arrays (b_type b)) ->
    block_at ((j, o) :: p) (mk_block (ptr_at img (elem b j + o + 8 - start)) e (u32_at img (elem b j + o - start))).

(* q is the place in the image of the pointer reached through members n in some value of the database *)
Definition pointer_at (n : list string) (q : Z) : Prop :=
  exists p b j o, block_at p b /\ 0 <= j < b_count b /\ In (n, o) (pointers (b_type b)) /\ q = elem b j + o - start.

(* the array that is member m of the database object *)
Definition database_array (m : string) : list block :=
  flat_map (fun x => match x with
                     | (n, Arr e, o) => if String.eqb n m then [mk_block (ptr_at img (o + 8)) e (u32_at img o)] else []
                     | _ => []
                     end) (placed DatabaseMem).
Definition elements (b : block) : list Z := map (fun j => elem b (Z.of_nat j)) (seq 0 (Z.to_nat (b_count b))).

(* an image that the exporter may hand to SaveCppExport *)
Record image_ok : Prop := {
  io_bytes : Forall is_byte img;
  io_start : 0 < start;
  io_size : zlen img < 2 ^ 32;
  (* every array lies inside the image *)
  io_inside : forall p b, block_at p b -> 0 < b_count b -> start <= b_addr b /\ b_addr b + b_count b * size_of (b_type b) <= start + zlen img;
  io_count : forall p b, block_at p b -> b_count b < 2 ^ 31;
  (* no two arrays share memory *)
  io_apart : forall p b p' b', block_at p b -> block_at p' b' -> p <> p' -> 0 < b_count b -> 0 < b_count b' ->
    b_addr b + b_count b * size_of (b_type b) <= b_addr b' \/ b_addr b' + b_count b' * size_of (b_type b') <= b_addr b;
  (* pointers are null or lead into the image, past its first byte *)
  io_pointers : forall n q, pointer_at n q -> ptr_at img q = 0 \/ (outside n = false /\ start < ptr_at img q <= start + zlen img);
  (* type_primitives points at each type, class, enum and template type once, in any order *)
  io_types : Permutation
    (flat_map (fun b => map (fun a => ptr_at img (a - start)) (elements b)) (database_array "type_primitives"))
    (flat_map elements (flat_map database_array ["types"; "classes"; "enums"; "template_types"]));
  (* there are not too many arrays to count in an int *)
  io_few : 24 + fold_right Z.add 0 (map (fun x => snd x * fold_right Z.add 0 (map b_count (database_array (fst x))))
    [("enums", 2); ("fields", 1); ("functions", 2); ("classes", 6); ("templates", 1); ("namespaces", 6); ("type_primitives", 1)]) < 2 ^ 31
}.
End Image.

(* where something at address a of an image at start is once the image lies at base; null stays null *)
Definition relocated (start base a : Z) : Z := if a =? 0 then 0 else a - start + base.

(* img' holds at base the database img holds at start: all its arrays are where they should be, every pointer in it leads
   to the same place of the image, every other byte is the same *)
Definition same_database (start : Z) (img : list Z) (base : Z) (img' : list Z) : Prop :=
  zlen img' = zlen img /\
  (forall p b', block_at base img' p b' <->
     exists b, block_at start img p b /\ b' = mk_block (relocated start base (b_addr b)) (b_type b) (b_count b)) /\
  (forall n q, pointer_at start img n q -> ptr_at img' q = relocated start base (ptr_at img q)) /\
  (forall i, (forall n q, pointer_at start img n q -> ~ (q <= i < q + 8)) -> znth img' i = znth img i).
