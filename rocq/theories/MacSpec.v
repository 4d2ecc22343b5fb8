(* The map of the Mac linker: what it is made of *)
From Verif Require Import Base Text MapFileModel MacModel.

Definition sections_heading (l : list Z) : Prop := exists a b, l = a ++ str "# Sections:" ++ b.
Definition symbols_heading (l : list Z) : Prop := exists a b, l = a ++ str "# Symbols:" ++ b.
Definition heading (l : list Z) : Prop := sections_heading l \/ symbols_heading l.
(* the lines of a map: anything, the sections with their heading and its second line, the symbols with theirs *)
Record mac_map (ls before : list (list Z)) (s1 s2 : list Z) (sections : list (list Z)) (y1 y2 : list Z) (symbols : list (list Z)) : Prop := {
  mm_lines : ls = before ++ s1 :: s2 :: sections ++ y1 :: y2 :: symbols;
  mm_before : Forall (fun l => ~ heading l) before;
  mm_sections : sections_heading s1 /\ Forall (fun l => ~ heading l) sections;
  mm_symbols : symbols_heading y1 /\ ~ sections_heading y1 /\ Forall (fun l => ~ heading l) symbols }.
(* the address of the last section called __text, or b *)
Inductive text_address (scan_section : list Z -> option (Z * list Z * list Z)) (b : Z) : list (list Z) -> Z -> Prop :=
| text_none : forall ls, (forall l a g, In l ls -> scan_section l <> Some (a, g, str "__text")) -> text_address scan_section b ls b
| text_last : forall before l after a g, scan_section l = Some (a, g, str "__text") -> (forall l a g, In l after -> scan_section l <> Some (a, g, str "__text")) ->
    text_address scan_section b (before ++ l :: after) a.
(* the symbol of a line that is one of C++'s, as the demangler takes it *)
Definition symbol_of (scan_symbol : list Z -> option (Z * list Z)) (l : list Z) : option (Z * list Z) :=
  match scan_symbol l with
  | Some (a, c1 :: c2 :: r) => if (c1 =? 95) && (c2 =? 95) then Some (a, c2 :: r) else None
  | _ => None
  end.
(* names fit their buffers *)
Definition names_fit (scan_section : list Z -> option (Z * list Z * list Z)) (scan_symbol : list Z -> option (Z * list Z)) (sections symbols : list (list Z)) : Prop :=
  (forall l a g s, In l sections -> scan_section l = Some (a, g, s) -> zlen g < 1024 /\ zlen s < 1024) /\
  (forall l a s, In l symbols -> scan_symbol l = Some (a, s) -> zlen s < 1024).
