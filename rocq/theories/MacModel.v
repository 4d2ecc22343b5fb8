(* Reading function addresses out of the map of the Mac linker: src/clReflectExport/MapFileParser.cpp:747-814 and 858-881. What is shared
   with the other compilers is in MapFileModel.v. sscanf and the demangler belong to the libraries and are parameters: scan_section line is
   what sscanf gives for the format of 762 when all four conversions succeed (address, segment and section), scan_symbol line the
   same for the format of 773 (address and symbol). Simplification: a name that overruns its buffer although a later conversion fails is
   not counted *)
From Verif Require Import Base Text Maps FileUtilsModel DatabaseModel MapFileModel.

Inductive region := NoRegion | SectionRegion | SymbolRegion.
Section Mac.
Variables (scan_section : list Z -> option (Z * list Z * list Z)) (scan_symbol : list Z -> option (Z * list Z)) (demangle : list Z -> option (list Z)).
Variable rnd : nat -> nat -> Z.           (* the digits rand() gives while line n is read *)

(* MapFileParser.cpp:760-770; the buffers have 1024 bytes *)
Definition section_line (line : list Z) (base_address : Z) : outcome Z :=
  match scan_section line with
  | None => Ok base_address
  | Some (address, segment, section) =>
      if (1024 <=? zlen segment) || (1024 <=? zlen section) then UB
      else Ok (if list_eqb section (str "__text") then address else base_address)
  end.
(* MapFileParser.cpp:771-797: the first underscore is not the symbol's *)
Definition mac_symbol_line (rnd : nat -> Z) (d : mapdb) (line : list Z) : outcome mapdb :=
  match scan_symbol line with
  | None => Ok d
  | Some (address, symbol) =>
      if 1024 <=? zlen symbol then UB
      else if startswith symbol (str "__") then
        match demangle (skipn 1 symbol) with
        | None => Ok d
        | Some signature => if has signature (str " for ") then Ok d else ProcessFunctionItem rnd d signature address
        end
      else Ok d
  end.
(* MapFileParser.cpp:758-813: the line behind a heading is skipped *)
Fixpoint mac_lines (n : nat) (ls : list (list Z)) (reg : region) (d : mapdb) (base_address : Z) : outcome (mapdb * Z) :=
  match ls with
  | [] => Ok (d, base_address)
  | line :: r =>
      do x <- match reg with
              | SectionRegion => do b <- section_line line base_address; Ok (d, b)
              | SymbolRegion => do d <- mac_symbol_line (rnd n) d line; Ok (d, base_address)
              | NoRegion => Ok (d, base_address)
              end;
      if has line (str "# Sections:") then match r with [] => Ok x | _ :: r => mac_lines (S (S n)) r SectionRegion (fst x) (snd x) end
      else if has line (str "# Symbols:") then match r with [] => Ok x | _ :: r => mac_lines (S (S n)) r SymbolRegion (fst x) (snd x) end
      else mac_lines (S n) r reg (fst x) (snd x)
  end.
(* MapFileParser.cpp:858-881, for a file that starts as the maps of the Mac do; an empty file hands null to strstr *)
Definition ParseMacMapFile (file : list Z) (d : mapdb) : outcome (mapdb * Z) :=
  match ReadLine file with
  | (None, _) => UB
  | (Some first, rest) =>
      if startswith first (str "# Path:") then
        do ls <- ReadLines (S (length rest)) rest;
        mac_lines 0 ls NoRegion d 0
      else Ok (d, 0)
  end.
End Mac.
