(* C103: what the exporter takes from the map of the Mac linker *)
From Verif Require Import Base BaseProofs Text HashModel HashSpec Maps FileUtilsModel FileUtilsSpec FileUtilsProofs DatabaseModel MapFileModel MapFileSpec
  MapTableProofs MapSafeProofs MapFileProps MacModel MacSpec MacProofs.

Definition mac_start (l : list Z) : Prop := exists r, firstn 4095 l = str "# Path:" ++ r.

(* The base address is that of the section __text; addresses come from the lines of symbols only, and none is 0; no function is lost or
   changes its name, parent or id *)
Theorem C103_map : forall scan_section scan_symbol demangle digits file first ls d before s1 s2 sections y1 y2 symbols,
  lines file (first :: ls) -> mac_start first -> mac_map (map (firstn 4095) ls) before s1 s2 sections y1 y2 symbols -> names_fit scan_section scan_symbol (sections ++ [y1]) symbols ->
  forall d' base, ParseMacMapFile scan_section scan_symbol demangle digits file d = Ok (d', base) ->
    text_address scan_section 0 (sections ++ [y1]) base /\
    (forall h f, In (h, f) (d_functions d') -> In (h, f) (d_functions d) \/ fn_address f <> 0 /\ exists l symbol, In l symbols /\ scan_symbol l = Some (fn_address f, 95 :: symbol)) /\
    (forall h f, In (h, f) (d_functions d) -> exists a, In (h, mk_func (fn_prim f) (fn_uid f) a) (d_functions d')).
Proof.
  intros ssec ssym dm rnd file first ls d before s1 s2 sections y1 y2 symbols HL HF M F d' base H. destruct (mac_read ssec ssym dm rnd file first ls d before s1 s2 sections y1 y2 symbols HL HF M F) as (n & b & T & E).
  rewrite E in H. apply after_section in H. destruct H as [H1 H2]. cbn [fst snd] in H1, H2. subst b. split; [exact T |]. destruct (lines_functions _ _ _ _ _ H2) as (A & B). split; [| exact B].
  intros h f I. destruct (A h f I) as [X | (X & l & s & Y & Z)]; [left; exact X |]. right. split; [exact X |]. unfold symbol_of in Z. destruct (ssym l) as [(a, [| c1 [| c2 r]]) |] eqn:S; try discriminate Z.
  destruct ((c1 =? 95) && (c2 =? 95)) eqn:C; [| discriminate Z]. injection Z as <- <-. apply andb_true_iff in C. destruct C as (C & _). apply Z.eqb_eq in C. subst c1. exists l, (c2 :: r). auto.
Qed.
Print Assumptions C103_map.

(* A map whose symbols are functions as in C72 (or are skipped): the database gets the addresses, one symbol after the other *)
Theorem C103_functions : forall scan_section scan_symbol demangle digits file first ls d before s1 s2 sections y1 y2 symbols U es,
  (forall i j, 0 <= digits i j < 10) -> told_apart U -> names_of U (d_names d) ->
  lines file (first :: ls) -> mac_start first -> mac_map (map (firstn 4095) ls) before s1 s2 sections y1 y2 symbols -> names_fit scan_section scan_symbol (sections ++ [y1]) symbols ->
  function_lines (symbol_of scan_symbol) demangle U symbols es ->
  exists names fns base, ParseMacMapFile scan_section scan_symbol demangle digits file d = Ok (mk_mapdb names fns (d_fields d) (d_gettype d), base) /\
    text_address scan_section 0 (sections ++ [y1]) base /\ names_kept (d_names d) names /\ all_given es (d_functions d) fns.
Proof.
  intros ssec ssym dm rnd file first ls d before s1 s2 sections y1 y2 symbols U es Hr TA N HL HF M F HP. destruct (mac_read ssec ssym dm rnd file first ls d before s1 s2 sections y1 y2 symbols HL HF M F) as (n & b & T & E).
  rewrite E. destruct (plain_read (symbol_of ssym) (fun _ => None) dm rnd U symbols es Hr TA (function_plain _ _ _ _ _ HP) n d b N) as (names & fns & P & Q & R). exists names, fns, b. auto.
Qed.
Print Assumptions C103_functions.

(* Without a heading of symbols no function gets an address *)
Theorem C103_no_symbols : forall scan_section scan_symbol demangle digits file first ls d d' base, lines file (first :: ls) -> mac_start first ->
  Forall (fun l => ~ symbols_heading l) (map (firstn 4095) ls) -> ParseMacMapFile scan_section scan_symbol demangle digits file d = Ok (d', base) -> d' = d.
Proof.
  intros ssec ssym dm rnd file first ls d d' base HL HF F H. rewrite (mac_parse ssec ssym dm rnd file first ls d HL HF) in H. apply region_end in H; [exact H | discriminate | exact F].
Qed.
Print Assumptions C103_no_symbols.

(* A file that does not start as a map of the Mac does is not read as one: nothing changes and there is no base address *)
Theorem C103_other : forall scan_section scan_symbol demangle digits file first ls d, lines file (first :: ls) -> ~ mac_start first ->
  ParseMacMapFile scan_section scan_symbol demangle digits file d = Ok (d, 0).
Proof.
  intros * HL HF. remember (first :: ls) as fl eqn:Efl. destruct HL as [| l rest ls' N1 HL]; [discriminate |]. injection Efl as -> ->.
  unfold ParseMacMapFile, ReadLine. rewrite read_line_ok by exact N1. cbn [rev app length]. rewrite Nat.sub_0_r.
  destruct (startswith (firstn 4095 first) (str "# Path:")) eqn:E; [| reflexivity]. exfalso. apply HF. apply startswith_ok in E. exact E.
Qed.
Print Assumptions C103_other.
Example C103_other_witness : lines (str "Archive" ++ [10]) [str "Archive"] /\ ~ mac_start (str "Archive").
Proof.
  split; [apply lines_cons; [vm_compute; intuition discriminate |]; apply FileUtilsSpec.lines_end; intros [] |].
  intros (r & E). vm_compute in E. discriminate E.
Qed.
Print Assumptions C103_other_witness.

(* A file with no line end in it hands a null pointer to the comparison of its first line *)
Theorem C103_no_line_refuted : ~ (forall scan_section scan_symbol demangle digits file d, ~ In 10 file -> defined (ParseMacMapFile scan_section scan_symbol demangle digits file d)).
Proof.
  intros H. destruct (H (fun _ => None) (fun _ => None) (fun _ => None) (fun _ => sevens) (str "# Path: a") base_db) as (U & _); [vm_compute; intuition discriminate |]. apply U. vm_compute. reflexivity.
Qed.
Print Assumptions C103_no_line_refuted.

(* a map with two sections and two symbols *)
Definition mac_file : list Z := str "# Path: a" ++ [10] ++ str "x" ++ [10] ++ str "# Sections:" ++ [10] ++ str "# Address" ++ [10] ++ str "t" ++ [10] ++ str "c" ++ [10] ++ str "# Symbols:" ++ [10] ++ str "# Address" ++ [10] ++ str "one" ++ [10] ++ str "two" ++ [10].
Definition mac_section (l : list Z) : option (Z * list Z * list Z) :=
  if list_eqb l (str "t") then Some (4096, str "__TEXT", str "__text") else if list_eqb l (str "c") then Some (9000, str "__TEXT", str "__const") else None.
Definition mac_symbol (l : list Z) : option (Z * list Z) :=
  if list_eqb l (str "one") then Some (5000, str "__f") else if list_eqb l (str "two") then Some (6000, str "_main") else None.
Example C103_witness : exists names fns base, ParseMacMapFile mac_section mac_symbol wit_demangle (fun _ => sevens) mac_file base_db = Ok (mk_mapdb names fns (d_fields base_db) (d_gettype base_db), base) /\
  text_address mac_section 0 ([str "t"; str "c"] ++ [str "# Symbols:"]) base /\ names_kept (d_names base_db) names /\
  all_given [(hash32 (str "N::A::f") 0, [id_of (this_text (str "N::A") true :: [str "int"]); id_of [str "int"]], 5000)] (d_functions base_db) fns.
Proof.
  assert (NH : forall l, has l (str "# Sections:") = false -> has l (str "# Symbols:") = false -> ~ heading l).
  { intros l A B [X | X]; apply has_spec in X; congruence. }
  apply (C103_functions mac_section mac_symbol wit_demangle (fun _ => sevens) mac_file (str "# Path: a") [str "x"; str "# Sections:"; str "# Address"; str "t"; str "c"; str "# Symbols:"; str "# Address"; str "one"; str "two"] base_db
    [str "x"] (str "# Sections:") (str "# Address") [str "t"; str "c"] (str "# Symbols:") (str "# Address") [str "one"; str "two"] base_texts).
  - intros i j. apply sevens_ok.
  - exact base_apart.
  - exact base_names.
  - unfold mac_file. repeat (apply lines_cons; [vm_compute; intuition discriminate |]). apply FileUtilsSpec.lines_end. intros [].
  - exists (str " a"). vm_compute. reflexivity.
  - split.
    + vm_compute. reflexivity.
    + constructor; [apply NH; vm_compute; reflexivity | constructor].
    + split; [apply has_spec; vm_compute; reflexivity |]. repeat (constructor; [apply NH; vm_compute; reflexivity |]). constructor.
    + split; [apply has_spec; vm_compute; reflexivity |]. split; [intros X; apply has_spec in X; vm_compute in X; discriminate X |]. repeat (constructor; [apply NH; vm_compute; reflexivity |]). constructor.
  - split.
    + intros l a g s [<- | [<- | [<- | []]]] E; vm_compute in E; try discriminate E; injection E as <- <- <-; split; reflexivity.
    + intros l a s [<- | [<- | []]] E; vm_compute in E; injection E as <- <-; reflexivity.
  - apply (lines_symbol (symbol_of mac_symbol) wit_demangle base_texts (str "one") [str "two"] [] 5000 (str "_f") (str "N::A::f") [str "int"] true).
    + reflexivity.
    + reflexivity.
    + reflexivity.
    + vm_compute. reflexivity.
    + no_inside.
    + discriminate.
    + apply base_plain.
    + apply (ids_scoped base_texts [str "int"] true (str "N::A") (str "f")); [discriminate | vm_compute; intuition discriminate | reflexivity | right; left; reflexivity].
    + apply lines_skip; [reflexivity |]. apply lines_end.
Qed.
Print Assumptions C103_witness.

(* A symbol of 1024 characters overruns its buffer *)
Theorem C103_long_refuted : ~ (forall scan_section scan_symbol demangle digits file first ls d, lines file (first :: ls) -> mac_start first ->
  defined (ParseMacMapFile scan_section scan_symbol demangle digits file d)).
Proof.
  intros H. destruct (H (fun _ => None) (fun _ => Some (1, repeat 95 1024)) (fun _ => None) (fun _ => sevens)
    (str "# Path:" ++ [10] ++ str "# Symbols:" ++ [10] ++ str "a" ++ [10] ++ str "b" ++ [10]) (str "# Path:") [str "# Symbols:"; str "a"; str "b"] base_db) as (U & _).
  - repeat (apply lines_cons; [vm_compute; intuition discriminate |]). apply FileUtilsSpec.lines_end. intros [].
  - exists []. vm_compute. reflexivity.
  - apply U. vm_compute. reflexivity.
Qed.
Print Assumptions C103_long_refuted.
