(* C99: what the exporter takes from the map of the MSVC linker. *)
From Verif Require Import Base BaseProofs Text HashModel HashSpec Maps FileUtilsModel FileUtilsSpec FileUtilsProofs DatabaseModel MapFileModel MapFileSpec
  MapNameProofs MapParamProofs MapTableProofs MsvcModel MsvcSpec MsvcProofs MsvcSignProofs.

Lemma short_lines : forall ls : list (list Z), Forall (fun l => zlen l < 4096) ls -> map (firstn 4095) ls = ls.
Proof. induction 1 as [|l ls L _ IH]; [reflexivity|]. cbn [map]. rewrite IH. f_equal. apply firstn_all2. unfold zlen in L. lia. Qed.

(* a map made of lines that say nothing, the load address, more lines, the heading, one line and symbols of functions: the load address is
   the one written, and the functions of the database are given the low 32 bits of the addresses written, one symbol after the other *)
Theorem C99_map : forall uname usig texts file d before t v between heading next symbols cs,
  told_apart texts -> In (str "void") texts -> names_of texts (d_names d) ->
  lines file (before ++ t :: between ++ heading :: next :: symbols) -> Forall (fun l => zlen l < 4096) (before ++ t :: between ++ heading :: next :: symbols) ->
  Forall silent before -> base_line t v -> v mod 2 ^ 64 <> 0 -> Forall no_heading between -> (exists x y, heading = x ++ str "  Address" ++ y) ->
  Forall2 (fun l c => exists symbol a n id, symbol_row l symbol a /\ msvc_function uname usig texts symbol n id /\ a mod 2 ^ 32 <> 0 /\ c = (hash32 n 0, [id], a mod 2 ^ 32)) symbols cs ->
  exists names functions, ParseMSVCMapFile uname usig file d = Ok (mk_mapdb names functions (d_fields d) (d_gettype d), v mod 2 ^ 64) /\
    names_of texts names /\ names_kept (d_names d) names /\ all_given cs (d_functions d) functions.
Proof.
  intros uname usig texts file d before t v between heading next symbols cs TA VO N HL HS HB HT V HN HH F. rewrite (parse_lines uname usig _ _ d HL), short_lines by exact HS. rewrite skip_silent by exact HB.
  destruct HT as [c hex rest v H1 H2 H3 H4]. set (t := c :: str "Preferred load address is " ++ hex ++ rest) in *. cbn [msvc_lines].
  replace (has t (str "  Address")) with false by (symmetry; destruct (has t (str "  Address")) eqn:E; [apply has_true in E; destruct E as (x & y & E); destruct (H4 x y E)|reflexivity]).
  pose proof (load_here c hex v rest H1 H2 H3) as LA. change load_words with (str "Preferred load address is ") in LA. unfold t. rewrite LA. cbn [obind]. clear t H4 HS HL LA. revert V. generalize (v mod 2 ^ 64). intros b V. induction HN as [|l between NL _ IH].
  - cbn [app msvc_lines]. apply has_true in HH. rewrite HH. rewrite load_known by exact V. cbn [obind]. exact (all_lines uname usig texts TA VO symbols cs d b F N V).
  - cbn [app msvc_lines]. replace (has l (str "  Address")) with false by (symmetry; destruct (has l (str "  Address")) eqn:E; [apply has_true in E; destruct E as (x & y & E); destruct (NL x y E)|reflexivity]).
    rewrite load_known by exact V. cbn [obind]. exact IH.
Qed.
Print Assumptions C99_map.

(* the load address, whatever follows *)
Theorem C99_base : forall uname usig file ls d before t v after d' b', lines file ls -> map (firstn 4095) ls = before ++ t :: after -> Forall silent before -> base_line t v -> v mod 2 ^ 64 <> 0 ->
  ParseMSVCMapFile uname usig file d = Ok (d', b') -> b' = v mod 2 ^ 64.
Proof.
  intros uname usig file ls d before t v after d' b' HL E HB HT V H. rewrite (parse_lines uname usig _ _ d HL), E, skip_silent in H by exact HB. destruct HT as [c hex rest v H1 H2 H3 H4]. set (t := c :: str "Preferred load address is " ++ hex ++ rest) in *. cbn [msvc_lines] in H.
  replace (has t (str "  Address")) with false in H by (symmetry; destruct (has t (str "  Address")) eqn:Q; [apply has_true in Q; destruct Q as (x & y & Q); destruct (H4 x y Q)|reflexivity]).
  pose proof (load_here c hex v rest H1 H2 H3) as LA. change load_words with (str "Preferred load address is ") in LA. unfold t in H. rewrite LA in H. cbn [obind] in H. exact (base_kept uname usig after false d _ d' b' V H).
Qed.
Print Assumptions C99_base.
(* a map that nowhere has the words gives no load address *)
Theorem C99_no_base : forall uname usig file ls d d' b', lines file ls -> Forall no_base (map (firstn 4095) ls) -> ParseMSVCMapFile uname usig file d = Ok (d', b') -> b' = 0.
Proof.
  intros uname usig file ls d d' b' HL F H. rewrite (parse_lines uname usig _ _ d HL) in H. exact (no_base_lines uname usig _ false d d' b' F H).
Qed.
Print Assumptions C99_no_base.

(* any map that is read to an end: no function is lost, renamed or given another id, and addresses that are new are not 0 and have 32 bits *)
Theorem C99_functions : forall uname usig file d d' b', ParseMSVCMapFile uname usig file d = Ok (d', b') -> functions_kept d d'.
Proof.
  intros uname usig file d d' b' H. unfold ParseMSVCMapFile in H. destruct (ReadLines _ _) as [ls| | |]; cbn [obind] in H; try discriminate. exact (lines_kept uname usig ls false d 0 d' b' H).
Qed.
Print Assumptions C99_functions.
(* a symbol that is not marked f as a function's changes no address: behind the address there is nothing or something else *)
Theorem C99_data : forall uname usig d b0 segment b1 symbol b2 hex b3 more d' rest, Forall (fun c => c = 32) b0 -> blanks b1 -> blanks b2 -> Forall (fun c => c = 32) b3 ->
  word_of_line segment -> word_of_line symbol -> word_of_line hex -> (b3 = [] -> more = []) -> (forall c r, more = c :: r -> c <> 102 /\ c <> 32 /\ c <> 9) ->
  msvc_line uname usig d (b0 ++ segment ++ b1 ++ symbol ++ b2 ++ hex ++ b3 ++ more) = Ok (Some d', rest) -> addresses_same d d'.
Proof.
  intros uname usig d b0 seg b1 sym b2 hex b3 more d' rest B0 B1 B2 B3 WS WY WH M1 M2 H. rewrite (line_words uname usig d b0 seg b1 sym (b2 ++ hex ++ b3 ++ more) B0 B1 WS WY) in H by (destruct B2 as [N2 B2]; intros c t E; destruct b2 as [|x b2]; [congruence|]; injection E as <- _; inversion B2; auto).
  destruct (msvc_symbol uname usig d sym _) as [[d1|]| | |] eqn:E; cbn [obind] in H; try discriminate. injection H as -> _. destruct (symbol_exact uname usig d sym _ d' E) as (a & [S|A] & T); [exact S|].
  rewrite (no_flag b2 hex b3 more B2 B3 WH M1 M2) in A. injection A as <-. destruct T as [S|? ? X|? ? X|? ? ? ? X]; [exact S|congruence|congruence|congruence].
Qed.
Print Assumptions C99_data.

(* ---- a map ---- *)
Definition map_texts : list (list Z) := [str "void"; str "int"; str "unsigned int"; str "N::A"].
Lemma map_apart : told_apart map_texts.
Proof.
  split.
  - intros t H. cbn [map_texts In] in H. repeat (destruct H as [<-|H]; [split; [vm_compute; repeat (constructor; [split; reflexivity|]); constructor|]; split; [reflexivity|vm_compute; discriminate]|]). destruct H.
  - intros t u H K E. cbn [map_texts In] in H, K. repeat (destruct H as [<-|H]); try (destruct H); repeat (destruct K as [<-|K]); try (destruct K); try reflexivity; vm_compute in E; discriminate.
Qed.
Definition entry (n : list Z) (ps : list (list Z)) : Z * function := (hash32 n 0, mk_func (mk_prim (mk_name (hash32 n 0) n) noname) (id_of ps) 0).
Definition map_db : mapdb := mk_mapdb [] [entry (str "N::A::f") [str "N::A*"; str "int"]; entry (str "g") [str "unsigned int"; str "const N::A*"]] [] [].
Definition dbg_name (s : list Z) : list Z := if list_eqb s (str "?g@@YAHIPBUA@N@@@Z") then str "g" else str "N::A::f".
Definition dbg_signature (s : list Z) : list Z := if list_eqb s (str "?g@@YAHIPBUA@N@@@Z") then str "int __cdecl g(unsigned int,struct N::A const *)" else str "void __thiscall N::A::f(int)".
Definition map_lines : list (list Z) :=
  [str " test"; []; str " Preferred load address is 0000000000400000" ++ [13]; str " Start Length";
   str "  Address         Publics by Value              Rva+Base     Lib:Object"; [];
   str " 0001:00000000       ?g@@YAHIPBUA@N@@@Z         00401000 f   main.obj"; str " 0001:00000010       ?f@A@N@@QAEXH@Z    00401010 f   main.obj"].
Definition map_file : list Z := concat (map (fun l => l ++ [10]) map_lines).
Ltac all_bytes := vm_compute; repeat (constructor; [repeat split; discriminate || reflexivity|]); constructor.
Ltac row := repeat split; try discriminate; try all_bytes; try (vm_compute; repeat constructor).
Lemma map_words : forall s m r, StringReplace (S (length s)) s (str "struct ") [] = Ok m -> StringReplace (S (length m)) m (str "class ") [] = Ok r -> without_class_words s r.
Proof.
  intros s m r H1 H2. destruct (replace_ok (S (length s)) (str "struct ") [] s) as (x & E & R); [discriminate|lia|]. destruct (replace_ok (S (length m)) (str "class ") [] m) as (y & E' & R'); [discriminate|lia|]. exists m. split; congruence.
Qed.
Lemma first_check : forall s n k, string_find s n 0 = Some k -> forall a b, s = a ++ n ++ b -> (k <= length a)%nat.
Proof.
  intros s n k H a b E. destruct (Nat.le_gt_cases k (length a)) as [L|L]; [exact L|]. exfalso. apply string_find_some in H. destruct H as (x & y & Ex & -> & _ & M).
  assert (X : x = a ++ skipn (length a) x).
  { assert (Y : firstn (length a) (x ++ n ++ y) = firstn (length a) (a ++ n ++ b)) by congruence. rewrite (firstn_app_exact' Z a (n ++ b) (length a) eq_refl) in Y. rewrite firstn_app in Y. replace (length a - length x)%nat with 0%nat in Y by lia. cbn [firstn] in Y. rewrite app_nil_r in Y. rewrite <- Y at 1. symmetry. apply firstn_skipn. }
  specialize (M a (skipn (length a) x) X ltac:(lia)). assert (NE : skipn (length a) x <> []) by (intros Z0; apply (f_equal (@length _)) in Z0; rewrite skipn_length in Z0; cbn in Z0; lia). specialize (M NE).
  assert (Y : skipn (length a) x ++ n ++ y = n ++ b) by (apply (app_inv_head a); rewrite app_assoc, <- X, <- Ex, <- E; reflexivity). rewrite Y, is_prefix_app in M. discriminate.
Qed.
Lemma map_lines_of : forall ls, Forall (fun l => ~ In 10 l) ls -> lines (concat (map (fun l => l ++ [10]) ls)) ls.
Proof. induction 1 as [|l ls N _ IH]; [constructor; intros []|]. cbn [map concat]. rewrite <- app_assoc. cbn [app]. constructor; assumption. Qed.
Lemma absent_check : forall s pat, string_find s pat 0 = None -> forall a b, s <> a ++ pat ++ b.
Proof. intros s pat H a b E. pose proof (string_find_none _ _ _ H a b E). lia. Qed.
Lemma g_function : msvc_function dbg_name dbg_signature map_texts (str "?g@@YAHIPBUA@N@@@Z") (str "g") (id_of [str "unsigned int"; str "const N::A*"]).
Proof.
  apply (msvc_free dbg_name dbg_signature map_texts _ (mk_ctype false (str "int") false None) (str "__cdecl") (str "g") [mk_ctype true (str "int") false None; mk_ctype false (str "N::A") true (Some 42)] []).
  - reflexivity.
  - split; [vm_compute; repeat (constructor; [split; [split; reflexivity|intuition discriminate]|]); constructor|]. split; [discriminate|]. split; [reflexivity|]. split; intros r E; discriminate E.
  - split; [|split; [discriminate|split; [reflexivity|split; [vm_compute; tauto|auto]]]]. split; [vm_compute; repeat (constructor; [split; [split; reflexivity|intuition discriminate]|]); constructor|split; [vm_compute; intuition discriminate|split; vm_compute; discriminate]].
  - constructor; [|constructor; [|constructor]]; (split; [split; [|split; [discriminate|split; [reflexivity|split; [vm_compute; tauto|auto]]]]|vm_compute; discriminate]);
      (split; [vm_compute; repeat (constructor; [split; [split; reflexivity|intuition discriminate]|]); constructor|split; [vm_compute; intuition discriminate|split; vm_compute; discriminate]]).
  - eapply map_words; vm_compute; reflexivity.
  - apply first_check. vm_compute. reflexivity.
  - left. reflexivity.
Qed.
Lemma f_function : msvc_function dbg_name dbg_signature map_texts (str "?f@A@N@@QAEXH@Z") (str "N::A::f") (id_of [str "N::A*"; str "int"]).
Proof.
  apply (msvc_member dbg_name dbg_signature map_texts _ (mk_ctype false (str "void") false None) (str "N::A") (str "f") (str "N::A::f") [mk_ctype false (str "int") false None] []).
  - reflexivity.
  - reflexivity.
  - split; [vm_compute; repeat (constructor; [split; [split; reflexivity|intuition discriminate]|]); constructor|]. split; [discriminate|]. split; [reflexivity|]. split; intros r E; discriminate E.
  - split; [|split; [discriminate|split; [reflexivity|split; [vm_compute; tauto|auto]]]]. split; [vm_compute; repeat (constructor; [split; [split; reflexivity|intuition discriminate]|]); constructor|split; [vm_compute; intuition discriminate|split; vm_compute; discriminate]].
  - constructor; [|constructor]. split; [split; [|split; [discriminate|split; [reflexivity|split; [vm_compute; tauto|auto]]]]|vm_compute; discriminate].
      split; [vm_compute; repeat (constructor; [split; [split; reflexivity|intuition discriminate]|]); constructor|split; [vm_compute; intuition discriminate|split; vm_compute; discriminate]].
  - eapply map_words; vm_compute; reflexivity.
  - apply first_check. vm_compute. reflexivity.
  - vm_compute. intuition discriminate.
  - reflexivity.
  - vm_compute. tauto.
Qed.
Example C99_witness : exists names functions, ParseMSVCMapFile dbg_name dbg_signature map_file map_db = Ok (mk_mapdb names functions [] [], 4194304) /\ map (fun e => fn_address (snd e)) functions = [4198416; 4198400].
Proof.
  destruct (C99_map dbg_name dbg_signature map_texts map_file map_db [str " test"; []] (str " Preferred load address is 0000000000400000" ++ [13]) 4194304 [str " Start Length"]
    (str "  Address         Publics by Value              Rva+Base     Lib:Object") [] [str " 0001:00000000       ?g@@YAHIPBUA@N@@@Z         00401000 f   main.obj"; str " 0001:00000010       ?f@A@N@@QAEXH@Z    00401010 f   main.obj"]
    [(hash32 (str "g") 0, [id_of [str "unsigned int"; str "const N::A*"]], 4198400); (hash32 (str "N::A::f") 0, [id_of [str "N::A*"; str "int"]], 4198416)] map_apart) as (names & fns & E & _ & _ & G).
  - left. reflexivity.
  - split; [exact I|]. intros h x H. discriminate.
  - apply map_lines_of. repeat (constructor; [vm_compute; intuition discriminate|]). constructor.
  - vm_compute. repeat (constructor; [reflexivity|]). constructor.
  - repeat (constructor; [split; unfold no_base, no_heading; apply absent_check; vm_compute; reflexivity|]). constructor.
  - apply (a_base_line 32 (str "0000000000400000") [13] 4194304); [reflexivity|reflexivity|intros x r X; injection X as <- _; reflexivity|unfold no_base, no_heading; apply absent_check; vm_compute; reflexivity].
  - discriminate.
  - constructor; [unfold no_base, no_heading; apply absent_check; vm_compute; reflexivity|constructor].
  - exists [], (str "         Publics by Value              Rva+Base     Lib:Object"). reflexivity.
  - constructor; [|constructor; [|constructor]].
    + exists (str "?g@@YAHIPBUA@N@@@Z"), 4198400, (str "g"). eexists. split; [|split; [exact g_function|split; [discriminate|reflexivity]]].
      apply (a_symbol_row [32] (str "0001:00000000") (str "       ") (str "?g@@YAHIPBUA@N@@@Z") (str "         ") (str "00401000") [32] (str "   main.obj") 4198400); row.
    + exists (str "?f@A@N@@QAEXH@Z"), 4198416, (str "N::A::f"). eexists. split; [|split; [exact f_function|split; [discriminate|reflexivity]]].
      apply (a_symbol_row [32] (str "0001:00000010") (str "       ") (str "?f@A@N@@QAEXH@Z") (str "    ") (str "00401010") [32] (str "   main.obj") 4198416); row.
  - exists names, fns. change (4194304 mod 2 ^ 64) with 4194304 in E. split; [exact E|]. assert (X : match ParseMSVCMapFile dbg_name dbg_signature map_file map_db with Ok (d', _) => map (fun e => fn_address (snd e)) (d_functions d') | _ => [] end = [4198416; 4198400]) by (vm_compute; reflexivity). rewrite E in X. exact X.
Qed.

(* ---- findings ---- *)
Definition map_of (base address : list Z) : list Z :=
  concat (map (fun l => l ++ [10]) [str " Preferred load address is " ++ base ++ [13]; str "  Address"; []; str " 0001:00000000       ?f       " ++ address ++ str " f   main.obj"]).
Definition addresses (signature : list Z) (ps : list (list Z)) (base address : list Z) : outcome (list Z * Z) :=
  match ParseMSVCMapFile (fun _ => str "A::f") (fun _ => signature) (map_of base address) (mk_mapdb [] [entry (str "A::f") ps] [] []) with
  | Ok (d, b) => Ok (map (fun e => fn_address (snd e)) (d_functions d), b) | Trap => Trap | UB => UB | Fuel => Fuel end.
(* Finding: addresses of functions are cut to 32 bits although the load address is not: in a 64-bit image they fall below it *)
Theorem C99_address_refuted : addresses (str "void __cdecl A::f(int)") [str "int"] (str "0000000140000000") (str "0000000140001000") = Ok ([1073745920], 5368709120).
Proof. vm_compute. reflexivity. Qed.
Print Assumptions C99_address_refuted.
(* Finding: const member functions get no address, nor do member functions that return something const *)
Theorem C99_const_refuted :
  addresses (str "void __thiscall A::f(int)") [str "A*"; str "int"] (str "400000") (str "401000") = Ok ([4198400], 4194304) /\
  addresses (str "void __thiscall A::f(int)const ") [str "const A*"; str "int"] (str "400000") (str "401000") = Ok ([0], 4194304) /\
  addresses (str "A const * __thiscall A::f(int)") [str "A*"; str "int"] (str "400000") (str "401000") = Ok ([0], 4194304) /\
  addresses (str "A const * __thiscall A::f(int)") [str "const A*"; str "int"] (str "400000") (str "401000") = Ok ([4198400], 4194304).
Proof. repeat split; vm_compute; reflexivity. Qed.
Print Assumptions C99_const_refuted.
(* Finding: a symbol of 1024 characters or more, which C++ symbols may be, is written past the end of an array *)
Theorem C99_long_refuted : forall uname usig d b0 segment b1 symbol rest, Forall (fun c => c = 32) b0 -> blanks b1 -> word_of_line segment ->
  Forall (fun c => 0 < c < 256 /\ c <> 32 /\ c <> 9) symbol -> 1024 <= zlen symbol -> msvc_line uname usig d (b0 ++ segment ++ b1 ++ symbol ++ rest) = UB.
Proof.
  intros uname usig d b0 seg b1 sym rest B0 [N1 B1] (NS & WS & LS) WY LY. unfold msvc_line.
  assert (SP : forall b, Forall (fun c => c = 32) b -> Forall (fun c => c = 32 \/ c = 9) b) by (intros b G; eapply Forall_impl; [|exact G]; intros c ->; auto).
  rewrite (skip_blanks b0); [|exact (SP _ B0)|intros c t E; destruct seg as [|x seg]; [congruence|]; injection E as <- _; inversion WS as [|? ? X _]; cbn beta in X; lia].
  rewrite take_ok; [|eapply Forall_impl; [|exact WS]; intros c C; cbn beta in C; lia|intros c t E; destruct b1 as [|x b1]; [congruence|]; injection E as <- _; inversion B1; auto|exact LS]. cbn [obind fst snd].
  rewrite (skip_blanks b1); [|exact (SP _ B1)|intros c t E; destruct sym as [|x sym]; [rewrite zlen_nil in LY; lia|]; injection E as <- _; inversion WY as [|? ? X _]; cbn beta in X; lia].
  rewrite take_long; [reflexivity|eapply Forall_impl; [|exact WY]; intros c C; cbn beta in C; lia|lia].
Qed.
Print Assumptions C99_long_refuted.
