(* Reading function addresses out of a linker map: src/clReflectExport/MapFileParser.cpp, the parts shared by all
   compilers and those for GCC and clang. The MSVC reader (384-542) is in MsvcModel.v.
   Texts are C strings without their terminator. Log calls are left out. *)
From Verif Require Import Base Text HashModel Maps FileUtilsModel DatabaseModel.

(* the tables of cldb::Database that are read or changed here. A GetTypeFunctions entry (Database.h:552-557) is
   (get_typename_address, get_type_address), two u32 *)
Record mapdb := mk_mapdb { d_names : zmap name; d_functions : zmap function; d_fields : zmap field; d_gettype : zmap (Z * Z) }.
Definition set_names (n : zmap name) (d : mapdb) : mapdb := mk_mapdb n (d_functions d) (d_fields d) (d_gettype d).
Definition db_GetName (d : mapdb) (t : list Z) : outcome (name * mapdb) :=
  do x <- GetName (d_names d) (Some t); Ok (fst x, set_names (snd x) d).

(* std::string::rfind: the last position, at most limit (None: no limit), where pat occurs *)
Fixpoint rfind_from (s pat : list Z) (pos : nat) (limit : option nat) : option nat :=
  let here := if is_prefix pat s && match limit with None => true | Some l => (pos <=? l)%nat end then Some pos else None in
  match s with
  | [] => here
  | _ :: r => match rfind_from r pat (S pos) limit with Some p => Some p | None => here end
  end.
Definition string_rfind (s pat : list Z) (limit : option nat) : option nat := rfind_from s pat 0 limit.

(* MapFileParser.cpp:38-47 ConsumeParameterToken: the characters up to the first that ends a token, and the rest *)
Definition ends_token (c : Z) : bool := (c =? 32) || (c =? 44) || (c =? 41) || (c =? 60) || (c =? 62).
Fixpoint span_token (text : list Z) : list Z * list Z :=
  match text with
  | [] => ([], [])
  | c :: r => if ends_token c then ([], text) else let '(t, u) := span_token r in (c :: t, u)
  end.
(* dest has dest_size bytes and is terminated behind them when it fills up *)
Definition ConsumeParameterToken (text : list Z) (dest_size : Z) : outcome (list Z * list Z) :=
  let '(t, u) := span_token text in
  if dest_size <=? zlen t then UB else Ok (t, u).

(* strcat into type_name[1024] *)
Definition strcat (a b : list Z) : outcome (list Z) := if 1024 <=? zlen a + zlen b then UB else Ok (a ++ b).

(* MapFileParser.cpp:56-59 *)
Definition skip_tokens : list (list Z) :=
  [str "__cdecl"; str "__stdcall"; str "__fastcall"; str "struct"; str "class"; str "enum"].

(* MapFileParser.cpp:74-127: what one token does to the parameter; state: type_name, qualifier, is_this_call *)
Definition match_token (token type_name : list Z) (q : qualifier) (this : bool) : outcome (list Z * qualifier * bool) :=
  let first := match token with c :: _ => c | [] => 0 end in
  if first =? 38 then Ok (type_name, mk_qual REFERENCE (q_const q), this)
  else if first =? 42 then Ok (type_name, mk_qual POINTER (q_const q), this)
  else if list_eqb token (str "const") then Ok (type_name, mk_qual (q_op q) true, this)
  else if list_eqb token (str "__thiscall") then Ok (type_name, q, true)
  else if list_eqb token (str "unsigned") || list_eqb token (str "signed") then
    do t <- strcat type_name token; do t <- strcat t (str " "); Ok (t, q, this)
  else if list_eqb token (str "__int64") then do t <- strcat type_name (str "long long"); Ok (t, q, this)
  else if existsb (list_eqb token) skip_tokens then Ok (type_name, q, this)
  else do t <- strcat type_name token; Ok (t, q, this).

(* MapFileParser.cpp:68-144: the loop. text is what ptr points at, stop the length of what end points at *)
Fixpoint match_loop (fuel : nat) (text : list Z) (stop : nat) (type_name : list Z) (q : qualifier) (this : bool)
  : outcome (list Z * qualifier * bool * list Z) :=
  match fuel with
  | O => Fuel
  | S n =>
      if (stop <? length text)%nat then
        do x <- ConsumeParameterToken text 1024;
        let '(token, rest) := x in
        let rest := SkipWhitespace rest in
        do y <- match_token token type_name q this;
        let '(type_name, q, this) := y in
        do z <- match rest with
                | c :: r => if (c =? 60) || (c =? 62) then do t <- strcat type_name [c]; Ok (t, r) else Ok (type_name, rest)
                | [] => Ok (type_name, rest)
                end;
        let '(type_name, rest) := z in
        match rest with
        | c :: r => if (c =? 44) || (c =? 41) then Ok (type_name, q, this, r) else match_loop n rest stop type_name q this
        | [] => match_loop n rest stop type_name q this
        end
      else Ok (type_name, q, this, text)
  end.
(* MapFileParser.cpp:49-148 MatchParameter: the parameter, is_this_call and the rest of the text *)
Definition MatchParameter (d : mapdb) (text : list Z) (stop : nat) : outcome (field * bool * list Z * mapdb) :=
  do x <- match_loop (S (length text)) text stop [] (mk_qual VALUE false) false;
  let '(type_name, q, this, rest) := x in
  do y <- db_GetName d type_name;
  Ok (mk_field (mk_prim noname noname) (fst y) q (-1) 0, this, rest, snd y).

(* MapFileParser.cpp:150-153 *)
Definition IsVoidParameter (f : field) : bool := qop_eqb (q_op (f_qual f)) VALUE && list_eqb (n_text (f_type f)) (str "void").

(* MapFileParser.cpp:155-173 *)
Definition IsConstructFunction (n : list Z) : bool := startswith n (str "clcppConstructObject").
Definition IsDestructFunction (n : list Z) : bool := startswith n (str "clcppDestructObject").
Definition IsGetTypeNameHashFunction (n : list Z) : bool := startswith n (str "clcpp::GetTypeNameHash<").
Definition IsGetTypeFunction (n : list Z) : bool := startswith n (str "clcpp::GetType<").

(* MapFileParser.cpp:228-236: the parameters of a signature *)
Fixpoint parameters_loop (fuel : nat) (d : mapdb) (text : list Z) (stop : nat) (acc : list field) : outcome (list field * mapdb) :=
  match fuel with
  | O => Fuel
  | S n =>
      if (stop <? length text)%nat then
        do x <- MatchParameter d text stop;
        let '(p, _, rest, d) := x in
        parameters_loop n d rest stop (if IsVoidParameter p then acc else acc ++ [p])
      else Ok (acc, d)
  end.

(* MapFileParser.cpp:241-255: the first function with this name's hash and this unique id gets the address *)
Fixpoint set_address (hash uid address : Z) (m : zmap function) : option (zmap function) :=
  match m with
  | [] => None
  | (k, f) :: r =>
      if (k =? hash) && (fn_uid f =? uid) then Some ((k, mk_func (fn_prim f) (fn_uid f) address) :: r)
      else match set_address hash uid address r with Some r' => Some ((k, f) :: r') | None => None end
  end.

(* MapFileParser.cpp:175-256 *)
Definition AddFunctionAddress (d : mapdb) (function_name function_signature : list Z) (function_address : Z)
  (is_this_call is_const : bool) : outcome (bool * mapdb) :=
  if function_address =? 0 then Ok (false, d)
  else match string_find function_signature function_name 0 with
  | None => Ok (false, d)
  | Some func_pos =>
  match string_find function_signature (str "(") func_pos with
  | None => Ok (false, d)
  | Some l_pos =>
  match string_find function_signature (str ")") l_pos with
  | None => Ok (false, d)
  | Some r_pos =>
      do this <- (if is_this_call then
                    match string_rfind function_name (str "::") None with
                    | None => Ok None
                    | Some rsep =>
                        if 1024 <=? Z.of_nat rsep then UB
                        else do x <- db_GetName d (firstn rsep function_name);
                             Ok (Some ([mk_field (mk_prim noname noname) (fst x) (mk_qual POINTER is_const) (-1) 0], snd x))
                    end
                  else Ok (Some ([], d)));
      match this with
      | None => Ok (false, d)
      | Some (ps, d) =>
          let text := skipn (l_pos + 1) function_signature in
          let stop := (length function_signature - r_pos)%nat in
          do x <- parameters_loop (S (length text)) d text stop ps;
          let '(ps, d) := x in
          do uid <- CalculateFunctionUniqueID ps;
          do hash <- HashNameString (function_name ++ [0]) 0;
          match set_address hash uid function_address (d_functions d) with
          | Some m => Ok (true, mk_mapdb (d_names d) m (d_fields d) (d_gettype d))
          | None => Ok (false, d)
          end
      end
  end end end.

(* MapFileParser.cpp:258-267; sizeof counts the terminator, where the literals have a space *)
Definition SkipTypePrefix (text : list Z) (pos : nat) : nat :=
  let pos := if is_prefix (str "struct ") (skipn pos text) then (pos + 7)%nat else pos in
  let pos := if is_prefix (str "class ") (skipn pos text) then (pos + 6)%nat else pos in
  if is_prefix (str "enum ") (skipn pos text) then (pos + 5)%nat else pos.

(* MapFileParser.cpp:269-309; the addresses are stored in 32 bits *)
Definition AddGetTypeAddress (d : mapdb) (function_name : list Z) (function_address : Z) (is_get_type : bool) : outcome mapdb :=
  if function_address =? 0 then Ok d
  else match string_find function_name (str "<") 0 with
  | None => Ok d
  | Some pos =>
      let pos := SkipTypePrefix function_name (pos + 1) in
      match string_find function_name (str ">") pos with
      | None => Ok d
      | Some end_pos =>
          do x <- db_GetName d (firstn (end_pos - pos) (skipn pos function_name));
          let '(n, d) := x in
          if n_hash n =? 0 then Ok d
          else let old := match m_find (n_hash n) (d_gettype d) with Some e => e | None => (0, 0) end in
               let new := if is_get_type then (fst old, u32 function_address) else (u32 function_address, snd old) in
               Ok (mk_mapdb (d_names d) (d_functions d) (d_fields d) (m_set (n_hash n) new (d_gettype d)))
      end
  end.

(* MapFileParser.cpp:337-338: back over spaces and stars; before the first character is undefined behaviour *)
Fixpoint back_up (s : list Z) (pos : nat) : outcome nat :=
  match nth_error s pos with
  | Some c => if (c =? 32) || (c =? 42) then match pos with S p => back_up s p | O => UB end else Ok pos
  | None => Ok pos            (* the terminator is neither *)
  end.
(* MapFileParser.cpp:311-382 *)
Definition AddClassImplFunction (d : mapdb) (function_signature : list Z) (function_address : Z) (is_constructor : bool) : outcome mapdb :=
  if function_address =? 0 then Ok d
  else match string_find function_signature (str "(") 0 with
  | None => Ok d
  | Some pos =>
      let pos := SkipTypePrefix function_signature (pos + 1) in
      match string_find function_signature (str "*") pos with
      | None => Ok d
      | Some end_pos =>
          do end_pos <- back_up function_signature end_pos;
          let type_str := firstn (S end_pos - pos) (skipn pos function_signature) in
          do x <- db_GetName d type_str;
          let '(type_name, d) := x in
          do x <- db_GetName d (str "this");
          let '(this_name, d) := x in
          do x <- db_GetName d (type_str ++ str "::" ++ (if is_constructor then str "ConstructObject" else str "DestructObject"));
          let '(func_name, d) := x in
          let parameter := mk_field (mk_prim this_name func_name) type_name (mk_qual POINTER false) 0 0 in
          do uid <- CalculateFunctionUniqueID [parameter];
          let parameter := mk_field (mk_prim this_name func_name) type_name (mk_qual POINTER false) 0 uid in
          do fields <- db_add this_name parameter (d_fields d);
          do functions <- db_add func_name (mk_func (mk_prim func_name type_name) uid function_address) (d_functions d);
          Ok (mk_mapdb (d_names d) functions fields (d_gettype d))
      end
  end.

(* MapFileParser.cpp:550-561 FindRandomString: rnd k is the k-th digit rand() gives *)
Fixpoint find_random (fuel : nat) (rnd : nat -> Z) (k : nat) (signature res : list Z) : outcome (list Z) :=
  match fuel with
  | O => Fuel
  | S n => match string_find signature res 0 with
           | Some _ => find_random n rnd (S k) signature (res ++ [48 + rnd k])
           | None => Ok res
           end
  end.
Definition FindRandomString (rnd : nat -> Z) (signature : list Z) : outcome (list Z) :=
  find_random (S (length signature)) rnd 0 signature (str "r?An_D").

(* MapFileParser.cpp:569-581 *)
Fixpoint replace_all (fuel : nat) (s src dst : list Z) (start_pos : nat) : outcome (list Z) :=
  match fuel with
  | O => Fuel
  | S n => match string_find s src start_pos with
           | None => Ok s
           | Some p => replace_all n (firstn p s ++ dst ++ skipn (p + length src) s) src dst (p + length dst)
           end
  end.
Definition ReplaceAll (s src dst : list Z) : outcome (list Z) := replace_all (S (length s)) s src dst 0.

(* MapFileParser.cpp:583-591; the stack's top is the head of the list *)
Definition ReplaceOccurence (signature : list Z) (stack : list (list Z * list Z)) (base original : list Z)
  : outcome (list Z * list (list Z * list Z)) :=
  let replaced := base ++ itoa (zlen stack) in
  do s <- ReplaceAll signature original replaced;
  Ok (s, (original, replaced) :: stack).

(* MapFileParser.cpp:593-615; limit is end_pos, None for npos *)
Fixpoint replace_pattern (fuel : nat) (signature : list Z) (stack : list (list Z * list Z)) (base left right : list Z) (limit : option nat)
  : outcome (list Z * list (list Z * list Z)) :=
  match fuel with
  | O => Fuel
  | S n =>
      match string_rfind signature left limit with
      | None => Ok (signature, stack)
      | Some find_pos =>
          match string_find signature right (find_pos + length left) with
          | None => Ok (signature, stack)
          | Some closing_pos =>
              do x <- ReplaceOccurence signature stack base (firstn (closing_pos + length right - find_pos) (skipn find_pos signature));
              replace_pattern n (fst x) (snd x) base left right (match find_pos with O => None | S p => Some p end)
          end
      end
  end.
Definition ReplacePattern (signature : list Z) (stack : list (list Z * list Z)) (base left right : list Z)
  : outcome (list Z * list (list Z * list Z)) :=
  replace_pattern (S (length signature)) signature stack base left right None.

(* MapFileParser.cpp:617-628 *)
Fixpoint RestoreReplacedString (s : list Z) (stack : list (list Z * list Z)) : outcome (list Z) :=
  match stack with
  | [] => Ok s
  | (original, replaced) :: r => do s' <- ReplaceAll s replaced original; RestoreReplacedString s' r
  end.

(* MapFileParser.cpp:656-684: the name in a signature without template arguments *)
Definition cut_name (signature : list Z) : list Z :=
  let parenth_pos := match string_find signature (str "(") 0 with Some p => p | None => S (length signature) end in
  let start := match string_rfind signature (str " ") (Some parenth_pos) with None => 0%nat | Some p => S p end in
  let start := if (9 <=? start)%nat && list_eqb (firstn 9 (skipn (start - 9) signature)) (str "operator ") then (start - 9)%nat else start in
  firstn (parenth_pos - start) (skipn start signature).

(* MapFileParser.cpp:630-686 *)
Definition ParseFunctionName (rnd : nat -> Z) (signature : list Z) : outcome (list Z) :=
  do base <- FindRandomString rnd signature;
  do x <- ReplaceOccurence signature [] base (str "(anonymous namespace)");
  do x <- ReplacePattern (fst x) (snd x) base (str "&(") (str "))");
  do x <- ReplacePattern (fst x) (snd x) base (str "(*)(") (str ")");
  do x <- ReplacePattern (fst x) (snd x) base (str "<") (str ">");
  RestoreReplacedString (cut_name (fst x)) (snd x).

(* MapFileParser.cpp:688-745 *)
Definition ProcessFunctionItem (rnd : nat -> Z) (d : mapdb) (function_signature : list Z) (function_address : Z) : outcome mapdb :=
  do function_name <- ParseFunctionName rnd function_signature;
  if zlen function_name =? 0 then Ok d
  else if IsConstructFunction function_name then AddClassImplFunction d function_signature function_address true
  else if IsDestructFunction function_name then AddClassImplFunction d function_signature function_address false
  else if IsGetTypeFunction function_name then AddGetTypeAddress d function_name function_address true
  else if IsGetTypeNameHashFunction function_name then AddGetTypeAddress d function_name function_address false
  else
    do hash <- HashNameString (function_name ++ [0]) 0;
    match m_find hash (d_functions d) with
    | None => Ok d
    | Some _ =>
        (* npos and size() - 5 are compared modulo 2^64 *)
        let const_pos := match string_rfind function_signature (str "const") None with Some p => Z.of_nat p | None => 2 ^ 64 - 1 end in
        let is_const := const_pos =? u64 (zlen function_signature - 5) in
        do x <- AddFunctionAddress d function_name function_signature function_address true is_const;
        if fst x then Ok (snd x)
        else do y <- AddFunctionAddress (snd x) function_name function_signature function_address false is_const; Ok (snd y)
    end.

(* MapFileParser.cpp:816-856, the GNU ld map. sscanf and __cxa_demangle belong to the C and C++ libraries:
   scan_symbol line is what sscanf(line, "" 0x%llX %s"") gives when both conversions succeed, scan_text the same for
   the "".text"" line, demangle the signature if the status is 0. signature_buffer has 1024 bytes *)
Section Linux.
Variables (scan_symbol : list Z -> option (Z * list Z)) (scan_text : list Z -> option Z) (demangle : list Z -> option (list Z)).
Variable rnd : nat -> nat -> Z.           (* the digits rand() gives while line n is read *)
Definition has (s pat : list Z) : bool := match string_find s pat 0 with Some _ => true | None => false end.
Definition symbol_line (rnd : nat -> Z) (d : mapdb) (line : list Z) : outcome mapdb :=
  match scan_symbol line with
  | None => Ok d
  | Some (address, symbol) =>
      if 1024 <=? zlen symbol then UB
      else match symbol with
           | c :: _ => if c =? 95 then
                         match demangle symbol with
                         | None => Ok d
                         | Some signature => if has signature (str " for ") then Ok d else ProcessFunctionItem rnd d signature address
                         end
                       else Ok d
           | [] => Ok d
           end
  end.
Fixpoint linux_lines (n : nat) (ls : list (list Z)) (text_region : bool) (d : mapdb) (base_address : Z) : outcome (mapdb * Z) :=
  match ls with
  | [] => Ok (d, base_address)
  | line :: r =>
      if text_region then do d <- symbol_line (rnd n) d line; linux_lines (S n) r true d base_address
      else if startswith line (str ".text") then
        match scan_text line with
        | Some address => linux_lines (S n) r true d address
        | None => linux_lines (S n) r false d base_address
        end
      else linux_lines (S n) r false d base_address
  end.
(* MapFileParser.cpp:858-881, for a file that starts as GNU ld's maps do; other first lines are reported (or are Mac
   maps, see MacModel.v). An empty file hands null to strstr *)
Definition ParseGCCMapFile (file : list Z) (d : mapdb) : outcome (mapdb * Z) :=
  match ReadLine file with
  | (None, _) => UB
  | (Some first, rest) =>
      if startswith first (str "Archive member included because of file (symbol)") then
        do ls <- ReadLines (S (length rest)) rest;
        linux_lines 0 ls false d 0
      else Ok (d, 0)
  end.
End Linux.
