(* C40: attributes written in source text *)
From Coq Require Import String.
From Verif Require Import Base BaseProofs Text HashModel HashSpec Maps DatabaseModel FileUtilsSpec NamesProofs AttrModel AttrSpec AttrProofs.
Local Open Scope list_scope.

(* the text of a list of attributes gives these attributes, in that order *)
Theorem C40_as_written : forall sf m ds text rest, name_table m -> c_string text -> written ds text -> usable m ds ->
  exists attrs m', ParseAttributes sf m (text ++ 0 :: rest) = Ok (attrs, m') /\ Forall2 (means sf m') ds attrs /\ name_table m' /\ extends m m'.
Proof. exact parse_written. Qed.
Print Assumptions C40_as_written.

(* a text that does not split in tokens gives none *)
Theorem C40_unlexed : forall sf m text rest, c_string text -> (forall ts, ~ lexes text ts) -> ParseAttributes sf m (text ++ 0 :: rest) = Ok ([], m).
Proof. exact parse_unlexed. Qed.
Print Assumptions C40_unlexed.

(* so does a text without tokens *)
Theorem C40_blank : forall sf m text rest, c_string text -> lexes text [] -> ParseAttributes sf m (text ++ 0 :: rest) = Ok ([], m).
Proof. exact parse_empty. Qed.
Print Assumptions C40_blank.

(* any other text gives the attributes of the definitions it starts with, unless a comma is its last token:
   only then is something read past the tokens *)
Theorem C40_any_tokens : forall sf m text ts ds e rest, name_table m -> c_string text -> lexes text ts -> ts <> [] -> reads ts ds e -> usable m ds ->
  match e with
  | Past => ParseAttributes sf m (text ++ 0 :: rest) = UB
  | Fine => exists attrs m', ParseAttributes sf m (text ++ 0 :: rest) = Ok (attrs, m') /\
              Forall2 (means sf m') ds attrs /\ name_table m' /\ extends m m'
  end.
Proof. exact parse_reads. Qed.
Print Assumptions C40_any_tokens.

(* these are all the texts there are *)
Theorem C40_every_text : forall text, c_string text ->
  (forall ts, ~ lexes text ts) \/ lexes text [] \/ exists ts ds e, lexes text ts /\ ts <> [] /\ reads ts ds e.
Proof. exact parse_cases. Qed.
Print Assumptions C40_every_text.

(* a text splits in tokens in one way at most *)
Theorem C40_tokens_unique : forall text ts ts', c_string text -> lexes text ts -> lexes text ts' -> ts = ts'.
Proof. intros text ts ts' Hc. exact (lexes_unique text ts ts' (c_string_no0 text Hc)). Qed.
Print Assumptions C40_tokens_unique.

(* findings: a trailing comma makes the parser read past its tokens, and a capital X makes a hexadecimal
   number read as zero *)
Theorem C40_trailing_comma_refuted : forall sf, ParseAttributes sf [] (str "flag, other, " ++ [0]) = UB.
Proof. intros sf. vm_compute. reflexivity. Qed.
Print Assumptions C40_trailing_comma_refuted.
Theorem C40_capital_x_refuted : forall sf,
  exists n m, ParseAttributes sf [] (str "mask = 0X12" ++ [0]) = Ok ([IntAttr n 0], m).
Proof. intros sf. do 2 eexists. vm_compute. reflexivity. Qed.
Print Assumptions C40_capital_x_refuted.

(* non-vacuity: one attribute of each kind *)
Definition ex_defs : list def :=
  [(str "flag", NoValue); (str "count", IntValue (str "12")); (str "mask", HexValue (str "0xFf"));
   (str "weight", FloatValue (str "1.5")); (str "of", SymbolValue (str "ns::T")); (str "note", StringValue (str "a, b"))].
Definition ex_text : list Z := str "flag, count = 12 ,mask=0xFf," ++ str "weight=1.5," ++ str "of = ns::T," ++ (9 :: str "note=") ++ 34 :: str "a, b" ++ [34].
Ltac chars := unfold symbol, spaces, sym_char, letter, digit, space, hexdigit, c_string in *;
  match goal with |- Forall ?P ?l => let v := eval vm_compute in l in change (Forall P v) end;
  repeat (first [apply Forall_nil | apply Forall_cons; [unfold digit; lia|]]).
Ltac sym := eexists; eexists; split; [vm_compute; reflexivity|]; split; [unfold letter; lia|chars].
Example ex_written : written ex_defs ex_text.
Proof.
  unfold ex_defs.
  refine (w_more [] (str "flag", NoValue) (str "flag" ++ []) _ (str " count = 12 ,mask=0xFf," ++ str "weight=1.5," ++ str "of = ns::T," ++ (9 :: str "note=") ++ 34 :: str "a, b" ++ [34]) _ _ _).
  { chars. } { apply dt_flag; [sym|chars]. }
  refine (w_more [32] _ (str "count" ++ [32] ++ 61 :: [32] ++ str "12" ++ [32]) _ (str "mask=0xFf," ++ str "weight=1.5," ++ str "of = ns::T," ++ (9 :: str "note=") ++ 34 :: str "a, b" ++ [34]) _ _ _).
  { chars. } { apply dt_value; [sym|chars|chars|chars|]. apply vt_int. split; [do 2 eexists; split; [vm_compute; reflexivity|unfold digit; lia]|apply nk_int; chars]. }
  refine (w_more [] _ (str "mask" ++ [] ++ 61 :: [] ++ str "0xFf" ++ []) _ (str "weight=1.5," ++ str "of = ns::T," ++ (9 :: str "note=") ++ 34 :: str "a, b" ++ [34]) _ _ _).
  { chars. } { apply dt_value; [sym|chars|chars|chars|]. apply vt_hex. split; [do 2 eexists; split; [vm_compute; reflexivity|unfold digit; lia]|].
    apply (nk_hex (str "0") 120 (str "Ff")); [chars|left; reflexivity|chars]. }
  refine (w_more [] _ (str "weight" ++ [] ++ 61 :: [] ++ str "1.5" ++ []) _ (str "of = ns::T," ++ (9 :: str "note=") ++ 34 :: str "a, b" ++ [34]) _ _ _).
  { chars. } { apply dt_value; [sym|chars|chars|chars|]. apply vt_float. split; [do 2 eexists; split; [vm_compute; reflexivity|unfold digit; lia]|].
    apply (nk_float (str "1") (str "5")); chars. }
  refine (w_more [] _ (str "of" ++ [32] ++ 61 :: [32] ++ str "ns::T" ++ []) _ ((9 :: str "note=") ++ 34 :: str "a, b" ++ [34]) _ _ _).
  { chars. } { apply dt_value; [sym|chars|chars|chars|]. apply vt_symbol. sym. }
  refine (w_one [9] _ (str "note" ++ [] ++ 61 :: [] ++ (34 :: str "a, b" ++ [34]) ++ []) _ _).
  { chars. } { apply dt_value; [sym|chars|chars|chars|]. apply vt_string; [vm_compute; lia|chars]. }
Qed.
Definition ex_hashes : list Z := Eval vm_compute in map (fun s => hash32 s 0) (flat_map def_names ex_defs).
Lemma distinct_hashes : forall l, NoDup (map (fun s => hash32 s 0) l) -> forall s t, In s l -> In t l -> hash32 s 0 = hash32 t 0 -> s = t.
Proof.
  induction l as [|a l IH]; cbn; intros Hn s t Hs Ht E; [destruct Hs|]. inversion Hn as [|? ? Ha Hn']; subst.
  destruct Hs as [->|Hs], Ht as [->|Ht]; [reflexivity| | |apply IH; assumption].
  - exfalso. apply Ha. rewrite E. apply (in_map (fun s => hash32 s 0)). exact Ht.
  - exfalso. apply Ha. rewrite <- E. apply (in_map (fun s => hash32 s 0)). exact Hs.
Qed.
Example ex_usable : usable [] ex_defs.
Proof.
  assert (E : map (fun s => hash32 s 0) (flat_map def_names ex_defs) = ex_hashes) by (vm_compute; reflexivity).
  split; [split|].
  - intros s Hs. split; [|discriminate]. apply (in_map (fun s => hash32 s 0)) in Hs. rewrite E in Hs. intros H. rewrite H in Hs. cbv in Hs. intuition discriminate.
  - apply distinct_hashes. rewrite E. unfold ex_hashes. repeat (apply NoDup_cons; [cbv; intuition discriminate|]). apply NoDup_nil.
  - repeat (apply Forall_cons; [cbn [snd value_ok]|]); try apply Forall_nil; try exact I.
    + exists (str "12"), [], 12. repeat split; lia.
    + intros a h Ha H. vm_compute in H. congruence.
Qed.
Example ex_c_string : c_string ex_text. Proof. unfold ex_text. chars. Qed.
Example ex_parsed : exists attrs m', ParseAttributes (fun _ => 0) [] (ex_text ++ [0]) = Ok (attrs, m') /\ Forall2 (means (fun _ => 0) m') ex_defs attrs.
Proof.
  destruct (C40_as_written (fun _ => 0) [] ex_defs ex_text [] ltac:(split; [constructor|discriminate]) ex_c_string ex_written ex_usable) as [a [m' [H [H' _]]]].
  exists a, m'. split; assumption.
Qed.
Example ex_parsed_length : exists a m, ParseAttributes (fun _ => 0) [] (ex_text ++ [0]) = Ok (a, m) /\ length a = 6%nat /\ length m = 7%nat.
Proof. do 2 eexists. vm_compute. repeat split; reflexivity. Qed.
(* texts that do not lex, and that stop being definitions *)
Example ex_bad_character : forall sf, ParseAttributes sf [] (str "count = -1" ++ [0]) = Ok ([], []).
Proof. intros. vm_compute. reflexivity. Qed.
