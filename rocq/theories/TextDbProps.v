(* C37, C38: text databases *)
From Verif Require Import Base BaseProofs Text HashModel HashSpec Maps DatabaseModel FileUtilsModel FileUtilsSpec FileUtilsProofs BinarySpec BinaryProps TextDbModel TextDbSpec TextDbProofs.

(* The file that is written is recognised and read back as text_stored says, even with an unfinished
   last line after it. *)
Theorem C37_round_trip : forall pf sf db, text_storable pf db ->
  exists file, WriteTextDatabase pf db = Ok file /\ forall rest,
    IsTextDatabase (Some (file ++ rest)) = Ok true /\
    (lines rest [] -> ReadTextDatabase sf (Some (file ++ rest)) db_empty = Ok (Some (text_stored pf sf db))).
Proof. exact text_round_trip. Qed.
Print Assumptions C37_round_trip.
(* databases with numbers in range come back unchanged *)
Theorem C37_exact : forall pf sf db, text_storable pf db -> text_exact pf sf db ->
  exists file, WriteTextDatabase pf db = Ok file /\ ReadTextDatabase sf (Some file) db_empty = Ok (Some db).
Proof.
  intros pf sf db H1 H2. destruct (text_round_trip pf sf db H1) as [file [Hw Hr]]. exists file. split; [exact Hw|].
  destruct (Hr []) as [_ H]. rewrite app_nil_r in H. rewrite H by (constructor; intros []). rewrite text_exact_ok by assumption. reflexivity.
Qed.
Print Assumptions C37_exact.
(* reading ends for every file *)
Theorem C37_reading_ends : forall sf file d, IsTextDatabase file <> Fuel /\ ReadTextDatabase sf file d <> Fuel.
Proof. exact reader_terminates. Qed.
Print Assumptions C37_reading_ends.

(* an example database: that of C39, and one with every table in range *)
Definition ex_pf (v : Z) : list Z := str "1.500000".
Definition ex_sf (s : list Z) : Z := 1069547520.
Definition ex_text (ints : Z) (sz : Z) (t : string) : database :=
  let N := nm ex_names in
  let P a b := mk_prim (N a) (N b) in
  mk_db ex_names
    (sort_in p_name [mk_prim (N "n"%string) noname])
    (sort_in (fun t => p_name (t_prim t)) [mk_type (mk_prim (N "int"%string) noname) 4])
    (sort_in p_name [P "n::T" "n"]%string)
    (sort_in (fun t => p_name (tt_prim t)) [mk_ttype (P "n::T<int>" "n::T")%string 24 [N "int"%string; N "n::C"%string; noname; noname] [false; true; false; false]])
    (sort_in (fun c => p_name (c_prim c)) [mk_class (P "n::C" "n")%string 16 true])
    (sort_in (fun c => p_name (e_prim c)) [mk_enum (P "x" "n")%string sz 1])
    (sort_in (fun c => p_name (ec_prim c)) [mk_econst (P "y" "x")%string 0; mk_econst (P "int" "x")%string ints])
    (sort_in (fun c => p_name (fn_prim c)) [mk_func (P "n::C::m" "n::C")%string 12345 0; mk_func (P "n::C::m" "n::C")%string 4294967295 0])
    (sort_in (fun c => p_name (f_prim c)) [mk_field (P "n::C::f" "n::C")%string (N "int"%string) (mk_qual POINTER true) 8 0])
    (sort_in p_name [P "x" "n::C"]%string)
    (sort_in (fun c => p_name (ia_prim c)) [mk_int (P "x" "n::C")%string ints])
    (sort_in (fun c => p_name (fa_prim c)) [mk_float (P "x" "n::C")%string 1069547520])
    (sort_in (fun c => p_name (pa_prim c)) [mk_pattr (P "x" "n::C")%string (N "int"%string)])
    (sort_in (fun c => p_name (ta_prim c)) [mk_text (P "y" "n::C")%string (str t)])
    (sort_in ci_name [mk_cinfo (N "n::C"%string) (N "x"%string) (N "y"%string) 1 3])
    (sort_in ti_name [mk_inh (N "B<-n::C"%string) (N "n::C"%string) (N "int"%string)]).
Definition ex_text1 : database := Eval vm_compute in ex_text 999999999 4 "some text"%string.
Definition ex_text2 : database := Eval vm_compute in ex_text (-7) 1 "some text"%string.
Definition ex_text3 : database := Eval vm_compute in ex_text 0 4 ""%string.
Ltac coltext := split; [discriminate|]; split; [vm_compute; discriminate|]; repeat split; let H := fresh in intros H; vm_compute in H; intuition discriminate.
Lemma ex_text_storable : text_storable ex_pf ex_text1 /\ text_storable ex_pf ex_text2.
Proof.
  split; unfold text_storable; cbv zeta.
  all: split; [vm_compute; intuition (subst; reflexivity)|].
  all: split; [intros h n Hin; repeat (destruct Hin as [Hin|Hin]; [injection Hin as <- <-; split; [reflexivity|]; split; [discriminate|]; split; [small|coltext]|]); destruct Hin|].
  all: repeat match goal with |- text_table _ _ _ /\ _ => split;
        [split; [vm_compute; intuition (subst; discriminate)|];
         intros k v Hin; vm_compute in Hin; repeat (destruct Hin as [Hin|Hin]; [injection Hin as <- <-|]); try destruct Hin;
         (split; [reflexivity|]; split; [discriminate|]);
         first [coltext | repeat split; try kn; try coltext; try small; try reflexivity;
         repeat (apply Forall_cons; [first [kn | split; reflexivity]|]); try apply Forall_nil]
        |] end.
  all: split; vm_compute; intuition (subst; reflexivity).
Qed.
Example C37_witness : text_storable ex_pf ex_text1 /\ text_exact ex_pf ex_sf ex_text1 /\ length (m_fields ex_text1) = 1%nat /\ length (m_template_types ex_text1) = 1%nat.
Proof.
  split; [apply ex_text_storable|]. split; [|split; reflexivity]. unfold text_exact.
  assert (HT : all_rows (fun t => is_u32 (tt_size t) /\ no_gaps t) (m_template_types ex_text1)).
  { intros k v Hin; vm_compute in Hin; destruct Hin as [Hin|[]]; injection Hin as <- <-. split; [small|]. cbn. unfold no_gaps. cbn [tt_types tt_ptrs combine].
    eexists [_; _], 2%nat. split; [reflexivity|]. apply Forall_cons; [discriminate|]. apply Forall_cons; [discriminate|]. apply Forall_nil. }
  repeat first [exact HT | match goal with |- _ /\ _ => split; [first [exact HT|intros k v Hin; vm_compute in Hin; repeat (destruct Hin as [Hin|Hin]; [injection Hin as <- <-|]); try destruct Hin; small]|] end].
  intros k v Hin; vm_compute in Hin; repeat (destruct Hin as [Hin|Hin]; [injection Hin as <- <-|]); try destruct Hin; small.
Qed.

(* finding: negative integers (and those with ten digits) do not survive, and every enum comes back
   with size 4 *)
Theorem C37_negative_refuted : exists db file d, text_storable ex_pf db /\ WriteTextDatabase ex_pf db = Ok file /\
  ReadTextDatabase ex_sf (Some file) db_empty = Ok (Some d) /\
  map (fun x => ia_value (snd x)) (m_int_attrs db) = [-7] /\ map (fun x => ia_value (snd x)) (m_int_attrs d) = [429496728] /\
  map (fun x => e_size (snd x)) (m_enums db) = [1] /\ map (fun x => e_size (snd x)) (m_enums d) = [4].
Proof.
  exists ex_text2. do 2 eexists. split; [apply ex_text_storable|]. split; [vm_compute; reflexivity|]. split; [vm_compute; reflexivity|].
  repeat split; vm_compute; reflexivity.
Qed.
Print Assumptions C37_negative_refuted.
(* finding: an empty text value makes the reader use a null pointer *)
Theorem C37_empty_text_refuted : exists db file, map (fun x => ta_value (snd x)) (m_text_attrs db) = [[]] /\ WriteTextDatabase ex_pf db = Ok file /\
  ReadTextDatabase ex_sf (Some file) db_empty = UB.
Proof. exists ex_text3. eexists. split; [vm_compute; reflexivity|]. split; [vm_compute; reflexivity|]. vm_compute. reflexivity. Qed.
Print Assumptions C37_empty_text_refuted.

(* C38 *)
Theorem C38_missing_refused : forall sf d, IsTextDatabase None = Ok false /\ ReadTextDatabase sf None d = Ok None.
Proof. split; reflexivity. Qed.
Print Assumptions C38_missing_refused.
(* a version line among the first seven decides *)
Theorem C38_version_decides : forall f ls a l b n, lines f ls -> firstn 7 ls = a ++ l :: b -> (forall x, In x a -> ~ version_line x) ->
  says_version l n -> n < 2 ^ 31 -> IsTextDatabase (Some f) = Ok (n =? 1).
Proof. exact check_version. Qed.
Print Assumptions C38_version_decides.
Theorem C38_other_version_refused : forall f ls a l b n sf d, lines f ls -> firstn 7 ls = a ++ l :: b -> (forall x, In x a -> ~ version_line x) ->
  says_version l n -> n < 2 ^ 31 -> n <> 1 -> ReadTextDatabase sf (Some f) d = Ok None.
Proof.
  intros f ls a l b n sf d H1 H2 H3 H4 H5 H6. unfold ReadTextDatabase. rewrite (check_version f ls a l b n) by assumption.
  replace (n =? 1) with false by lia. reflexivity.
Qed.
Print Assumptions C38_other_version_refused.
(* a version line without a number refuses the file *)
Theorem C38_unreadable_version : forall f ls a l b bl r, lines f ls -> firstn 7 ls = a ++ l :: b -> (forall x, In x a -> ~ version_line x) ->
  line_text l = str "Format Version: " ++ bl ++ r -> Forall blank bl ->
  match r with c :: _ => ~ blank c /\ dec_digit c = None /\ c <> 43 /\ c <> 45 | [] => True end -> IsTextDatabase (Some f) = Ok false.
Proof. exact check_bad. Qed.
Print Assumptions C38_unreadable_version.
(* finding: every other file is accepted, whatever it starts with *)
Theorem C38_header_not_required_refuted : forall f ls, lines f ls -> (forall l, In l (firstn 7 ls) -> ~ version_line l) ->
  IsTextDatabase (Some f) = Ok true.
Proof. intros f ls H Hn. rewrite (IsText_lines f ls H). apply check_none. exact Hn. Qed.
Print Assumptions C38_header_not_required_refuted.

Example C38_witness : exists f g,
  lines f [str "clReflect Database"; str "Format Version: 2 beta"] /\ says_version (str "Format Version: 2 beta") 2 /\ IsTextDatabase (Some f) = Ok false /\
  lines g [str "no database"] /\ ~ version_line (str "no database") /\ IsTextDatabase (Some g) = Ok true.
Proof.
  exists (str "clReflect Database" ++ 10 :: str "Format Version: 2 beta" ++ 10 :: []), (str "no database" ++ 10 :: []).
  assert (N : forall s, forallb (fun c => negb (c =? 10)) s = true -> ~ In 10 s).
  { intros s H Hin. rewrite forallb_forall in H. apply H in Hin. discriminate. }
  split; [apply lines_cons; [apply N; reflexivity|]; apply lines_cons; [apply N; reflexivity|]; apply lines_end; intros []|].
  split; [exists [], (str "2"), (str " beta"); split; [reflexivity|]; split; [constructor|]; split; [discriminate|]; split; reflexivity|].
  split; [vm_compute; reflexivity|]. split; [apply lines_cons; [apply N; reflexivity|]; apply lines_end; intros []|].
  split; [|vm_compute; reflexivity]. rewrite version_line_ok. vm_compute. discriminate.
Qed.
