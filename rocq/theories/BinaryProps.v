(* C39: binary databases *)
From Verif Require Import Base BaseProofs Text HashModel HashSpec Maps DatabaseModel BinaryModel BinarySpec BinaryProofs MmapProofs.
Transparent le_bytes.

Theorem C39_round_trip : forall db, storable db -> distinct_texts db ->
  exists file, WriteBinaryDatabase db = Ok file /\ forall rest,
    IsBinaryDatabase (Some (file ++ rest)) = Ok true /\ ReadBinaryDatabase (Some (file ++ rest)) db_empty = Ok (Some (stored db)).
Proof. exact db_round_trip. Qed.
Print Assumptions C39_round_trip.

(* files that are missing or start differently are refused *)
Theorem C39_foreign_refused : forall file db, 8 <= zlen file -> Forall is_byte file ->
  firstn 8 file <> le_bytes 4 FILE_HEADER ++ le_bytes 4 FILE_VERSION ->
  IsBinaryDatabase (Some file) = Ok false /\ ReadBinaryDatabase (Some file) db = Ok None.
Proof.
  intros file db Hl Hb Hm. assert (H : IsBinaryDatabase (Some file) = Ok false).
  { destruct file as [|c0 [|c1 [|c2 [|c3 [|c4 [|c5 [|c6 [|c7 r]]]]]]]]; try (cbv in Hl; exfalso; apply Hl; reflexivity).
    unfold IsBinaryDatabase, ReadU32, fread.
    replace (4 <=? zlen (c0 :: c1 :: c2 :: c3 :: c4 :: c5 :: c6 :: c7 :: r)) with true by lia. cbn [obind fst snd]. change (Z.to_nat 4) with 4%nat. cbn [firstn skipn].
    replace (4 <=? zlen (c4 :: c5 :: c6 :: c7 :: r)) with true by (rewrite !zlen_cons in *; lia). cbn [obind fst snd firstn skipn].
    f_equal. apply andb_false_iff. destruct (Z.eqb_spec (le_val [c0; c1; c2; c3]) FILE_HEADER) as [E1|]; [|left; reflexivity].
    destruct (Z.eqb_spec (le_val [c4; c5; c6; c7]) FILE_VERSION) as [E2|]; [|right; reflexivity]. exfalso. apply Hm.
    rewrite <- E1, <- E2. repeat match goal with H : Forall is_byte (_ :: _) |- _ => apply Forall_cons_iff in H; destruct H end.
    pose proof (le_bytes_val [c0; c1; c2; c3]) as L1. pose proof (le_bytes_val [c4; c5; c6; c7]) as L2. cbn [length] in L1, L2.
    rewrite L1, L2 by (repeat (apply Forall_cons; [assumption|]); apply Forall_nil). reflexivity. }
  split; [exact H|]. unfold ReadBinaryDatabase. rewrite H. reflexivity.
Qed.
Print Assumptions C39_foreign_refused.
Theorem C39_missing_refused : forall db, IsBinaryDatabase None = Ok false /\ ReadBinaryDatabase None db = Ok None.
Proof. split; reflexivity. Qed.
Print Assumptions C39_missing_refused.

(* an example: a namespace, a class in it with a field and a method, attributes and a template *)
Definition nm (names : zmap name) (s : string) : name := match HashNameString (str s ++ [0]) 0 with Ok h => GetNameH names h | _ => noname end.
Definition sort_in {T} (f : T -> name) (l : list T) : zmap T := fold_left (fun m v => mm_insert (n_hash (f v)) v m) l [].
Definition ex_names : zmap name := Eval vm_compute in
  match get_names [] (map str ["n"; "n::C"; "n::C::f"; "n::C::m"; "int"; "x"; "y"; "n::T"; "n::T<int>"; "B<-n::C"]%string) with Ok m => m | _ => [] end.
Definition ex_db (texts : list string) : database :=
  let N := nm ex_names in
  mk_db ex_names
    (sort_in p_name [mk_prim (N "n"%string) noname])
    (sort_in (fun t => p_name (t_prim t)) [mk_type (mk_prim (N "int"%string) noname) 4])
    (sort_in p_name [mk_prim (N "n::T"%string) (N "n"%string)])
    (sort_in (fun t => p_name (tt_prim t)) [mk_ttype (mk_prim (N "n::T<int>"%string) (N "n::T"%string)) 24 [N "int"%string; N "n::C"%string; noname; noname] [false; true; false; false]])
    (sort_in (fun c => p_name (c_prim c)) [mk_class (mk_prim (N "n::C"%string) (N "n"%string)) 16 true])
    [] []
    (sort_in (fun c => p_name (fn_prim c)) [mk_func (mk_prim (N "n::C::m"%string) (N "n::C"%string)) 12345 4096; mk_func (mk_prim (N "n::C::m"%string) (N "n::C"%string)) 54321 8192])
    (sort_in (fun c => p_name (f_prim c)) [mk_field (mk_prim (N "n::C::f"%string) (N "n::C"%string)) (N "int"%string) (mk_qual POINTER true) 8 0])
    []
    (sort_in (fun c => p_name (ia_prim c)) [mk_int (mk_prim (N "x"%string) (N "n::C"%string)) (-7)])
    [] []
    (sort_in (fun c => p_name (ta_prim c)) (map (fun t => mk_text (mk_prim (N "y"%string) (N "n::C"%string)) (str t)) texts))
    [] (sort_in ti_name [mk_inh (N "B<-n::C"%string) (N "n::C"%string) (N "int"%string)]).
Definition ex_db1 : database := Eval vm_compute in ex_db ["some text"; "another"]%string.
Definition ex_db2 : database := Eval vm_compute in ex_db ["same"; "same"]%string.
Ltac small := vm_compute; intuition discriminate.
Ltac kn := first [left; reflexivity | right; vm_compute; reflexivity].
Ltac cstr := split; [unfold c_string; vm_compute; repeat (apply Forall_cons; [split; reflexivity|]); apply Forall_nil|small].
Lemma ex_storable : storable ex_db1 /\ storable ex_db2.
Proof.
  split; unfold storable; cbv zeta.
  all: split; [vm_compute; intuition (subst; reflexivity)|].
  all: split; [reflexivity|].
  all: split; [intros h n Hin; repeat (destruct Hin as [Hin|Hin]; [injection Hin as <- <-; split; [reflexivity|]; split; [discriminate|]; split; [small|cstr]|]); destruct Hin|].
  all: repeat match goal with |- table_ok _ _ _ /\ _ => split;
        [split; [vm_compute; intuition (subst; discriminate)|]; split; [reflexivity|];
         intros k v Hin; vm_compute in Hin; repeat (destruct Hin as [Hin|Hin]; [injection Hin as <- <-|]); try destruct Hin;
         (split; [reflexivity|]; split; [discriminate|]);
         repeat split; try kn; try small; try reflexivity; try cstr;
         repeat (apply Forall_cons; [first [kn | split; reflexivity]|]); try apply Forall_nil
        |] end.
  all: split; vm_compute; intuition (subst; reflexivity).
Qed.
Example C39_witness : storable ex_db1 /\ distinct_texts ex_db1 /\
  stored ex_db1 <> ex_db1.
Proof.
  split; [apply ex_storable|]. split; [|discriminate]. unfold distinct_texts. vm_compute.
  apply NoDup_cons; [intros [H|[]]; discriminate|]. apply NoDup_cons; [intros []|]. apply NoDup_nil.
Qed.

(* finding: when two text attributes have the same value, fewer texts are written than announced and
   the file cannot be read back *)
Theorem C39_repeated_text_refuted : exists db file, storable db /\ WriteBinaryDatabase db = Ok file /\
  IsBinaryDatabase (Some file) = Ok true /\ forall d, ReadBinaryDatabase (Some file) db_empty <> Ok (Some d).
Proof.
  exists ex_db2. eexists. split; [apply ex_storable|]. split; [vm_compute; reflexivity|]. split; [vm_compute; reflexivity|].
  intros d H. vm_compute in H. discriminate.
Qed.
Print Assumptions C39_repeated_text_refuted.
(* finding: a name longer than 1023 bytes is cut short and what follows is read out of step *)
Theorem C39_long_name_refuted : exists db file, WriteBinaryDatabase db = Ok file /\
  forall d, ReadBinaryDatabase (Some file) db_empty <> Ok (Some d).
Proof.
  exists (mk_db [(77, mk_name 77 (repeat 97 1024)); (78, mk_name 78 (str "b"))] [] [] [] [] [] [] [] [] [] [] [] [] [] [] [] []).
  eexists. split; [vm_compute; reflexivity|]. intros d H. vm_compute in H. discriminate.
Qed.
Print Assumptions C39_long_name_refuted.
(* finding: a file of fewer than eight bytes makes the check itself read uninitialised memory *)
Theorem C39_short_file : forall f, zlen f < 8 -> IsBinaryDatabase (Some f) = UB.
Proof.
  intros f H. unfold IsBinaryDatabase, ReadU32, fread. destruct (Z.leb_spec 4 (zlen f)); [|reflexivity]. cbn [obind fst snd].
  destruct (Z.leb_spec 4 (zlen (skipn (Z.to_nat 4) f))) as [L|]; [|reflexivity]. exfalso. unfold zlen in *. rewrite skipn_length in L. lia.
Qed.
Print Assumptions C39_short_file.
