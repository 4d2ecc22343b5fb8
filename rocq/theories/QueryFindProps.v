(* Property theorems about a database after Database::Load, C96: the answers of the look-up functions, about the source database. *)
From Coq Require Import String Permutation Sorted.
From Verif Require Import Base BaseProofs Text Maps HashModel HashSpec HashProofs DatabaseModel NamesProofs MergeSpec ExportModel ExportSpec ExportProofs ExportTablesProofs ExportParentProofs ExportLinkProofs ExportMainProofs MergeProofs ExportWitness ExportProps.
From Verif Require Import MmapModel MmapSpec ImageLayout ImageModel ImageSpec LaidModel LaidSpec LaidProofs LaidImageProofs LaidLinkProofs LaidReadProofs LaidMemProofs LaidWitness LaidMemProps.
From Verif Require Import QueryModel QuerySpec QueryViewProofs QueryLoadProofs QueryProofs QueryStillProofs.
#[local] Open Scope string_scope.
#[local] Open Scope Z_scope.
#[local] Open Scope list_scope.
Local Opaque sample loaded.
Ltac begin := intros L fuel db X OW; apply (still0 L fuel db _ X OW); intros e heap pad fb base BE F LK HO S0 S1 this to options mem VW.

Lemma place_nth : forall db k j l, nth_error (places db k) j = Some l -> l = (k, j) /\ In (k, j) (places db k).
Proof.
  intros db k j l N. pose proof (nth_error_In _ _ N) as I. assert (J : (j < length (places db k))%nat) by (apply nth_error_Some; congruence). unfold places in N, J. rewrite map_length, seq_length in J. rewrite nth_error_map, (nth_error_nth' _ 0%nat) in N by (rewrite seq_length; exact J).
  rewrite seq_nth in N by exact J. cbn [option_map Nat.add] in N. assert (E : l = (k, j)) by congruence. subst l. auto.
Qed.

(* GetType, GetNamespace, GetTemplate, GetFunction and GetOverloadedFunction *)
Theorem C96_primitives : forall L fuel db, exportable L fuel db -> attributes_owned db -> reaches_loaded L fuel db (fun fb base this to options before mem => forall h,
  finds db base mem (type_places db) h (GetType base mem h) /\
  finds db base mem (places db KNamespace) h (GetNamespace base mem h) /\
  finds db base mem (places db KTemplate) h (GetTemplate base mem h) /\
  finds db base mem (places db KFunction) h (GetFunction base mem h) /\
  finds_all db (places db KFunction) h (GetOverloadedFunction base mem h)).
Proof.
  begin. intros h. pose proof (table_find L fuel db X e heap pad fb base BE F LK HO S0 S1 this to options mem VW) as T. split; [|split; [exact (T KNamespace h)|split; [exact (T KTemplate h)|split; [exact (T KFunction h)|]]]].
  - destruct (types_points L fuel db X e heap pad fb base BE F LK HO S0 S1 this to options mem VW) as (ls & P & SM & PE & SO).
    assert (VA : forall l, In l ls -> In l (places db (fst l))).
    { intros l I. apply (Permutation_in l PE) in I. unfold type_places in I. rewrite !in_app_iff in I. destruct I as [I|[I|[I|I]]]; pose proof (proj1 (proj1 (places_In _ _ _) I)) as K; rewrite K; exact I. }
    destruct (proj1 (points_find L fuel db X e heap pad fb base BE LK HO S0 S1 this to options mem VW _ ls P VA SO SM) h) as (p & E & [(l & I & Q)|(Q & N)]); exists p; (split; [exact E|]).
    + left. exists l. split; [exact (Permutation_in l PE I)|exact Q].
    + right. split; [exact Q|]. intros l I. apply N. exact (Permutation_in l (Permutation_sym PE) I).
  - destruct (table_overloads L fuel db X e heap pad fb base BE F LK HO S0 S1 this to options mem VW KFunction h) as (first & last & E & R1 & R2 & R3 & R4). exists first, last. split; [exact E|]. split; [exact R1|]. split; [unfold places, zlen in *; rewrite map_length, seq_length; exact R2|]. split; [|exact R4].
    intros j l N. destruct (place_nth db KFunction j l N) as [-> I]. exact (R3 j I).
Qed.
Print Assumptions C96_primitives.

(* FindPrimitive and FindOverloadedPrimitive on the arrays of pointers to children; lo is the offset of the array *)
Theorem C96_children : forall L fuel db, exportable L fuel db -> attributes_owned db -> reaches_loaded L fuel db (fun fb base this to options before mem =>
  forall o a lo u, a <> ABases -> In o (places db (fst o)) -> walk (Struct (record_of (fst o))) [array_name a] = Some (lo, Arr u) ->
    exists ls, array_here base mem (object base mem o) (record_of (fst o)) [array_name a] = map (object base mem) ls /\
      (forall c, In c ls <-> In c (places db (fst c)) /\ owner db c = Some o /\ array_for (fst o) (fst c) = Some a /\ kept db a o c = true) /\
      forall h, finds db base mem ls h (FindPrimitiveAt base mem (object base mem o + lo) h) /\ finds_all db ls h (FindOverloadedAt base mem (object base mem o + lo) h)).
Proof.
  begin. intros o a lo u NB H W. destruct (children_points L fuel db X e heap pad fb base BE F LK HO S0 S1 this to options mem VW o a lo u NB H W) as (ls & P & SM & E & _ & SO & CH). exists ls. split; [exact E|]. split; [exact CH|].
  assert (VA : forall l, In l ls -> In l (places db (fst l))) by (intros l I; apply CH; exact I). destruct (points_find L fuel db X e heap pad fb base BE LK HO S0 S1 this to options mem VW _ ls P VA SO SM) as [Q1 Q2]. intros h. split; [exact (Q1 h)|exact (Q2 h)].
Qed.
Print Assumptions C96_children.
(* and on those of the global namespace *)
Theorem C96_global : forall L fuel db, exportable L fuel db -> attributes_owned db -> reaches_loaded L fuel db (fun fb base this to options before mem =>
  forall a k lo u, global_kind a = Some k -> walk (Struct Namespace) [array_name a] = Some (lo, Arr u) ->
    exists ls, array_here base mem base DatabaseMem ["global_namespace"; array_name a] = map (object base mem) ls /\
      (forall c, In c ls <-> In c (places db k) /\ parent_at db c = 0) /\
      forall h, finds db base mem ls h (FindPrimitiveAt base mem (GetGlobalNamespace base + lo) h) /\ finds_all db ls h (FindOverloadedAt base mem (GetGlobalNamespace base + lo) h)).
Proof.
  begin. intros a k lo u G W. destruct (global_points L fuel db X e heap pad fb base BE F LK HO S0 S1 this to options mem VW a k lo u G W) as (ls & P & SM & E & _ & SO & CH). exists ls. split; [exact E|]. split; [exact CH|].
  assert (VA : forall l, In l ls -> In l (places db (fst l))) by (intros l I; apply CH in I; destruct I as [I _]; pose proof (proj1 (proj1 (places_In _ _ _) I)) as K; rewrite K; exact I). destruct (points_find L fuel db X e heap pad fb base BE LK HO S0 S1 this to options mem VW _ ls P VA SO SM) as [Q1 Q2]. intros h. split; [exact (Q1 h)|exact (Q2 h)].
Qed.
Print Assumptions C96_global.

(* both GetName: by hash, by the null pointer and by a text *)
Theorem C96_names : forall L fuel db, exportable L fuel db -> attributes_owned db -> reaches_loaded L fuel db (fun fb base this to options before mem =>
  (forall h, finds_name db base mem h (GetName base mem h)) /\
  GetNameOf base mem None = Ok (0, 0) /\
  (forall text rest, c_string text -> finds_name db base mem (hash32 text 0) (GetNameOf base mem (Some (text ++ 0 :: rest)))) /\
  (forall h n rest, In (h, n) (m_names db) -> exists text, GetNameOf base mem (Some (n_text n ++ 0 :: rest)) = Ok (h, text) /\ text_here base mem text (n_text n))).
Proof.
  begin. pose proof X as (W & _). pose proof (names_sorted db W) as SO. pose proof W as ((_ & WN) & WT & _).
  assert (A : forall h, finds_name db base mem h (GetName base mem h)).
  { intros h. destruct (name_find L fuel db X e heap pad fb base F LK HO S0 S1 this to options mem VW h) as [(n & text & M & E & T)|(M & E)]; [left; exists n, text; split; [apply m_find_In; exact M|auto]|right].
    split; [|exact E]. intros n I. pose proof (ssorted_find _ _ _ _ SO I). congruence. }
  assert (B : forall text rest, c_string text -> finds_name db base mem (hash32 text 0) (GetNameOf base mem (Some (text ++ 0 :: rest)))).
  { intros text rest C. unfold GetNameOf. rewrite hash_name_correct; [|eapply Forall_impl; [|exact C]; unfold is_byte; cbn; lia|intros Q; unfold c_string in C; rewrite Forall_forall in C; apply C in Q; lia|unfold is_u32; lia]. cbn [obind]. destruct (hash32 text 0 =? 0) eqn:Z0; [|apply A].
    right. split; [|reflexivity]. intros n I. pose proof (ssorted_find _ _ _ _ SO I) as M. destruct (WN _ _ M) as (_ & _ & N). lia. }
  split; [exact A|]. split; [reflexivity|]. split; [exact B|]. intros h n rest I. pose proof (ssorted_find _ _ _ _ SO I) as M. destruct (WN _ _ M) as (_ & HH & N). destruct (WT _ _ I) as [C _].
  destruct (B (n_text n) rest C) as [(n' & text & I' & E & T)|[N' _]]; rewrite HH in *; [|exfalso; exact (N' n I)]. exists text. split; [exact E|]. pose proof (ssorted_find _ _ _ _ SO I'). congruence.
Qed.
Print Assumptions C96_names.

(* GetTypes and GetFunctions: every type and every function, once *)
Theorem C96_lists : forall L fuel db, exportable L fuel db -> attributes_owned db -> reaches_loaded L fuel db (fun fb base this to options before mem =>
  (exists ls d, GetTypes base mem = Ok (zlen ls, d) /\ Permutation ls (type_places db) /\ by_hash db ls /\
     forall j l, nth_error ls j = Some l -> number base mem (d + 8 * Z.of_nat j) 8 = object base mem l) /\
  (exists d, GetFunctions base mem = Ok (zlen (items db KFunction), d) /\ forall j, d + Z.of_nat j * size_of (Struct Function_) = object base mem (KFunction, j))).
Proof.
  begin. split.
  - destruct (types_points L fuel db X e heap pad fb base BE F LK HO S0 S1 this to options mem VW) as (ls & (SZ & d & DT & EL) & SM & PE & SO). exists ls, d. unfold GetTypes. rewrite SZ. cbn [obind]. rewrite DT. cbn [obind]. split; [reflexivity|]. split; [exact PE|]. split; [exact SO|].
    intros j l N. rewrite (object_view e heap pad fb base LK HO S0 S1 this to options mem VW). apply load_number. rewrite Z.mul_comm. exact (EL j l N).
  - exists (LaidModel.place e heap base (KFunction, 0%nat)). unfold GetFunctions. change "functions" with (table_of KFunction). rewrite (t_size e heap pad fb base LK HO S0 S1 this to options mem VW KFunction). cbn [obind]. rewrite (t_data e heap pad fb base LK HO S0 S1 this to options mem VW KFunction). cbn [obind].
    split; [unfold zlen; rewrite map_length, (rows_length L db e F); reflexivity|]. intros j. rewrite (object_view e heap pad fb base LK HO S0 S1 this to options mem VW). exact (t_step e heap base KFunction j).
Qed.
Print Assumptions C96_lists.

(* the conditions hold of the sample database; look-ups in its memory, loaded at 2^40, with a Database at 4242 and a load address of
   5000: the two functions N::f, a class, a name, and three that are not there *)
Example C96_witness : exportable lay 10 sample /\ attributes_owned sample /\
  match FinishLoad (2 ^ 40) loaded 4242 5000 0 with
  | Ok mem => GetOverloadedFunction (2 ^ 40) mem (hash_of "N::f") = Ok (3, 5) /\
      GetType (2 ^ 40) mem (hash_of "N::C") = Ok (object (2 ^ 40) mem (place_named KClass "N::C")) /\ GetType (2 ^ 40) mem (hash_of "N::f") = Ok 0 /\
      GetNamespace (2 ^ 40) mem (hash_of "N") = Ok (object (2 ^ 40) mem (place_named KNamespace "N")) /\
      GetNameOf (2 ^ 40) mem (Some (str "N::C" ++ [0; 55])) = GetName (2 ^ 40) mem (hash_of "N::C") /\
      match GetName (2 ^ 40) mem (hash_of "N::C") with Ok (h, text) => (h, until_zero (skipn (Z.to_nat (text - 2 ^ 40)) mem)) = (hash_of "N::C", str "N::C") | _ => False end /\
      GetName (2 ^ 40) mem 12345 = Ok (0, 0) /\ GetFunction (2 ^ 40) mem 12345 = Ok 0
  | _ => False
  end.
Proof. split; [exact sample_exportable|]. split; [exact sample_owned|]. vm_compute. repeat split. Qed.
