(* Property theorems about Type::DerivesFrom and Enum::GetValueName in a loaded database: C97. Everything is said about the source
   database; reaches_loaded (QuerySpec.v) runs the exporter, the saving, the loading and the end of Load. *)
From Coq Require Import String Permutation Sorted.
From Verif Require Import Base BaseProofs Text Maps DatabaseModel ExportModel ExportSpec ExportProofs ExportMainProofs ExportWitness ExportProps.
From Verif Require Import MmapModel MmapSpec ImageLayout ImageModel ImageSpec LaidModel LaidSpec LaidProofs LaidImageProofs LaidLinkProofs LaidReadProofs LaidMemProofs LaidWitness LaidMemProps.
From Verif Require Import QueryModel QuerySpec QueryViewProofs QueryLoadProofs QueryProofs QueryStillProofs MethodModel MethodProofs.
#[local] Open Scope string_scope.
#[local] Open Scope Z_scope.
#[local] Open Scope list_scope.
Local Opaque sample loaded.
Ltac begin := intros L fuel db X OW; apply (still0 L fuel db _ X OW); intros e heap pad fb base BE F LK HO S0 S1 this to options mem VW.

(* DerivesFrom says whether a type has an ancestor of that name; the calls are nested at most fuel deep, fuel being a bound on the
   length of inheritance chains (exportable) *)
Theorem C97_derives_from : forall L fuel db, exportable L fuel db -> attributes_owned db -> reaches_loaded L fuel db (fun fb base this to options before mem =>
  forall t h depth, In t (type_places db) -> (fuel <= depth)%nat -> exists r, DerivesFromAt depth base mem (object base mem t) h = Ok r /\
    (r = true <-> exists b a, In b (bases_of db t) /\ derives db b a /\ hash_at db a = h)).
Proof.
  begin. intros t h depth H D. destruct (proj2 (proj2 (proj2 (proj2 (proj2 (proj2 (proj2 X))))))) as (rank & R1 & R2). rewrite (object_view e heap pad fb base LK HO S0 S1 this to options mem VW).
  apply (derives_view L fuel db X e heap pad fb base BE F LK HO S0 S1 this to options mem VW rank R2 h depth t H). specialize (R1 t). lia.
Qed.
Print Assumptions C97_derives_from.

(* GetValueName returns the name of the first constant of that value, in the order of the hashes of their names, and null if there is
   none *)
Theorem C97_value_name : forall L fuel db, exportable L fuel db -> attributes_owned db -> reaches_loaded L fuel db (fun fb base this to options before mem =>
  forall o value, In o (places db KEnum) -> exists ls p, array_here base mem (object base mem o) Enum ["constants"] = map (object base mem) ls /\ by_hash db ls /\ NoDup ls /\
    (forall c, In c ls <-> In c (places db KEnumConst) /\ owner db c = Some o) /\
    GetValueNameAt base mem (object base mem o) value = Ok p /\
    ((exists some c i rest, ls = some ++ c :: rest /\ at_ db c = Some i /\ s32 (nth 0 (it_data i) 0 mod 2 ^ 32) = value /\ text_here base mem p (n_text (it_name i)) /\
       forall c' i', In c' some -> at_ db c' = Some i' -> s32 (nth 0 (it_data i') 0 mod 2 ^ 32) <> value) \/
     (p = 0 /\ forall c i, In c ls -> at_ db c = Some i -> s32 (nth 0 (it_data i) 0 mod 2 ^ 32) <> value))).
Proof.
  begin. intros [k j] value H. pose proof (proj1 (proj1 (places_In _ _ _) H)) as K. cbn [fst] in K. subst k.
  assert (W : exists u, walk (Struct (record_of KEnum)) [array_name AConstants] = Some (OffsetOf Enum "constants", Arr u)) by (eexists; vm_compute; reflexivity). destruct W as (u & W).
  destruct (children_points L fuel db X e heap pad fb base BE F LK HO S0 S1 this to options mem VW (KEnum, j) AConstants _ u ltac:(discriminate) H W) as (ls & P & SM & E & ND & SO & CH). exists ls.
  assert (CH' : forall c, In c ls <-> In c (places db KEnumConst) /\ owner db c = Some (KEnum, j)).
  { intros c. rewrite CH. cbn [fst]. split.
    - intros (I & O & A & _). split; [|exact O]. destruct c as [k i]. cbn [fst] in *. destruct k; try discriminate A. exact I.
    - intros [I O]. pose proof (proj1 (proj1 (places_In _ _ _) I)) as K. rewrite K. split; [exact I|]. split; [exact O|]. split; reflexivity. }
  destruct (value_ok L fuel db X e heap pad fb base BE F LK HO S0 S1 this to options mem VW _ ls value P SM) with (post := ls) (pre := @nil loc) (n := S (Z.to_nat (zlen ls))) as (p & R1 & R2); [intros l I; apply CH'; exact I|reflexivity|unfold zlen; lia|].
  exists p. split; [exact E|]. split; [exact SO|]. split; [exact ND|]. split; [exact CH'|]. split; [|exact R2]. unfold GetValueNameAt, rounds. cbv zeta. rewrite (proj1 P). cbn [obind]. exact R1.
Qed.
Print Assumptions C97_value_name.

Example C97_witness : exportable lay 10 sample /\ attributes_owned sample /\
  match FinishLoad (2 ^ 40) loaded 4242 5000 0 with
  | Ok mem => map (fun l => (match at_ sample l with Some i => n_text (it_name i) | None => [] end, map (fun s => DerivesFromAt 10 (2 ^ 40) mem (object (2 ^ 40) mem l) (hash_of s)) ["N::A"; "N::B"; "N::C"])) (places sample KClass) =
       [(str "M::D", [Ok false; Ok false; Ok false]); (str "N::C", [Ok true; Ok true; Ok false]); (str "N::B", [Ok true; Ok false; Ok false]); (str "N::ReadIt", [Ok false; Ok false; Ok false]);
        (str "N::A", [Ok false; Ok false; Ok false]); (str "N::WriteIt", [Ok false; Ok false; Ok false])] /\
     map (fun o => map (fun v => match GetValueNameAt (2 ^ 40) mem (object (2 ^ 40) mem o) v with Ok p => if p =? 0 then [] else until_zero (skipn (Z.to_nat (p - 2 ^ 40)) mem) | _ => [] end) [-1; 0; 1; 2; 3; 77]) (places sample KEnum) =
       [[[]; str "N::E0"; str "N::E1"; []; []; []]]
  | _ => False
  end.
Proof. split; [exact sample_exportable|]. split; [exact sample_owned|]. vm_compute. split; reflexivity. Qed.
