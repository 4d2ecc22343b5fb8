(* Property theorems about the memory of an exported database: C93.
   BuildCppExport gives the primitives and what they refer to, image lays them out in memory as the allocations of the
   exporter do, SaveCppExport writes that memory and LoadMemoryMappedDatabase reads it at another address. *)
From Coq Require Import String Permutation Sorted.
From Verif Require Import Base BaseProofs Text Maps DatabaseModel ExportModel ExportSpec ExportProofs ExportTablesProofs ExportParentProofs ExportLinkProofs ExportMainProofs ExportWitness.
From Verif Require Import MmapModel MmapSpec MmapProofs ImageLayout ImageModel ImageSpec ImageProofs LaidModel LaidSpec LaidProofs LaidImageProofs LaidLinkProofs LaidReadProofs LaidWitness.
#[local] Open Scope string_scope.
#[local] Open Scope Z_scope.
#[local] Open Scope list_scope.

(* C93: what the exporter builds is in the form the saving and loading code relies on (ImageSpec.v), wherever it is in memory
   and in whatever order its arrays were allocated *)
Theorem C93_well_formed : forall L fuel db, exportable L fuel db -> attributes_owned db -> exports L fuel db (fun e =>
  forall heap pad fb start, heap_ok e heap -> 0 < start -> start + image_size e heap < 2 ^ 64 -> image_ok start (image e heap pad fb start)).
Proof.
  intros L fuel db X O. apply read; [exact X|]. intros e F heap pad fb start HO S0 S1. exact (image_is_ok e heap pad fb (linked_ok L fuel db e X O F) HO start S0 S1).
Qed.
(* so it saves, and what a program loads is, byte for byte, what the exporter would have built there *)
Theorem C93_loads : forall L fuel db, exportable L fuel db -> attributes_owned db -> exports L fuel db (fun e =>
  forall heap pad fb start relpad, heap_ok e heap -> 0 < start -> start + image_size e heap < 2 ^ 64 ->
  (forall k, length (fst (relpad k)) = 4%nat /\ length (snd (relpad k)) = 4%nat) ->
  exists file, SaveCppExport start (image e heap pad fb start) relpad = Ok file /\
    forall addr rest next live, 0 <= addr next -> addr next + image_size e heap < 2 ^ 64 -> Forall (fun b => b < next) live ->
    LoadMemoryMappedDatabase addr (mk_env (file ++ rest) next live) =
      Ok (Some (next, image e heap pad fb (addr next)), mk_env rest (next + 4) (live ++ [next]))).
Proof.
  intros L fuel db X O. apply read; [exact X|]. intros e F heap pad fb start relpad HO S0 S1 RP. pose proof (linked_ok L fuel db e X O F) as LK.
  destruct (export_load_bytes start (image e heap pad fb start) relpad (image_is_ok e heap pad fb LK HO start S0 S1) RP) as (file & E & Q). exists file. split; [exact E|].
  intros addr rest next live A0 A1 LV. destruct (Q addr rest next live) as (img' & E' & D & B); [lia|rewrite (image_zlen e heap pad fb LK HO); lia|exact LV|]. rewrite E'.
  rewrite (moved_image e heap pad fb LK HO start (addr next) S0 S1 ltac:(lia) A1 img' D B). reflexivity.
Qed.
(* an attribute that names a primitive and whose own owner is missing keeps a hash for a pointer, and saving stops on an assertion *)
Theorem C93_any_attribute_refuted : exists L fuel db, exportable L fuel db /\ exports L fuel db (fun e =>
  exists heap pad fb start relpad, heap_ok e heap /\ 0 < start /\ start + image_size e heap < 2 ^ 64 /\
    (forall k, length (fst (relpad k)) = 4%nat /\ length (snd (relpad k)) = 4%nat) /\ SaveCppExport start (image e heap pad fb start) relpad = Trap).
Proof.
  exists lay, 1%nat, lost. split; [exact lost_exportable|]. 
  assert (G : match BuildCppExport lay 1 lost with
              | Ok e => (4096 + image_size e (heap_for e) <? 2 ^ 64) && match SaveCppExport 4096 (image e (heap_for e) 0 0 4096) (fun _ => ([0; 0; 0; 0], [0; 0; 0; 0])) with Trap => true | _ => false end
              | _ => false end = true) by (vm_compute; reflexivity).
  unfold exports. destruct (BuildCppExport lay 1 lost) as [e| | |] eqn:E; [|discriminate G|discriminate G|discriminate G]. exists e. split; [reflexivity|]. apply andb_true_iff in G. destruct G as [G1 G2].
  exists (heap_for e), 0, 0, 4096, (fun _ => ([0; 0; 0; 0], [0; 0; 0; 0])). split; [apply lost_heap; exact E|]. split; [lia|]. split; [lia|]. split; [intros k; auto|].
  destruct (SaveCppExport 4096 (image e (heap_for e) 0 0 4096) (fun _ => ([0; 0; 0; 0], [0; 0; 0; 0]))); [discriminate G2|reflexivity|discriminate G2|discriminate G2].
Qed.
(* the conditions hold of the sample database *)
Example C93_witness : exportable lay 10 sample /\ attributes_owned sample /\ exports lay 10 sample (fun e => heap_ok e (heap_for e)).
Proof.
  split; [exact sample_exportable|]. split; [exact sample_owned|]. unfold exports.
  destruct (C93_loads lay 10 sample sample_exportable sample_owned) as (e & E & _). exists e. split; [exact E|]. apply sample_heap. exact E.
Qed.
Print Assumptions C93_well_formed.
Print Assumptions C93_loads.
Print Assumptions C93_any_attribute_refuted.
