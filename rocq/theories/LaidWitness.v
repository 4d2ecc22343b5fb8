(* An order of allocations for the sample database, used beside the theorems. *)
From Coq Require Import String.
From Verif Require Import Base BaseProofs Text Maps DatabaseModel ExportModel ExportSpec ExportMainProofs ExportWitness.
From Verif Require Import ImageLayout LaidModel LaidSpec LaidProofs.
#[local] Open Scope Z_scope.
#[local] Open Scope list_scope.

(* the arrays of the global namespace, a list nothing refers to, then every other array with entries and one entry left behind *)
Definition heap_for (e : export) : list (tag * list Z) :=
  map (fun a => (SHeap (Glob a), [])) global_arrays ++ (SJunk, [7; 8; 9]) ::
  flat_map (fun k => flat_map (fun j => flat_map (fun a => match x_arr e (a, (k, j)) with [] => [] | _ => [(SHeap (Cell (a, (k, j))), [11])] end) (map snd (kind_arrays k)))
    (seq 0 (length (x_rows e k)))) built.
Fixpoint once (l : list tag) : bool := match l with [] => true | a :: r => negb (if in_dec tag_dec a r then true else false) && once r end.
Lemma once_ok : forall l, once l = true -> NoDup l.
Proof.
  induction l as [|a l IH]; intros H; [constructor|]. cbn [once] in H. apply andb_true_iff in H. destruct H as [H1 H2]. constructor; [|apply IH; exact H2].
  destruct (in_dec tag_dec a l); [discriminate H1|assumption].
Qed.
Lemma built_all : forall k, In k built.
Proof. intros k. destruct k; cbn; tauto. Qed.
Lemma heap_for_ok : forall e, once (filter (fun t => if tag_dec t SJunk then false else true) (map fst (heap_for e))) = true -> image_size e (heap_for e) <=? CAPACITY = true -> heap_ok e (heap_for e).
Proof.
  intros e O C. split.
  - intros t w I. unfold heap_for in I. apply in_app_or in I. destruct I as [I|[I|I]].
    + apply in_map_iff in I. destruct I as (a & Q & I). right. left. exists a. split; [exact I|congruence].
    + left. congruence.
    + apply in_flat_map in I. destruct I as (k & _ & I). apply in_flat_map in I. destruct I as (j & J & I). apply in_flat_map in I. destruct I as (a & A & I). apply in_seq in J.
      right. right. exists a, k, j. split; [exact A|]. split; [lia|]. destruct (x_arr e (a, (k, j))); [destruct I|]. destruct I as [I|[]]. congruence.
  - apply once_ok. exact O.
  - intros a k j A J N. unfold heap_for. rewrite map_app. apply in_or_app. right. right. apply in_map_iff. exists (SHeap (Cell (a, (k, j))), [11]). split; [reflexivity|].
    apply in_flat_map. exists k. split; [apply built_all|]. apply in_flat_map. exists j. split; [apply in_seq; lia|]. apply in_flat_map. exists a. split; [exact A|].
    destruct (x_arr e (a, (k, j))); [congruence|left; reflexivity].
  - intros a A. unfold heap_for. rewrite map_app. apply in_or_app. left. rewrite map_map. apply in_map_iff. exists a. auto.
  - apply Z.leb_le. exact C.
Qed.
Lemma sample_heap : forall e, BuildCppExport lay 10 sample = Ok e -> heap_ok e (heap_for e).
Proof.
  assert (G : match BuildCppExport lay 10 sample with
              | Ok e => once (filter (fun t => if tag_dec t SJunk then false else true) (map fst (heap_for e))) && (image_size e (heap_for e) <=? CAPACITY)
              | _ => false end = true) by (vm_compute; reflexivity).
  intros e E. rewrite E in G. apply andb_true_iff in G. apply heap_for_ok; tauto.
Qed.
Lemma sample_owned : attributes_owned sample.
Proof.
  intros l I. assert (E : forallb (fun l => match owner sample l with Some _ => true | None => false end) (places sample KPrimAttr) = true) by (vm_compute; reflexivity).
  rewrite forallb_forall in E. apply E in I. destruct (owner sample l); congruence.
Qed.

(* a database with one attribute whose owner is not in it *)
Definition lost : database := mk_db (fold_left (fun m s => m_set (hash_of s) (nam s) m) ["load_x"; "Gone"; "f"]%string [])
  [] [] [] [] [] [] [] [] [] [] [] [] (tab pa_prim [mk_pattr (pri "load_x" "Gone") (nam "f")]) [] [] [].
Lemma lost_exportable : exportable lay 1 lost.
Proof.
  assert (W : tables_b lost = true) by (vm_compute; reflexivity).
  unfold exportable. split; [|split; [|split; [|split; [|split; [|split; [|split]]]]]].
  - apply tables_b_ok. exact W.
  - apply names_known_ok. vm_compute. reflexivity.
  - intros l Hl. destruct Hl.
  - split; [vm_compute; discriminate|]. split.
    + unfold tables_b in W. rewrite !andb_true_iff in W. apply names_b_ok. tauto.
    + intros h a Ha. destruct Ha.
  - apply clash_b_ok. vm_compute. reflexivity.
  - exact isort_sorts.
  - constructor.
  - exists (fun _ => 0%nat). split; [intros; lia|]. apply rank_b_ok. reflexivity.
Qed.
Lemma lost_heap : forall e, BuildCppExport lay 1 lost = Ok e -> heap_ok e (heap_for e).
Proof.
  assert (G : match BuildCppExport lay 1 lost with
              | Ok e => once (filter (fun t => if tag_dec t SJunk then false else true) (map fst (heap_for e))) && (image_size e (heap_for e) <=? CAPACITY)
              | _ => false end = true) by (vm_compute; reflexivity).
  intros e E. rewrite E in G. apply andb_true_iff in G. apply heap_for_ok; tauto.
Qed.
