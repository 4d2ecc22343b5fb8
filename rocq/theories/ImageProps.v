(* C70: an exported database, saved and loaded elsewhere, is the same database. *)
From Coq Require Import String Permutation.
From Verif Require Import Base MmapModel MmapSpec ImageLayout ImageModel ImageSpec ImageProofs.
#[local] Open Scope string_scope.
#[local] Open Scope Z_scope.
#[local] Open Scope list_scope.

(* SaveCppExport succeeds on every image, and whatever address its file is loaded at, the database is the same there:
   every array of every object is found with the same element type and count, every pointer of every object leads to
   the same object, and nothing else has changed *)
Theorem C70_exported_database_loads : forall start img pad, image_ok start img ->
  (forall k, length (fst (pad k)) = 4%nat /\ length (snd (pad k)) = 4%nat) ->
  exists file, SaveCppExport start img pad = Ok file /\
    forall addr rest next live, 0 <= addr next -> addr next + zlen img < 2 ^ 64 -> Forall (fun b => b < next) live ->
    exists img', LoadMemoryMappedDatabase addr (mk_env (file ++ rest) next live) =
                   Ok (Some (next, img'), mk_env rest (next + 4) (live ++ [next])) /\
      same_database start img (addr next) img'.
Proof. exact export_load. Qed.
Print Assumptions C70_exported_database_loads.

(* the nesting bound is not what cuts the structures off *)
Example C70_depth : forall s, In s [Name; Qualifier; ContainerInfo; Primitive; FlagAttribute; IntAttribute; FloatAttribute; PrimitiveAttribute;
    TextAttribute; Type_; EnumConstant; Enum; Field; Function_; TemplateType; Template; Class; Namespace; DatabaseMem] ->
  extent (S DEPTH) (Struct s) = extent DEPTH (Struct s) /\ pointers_in (S DEPTH) (Struct s) = pointers (Struct s) /\
  arrays_in (S DEPTH) (Struct s) = arrays (Struct s).
Proof. intros s H. destruct s; vm_compute; auto. Qed.
(* the sizes a 64-bit compiler gives *)
Example C70_sizes : map (fun s => size_of (Struct s)) [Name; ContainerInfo; Primitive; Type_; EnumConstant; Enum; Field; Function_; TemplateType;
    Template; Class; Namespace; DatabaseMem] = [16; 40; 40; 80; 48; 136; 104; 120; 136; 64; 248; 184; 616].
Proof. vm_compute. reflexivity. Qed.
(* the pointers of a Field *)
Example C70_field_pointers : pointers (Struct Field) =
  [(["name"; "text"], 16); (["parent"], 24); (["database"], 32); (["type"], 40); (["attributes"; "data"], 72); (["attributes"; "allocator"], 80); (["ci"], 96)].
Proof. vm_compute. reflexivity. Qed.

(* a database of two names, a type, an enum of one constant, a class with that type as its base, a field and a method,
   a template with one instance and a namespace holding the class, exported at 4096 *)
Definition put (img : list Z) (w : Z * nat * Z) : list Z :=
  let '(p, n, v) := w in firstn (Z.to_nat p) img ++ le_bytes n v ++ skipn (Z.to_nat p + n) img.
Definition ptr (p v : Z) : list (Z * nat * Z) := [(p, 8%nat, 4096 + v)].
Definition arr (p n v : Z) : list (Z * nat * Z) := (p, 4%nat, n) :: ptr (p + 8) v.
Definition named (p text parent : Z) : list (Z * nat * Z) := ptr (p + 16) text ++ ptr (p + 24) parent.
Definition db_image : list Z :=
  fold_left put
   (ptr 8 2064 ++ arr 16 2 616 ++ arr 40 1 648 ++ arr 64 1 728 ++ arr 88 1 776 ++ arr 112 2 912 ++ arr 136 1 1120 ++ arr 160 1 1240 ++ arr 184 1 1624 ++
    arr 208 1 1488 ++ arr 232 1 1688 ++ arr (OffsetOf DatabaseMem "text_attributes") 1 1872 ++ arr 384 4 1960 ++
    arr (OffsetOf DatabaseMem "container_infos") 1 1920 ++
    arr (OffsetOf DatabaseMem "global_namespace" + OffsetOf Namespace "namespaces") 1 2048 ++
    ptr 624 2064 ++ ptr 640 2066 ++                                                          (* names *)
    named 648 2064 1688 ++ ptr (648 + OffsetOf Type_ "ci") 1920 ++                           (* type *)
    named 728 2066 776 ++                                                                    (* enum constant *)
    named 776 2064 1688 ++ arr (776 + OffsetOf Enum "constants") 1 1992 ++                   (* enum *)
    named 912 2066 1240 ++ ptr (912 + OffsetOf Field "type") 648 ++ arr (912 + OffsetOf Field "attributes") 1 2024 ++     (* fields *)
    named 1016 2066 1120 ++ ptr (1016 + OffsetOf Field "type") 776 ++
    named 1120 2064 1240 ++ arr (1120 + OffsetOf Function_ "parameters") 1 2000 ++           (* function *)
    named 1240 2066 1688 ++ arr (1240 + OffsetOf Type_ "base_types") 1 2056 ++ arr (1240 + OffsetOf Class "fields") 1 2008 ++
    arr (1240 + OffsetOf Class "methods") 1 2016 ++                                          (* class *)
    named 1488 2064 1624 ++ ptr (1488 + OffsetOf TemplateType "parameter_types" + 8) 648 ++  (* template type *)
    named 1624 2064 1688 ++ arr (1624 + OffsetOf Template "instances") 1 2032 ++             (* template *)
    ptr (1688 + 16) 2066 ++ arr (1688 + OffsetOf Namespace "classes") 1 2040 ++              (* namespace *)
    named 1872 2066 912 ++ ptr (1872 + OffsetOf TextAttribute "value") 2066 ++               (* text attribute *)
    ptr 1928 2064 ++ ptr (1920 + OffsetOf ContainerInfo "read_iterator_type") 648 ++         (* container *)
    ptr 1960 1240 ++ ptr 1968 648 ++ ptr 1976 776 ++ ptr 1984 1488 ++                        (* type_primitives *)
    ptr 1992 728 ++ ptr 2000 1016 ++ ptr 2008 912 ++ ptr 2016 1120 ++ ptr 2024 1872 ++ ptr 2032 1488 ++ ptr 2040 1240 ++ ptr 2048 1688 ++ ptr 2056 648 ++
    [(2064, 4%nat, 65 + 66 * 2 ^ 16)])
   (repeat 0 2072).

(* every block of an image, by the length of its path *)
Definition kids (start : Z) (img : list Z) (x : list (Z * Z) * block) : list (list (Z * Z) * block) :=
  let '(p, b) := x in
  flat_map (fun j => map (fun a => ((Z.of_nat j, fst a) :: p,
      mk_block (ptr_at img (elem b (Z.of_nat j) + fst a + 8 - start)) (snd a) (u32_at img (elem b (Z.of_nat j) + fst a - start)))) (arrays (b_type b)))
    (seq 0 (Z.to_nat (b_count b))).
Fixpoint gen (start : Z) (img : list Z) (n : nat) : list (list (Z * Z) * block) :=
  match n with O => [([], mk_block start (Struct DatabaseMem) 1)] | S k => flat_map (kids start img) (gen start img k) end.
Lemma gen_all : forall start img p b, block_at start img p b -> In (p, b) (gen start img (length p)).
Proof.
  intros start img p b H. induction H as [|p b j o e H IH Hj Ho]; [left; reflexivity|]. cbn [length gen]. apply in_flat_map. exists (p, b). split; [exact IH|].
  unfold kids. apply in_flat_map. exists (Z.to_nat j). split; [apply in_seq; lia|]. rewrite Z2Nat.id by lia. apply in_map_iff. exists (o, e). split; [reflexivity|exact Ho].
Qed.
Lemma gen_end : forall start img n k, gen start img n = [] -> gen start img (n + k) = [].
Proof. intros start img n k E. induction k as [|k IH]; [rewrite Nat.add_0_r; exact E|]. rewrite Nat.add_succ_r. cbn [gen]. rewrite IH. reflexivity. Qed.
Definition db_blocks : list (list (Z * Z) * block) := gen 4096 db_image 0 ++ gen 4096 db_image 1 ++ gen 4096 db_image 2.
Lemma db_blocks_all : forall p b, block_at 4096 db_image p b -> In (p, b) db_blocks.
Proof.
  intros p b H. apply gen_all in H. unfold db_blocks. destruct (length p) as [|[|[|n]]].
  - apply in_or_app. left. exact H.
  - apply in_or_app. right. apply in_or_app. left. exact H.
  - apply in_or_app. right. apply in_or_app. right. exact H.
  - exfalso. change (S (S (S n))) with (3 + n)%nat in H. rewrite (gen_end 4096 db_image 3 n) in H; [destruct H|]. vm_compute. reflexivity.
Qed.
Definition path_eqb (p q : list (Z * Z)) : bool := if list_eq_dec (fun x y : Z * Z => ltac:(decide equality; apply Z.eq_dec)) p q then true else false.
Definition db_check : bool :=
  forallb (fun x => let b := snd x in
     (b_count b <? 2 ^ 31) && ((b_count b <=? 0) || ((4096 <=? b_addr b) && (b_addr b + b_count b * size_of (b_type b) <=? 4096 + zlen db_image))) &&
     forallb (fun y => let c := snd y in path_eqb (fst x) (fst y) || (b_count b <=? 0) || (b_count c <=? 0) ||
        (b_addr b + b_count b * size_of (b_type b) <=? b_addr c) || (b_addr c + b_count c * size_of (b_type c) <=? b_addr b)) db_blocks &&
     forallb (fun j => forallb (fun a => let v := ptr_at db_image (elem b (Z.of_nat j) + snd a - 4096) in
        (v =? 0) || (negb (outside (fst a)) && (4096 <? v) && (v <=? 4096 + zlen db_image))) (pointers (b_type b))) (seq 0 (Z.to_nat (b_count b)))) db_blocks.
Lemma db_checked : db_check = true.
Proof. vm_compute. reflexivity. Qed.

Example C70_witness : image_ok 4096 db_image.
Proof.
  pose proof db_checked as C. unfold db_check in C. rewrite forallb_forall in C.
  assert (D : forall p b, block_at 4096 db_image p b -> b_count b < 2 ^ 31 /\ (0 < b_count b -> 4096 <= b_addr b /\ b_addr b + b_count b * size_of (b_type b) <= 4096 + zlen db_image) /\
    (forall p' b', block_at 4096 db_image p' b' -> p <> p' -> 0 < b_count b -> 0 < b_count b' ->
       b_addr b + b_count b * size_of (b_type b) <= b_addr b' \/ b_addr b' + b_count b' * size_of (b_type b') <= b_addr b) /\
    (forall j n o, 0 <= j < b_count b -> In (n, o) (pointers (b_type b)) -> ptr_at db_image (elem b j + o - 4096) = 0 \/
       (outside n = false /\ 4096 < ptr_at db_image (elem b j + o - 4096) <= 4096 + zlen db_image))).
  { intros p b H. apply db_blocks_all in H. specialize (C _ H). cbn [fst snd] in C. rewrite !andb_true_iff in C. destruct C as [[[C1 C2] C3] C4]. rewrite forallb_forall in C3, C4.
    split; [lia|]. split; [intros X; rewrite orb_true_iff, andb_true_iff in C2; lia|]. split.
    - intros p' b' H' Np X Y. apply db_blocks_all in H'. specialize (C3 _ H'). cbn [fst snd] in C3. rewrite !orb_true_iff in C3. unfold path_eqb in C3. destruct (list_eq_dec _ p p') in C3; [contradiction|].
      destruct C3 as [[[[C3|C3]|C3]|C3]|C3]; [discriminate|lia|lia|lia|lia].
    - intros j n o Hj Hn. assert (Hin : In (Z.to_nat j) (seq 0 (Z.to_nat (b_count b)))) by (apply in_seq; lia). specialize (C4 _ Hin). cbv beta in C4. rewrite forallb_forall in C4.
      specialize (C4 _ Hn). cbn [fst snd] in C4. rewrite Z2Nat.id in C4 by lia. rewrite orb_true_iff, !andb_true_iff, negb_true_iff in C4. destruct C4 as [C4|[[C4 C5] C6]]; [left; lia|right; split; [exact C4|lia]]. }
  split.
  - assert (B : forallb (fun x => (0 <=? x) && (x <? 256)) db_image = true) by (vm_compute; reflexivity). rewrite forallb_forall in B. apply Forall_forall. intros x Hx. specialize (B x Hx). unfold is_byte. lia.
  - lia.
  - vm_compute. reflexivity.
  - intros p b H. apply (D p b H).
  - intros p b H. apply (D p b H).
  - intros p b p' b' H H'. apply (D p b H). exact H'.
  - intros n q [p [b [j [o [H [Hj [Hn ->]]]]]]]. apply (D p b H); assumption.
  - vm_compute. apply perm_swap.
  - vm_compute. reflexivity.
Qed.

(* the theorem applied to it: loaded at 2^40, the class's first field still has the type the class is derived from *)
Definition zero_pads : nat -> list Z * list Z := fun _ => ([0; 0; 0; 0], [0; 0; 0; 0]).
Example C70_case : exists file img',
  SaveCppExport 4096 db_image zero_pads = Ok file /\
  LoadMemoryMappedDatabase (fun _ => 2 ^ 40) (mk_env file 0 []) = Ok (Some (0, img'), mk_env [] 4 [0]) /\
  same_database 4096 db_image (2 ^ 40) img'.
Proof.
  destruct (C70_exported_database_loads 4096 db_image zero_pads C70_witness) as [file [E L]]; [intros k; auto|].
  destruct (L (fun _ => 2 ^ 40) [] 0 []) as [img' [L1 L2]]; [lia|vm_compute; reflexivity|constructor|]. rewrite app_nil_r in L1. exists file, img'. auto.
Qed.
Example C70_case_pointers : match SaveCppExport 4096 db_image zero_pads with
  | Ok file => match LoadMemoryMappedDatabase (fun _ => 2 ^ 40) (mk_env file 0 []) with
      | Ok (Some (_, img'), _) => [ptr_at img' (912 + OffsetOf Field "type"); ptr_at img' 2056; ptr_at img' (1240 + 24); ptr_at img' (1688 + 24)]
      | _ => [] end
  | _ => [] end = [2 ^ 40 + 648; 2 ^ 40 + 648; 2 ^ 40 + 1688; 0].
Proof. vm_compute. reflexivity. Qed.
