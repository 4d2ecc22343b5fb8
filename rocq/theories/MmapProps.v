(* C05 to C08: saving and loading memory-mapped databases *)
From Verif Require Import Base BaseProofs MmapModel MmapSpec MmapProofs.

(* C05 *)
Theorem C05_export_then_load : forall addr start ss rs img rest next live file,
  tables_ok ss rs -> Forall is_byte img -> zlen img < 2 ^ 32 -> 0 <= start ->
  slots_ok (zlen img) (slots ss rs) -> pointers_ok start img (slots ss rs) ->
  SaveFile start ss rs img = Ok file ->
  0 <= addr next -> addr next + zlen img < 2 ^ 64 -> Forall (fun b => b < next) live ->
  exists img', LoadMemoryMappedDatabase addr (mk_env (file ++ rest) next live) =
                 Ok (Some (next, img'), mk_env rest (next + 4) (live ++ [next])) /\
    moved start (addr next) (slots ss rs) img img'.
Proof. exact load_saved. Qed.
Print Assumptions C05_export_then_load.
(* under the same conditions the exporter's own assert does not fire either *)
Theorem C05_export_succeeds : forall start ss rs img,
  tables_ok ss rs -> Forall is_byte img -> zlen img < 2 ^ 32 -> 0 <= start ->
  slots_ok (zlen img) (slots ss rs) -> pointers_ok start img (slots ss rs) -> exists file, SaveFile start ss rs img = Ok file.
Proof. intros start ss rs img H1 H2 H3 H4 H5 H6. destruct (save_ok start ss rs img H1 H2 H3 H4 H5 H6) as [img' [E _]]. eexists. exact E. Qed.
Print Assumptions C05_export_succeeds.
(* a pointer to the very first byte of the image comes back null *)
Theorem C05_first_byte_refuted : exists start ss rs img file img' e,
  SaveFile start ss rs img = Ok file /\ slots ss rs = [0] /\ ptr_at img 0 = start /\
  LoadMemoryMappedDatabase (fun _ => 4096) (mk_env file 0 []) = Ok (Some (0, img'), e) /\ ptr_at img' 0 = 0.
Proof.
  exists 1000, [mk_schema 8 [0]], [mk_reloc 0 [0;0;0;0] 0 1 [0;0;0;0]], (le_bytes 8 1000).
  eexists. eexists. eexists. split; [vm_compute; reflexivity|]. split; [reflexivity|]. split; [reflexivity|]. split; [vm_compute; reflexivity|]. reflexivity.
Qed.
Print Assumptions C05_first_byte_refuted.

(* a database of two objects of 16 bytes: each a number and a pointer to the other; and a pointer to
   the second one, seen through a schema that extends the first *)
Definition ex_img (start : Z) : list Z :=
  le_bytes 8 7 ++ le_bytes 8 (start + 16) ++ le_bytes 8 9 ++ le_bytes 8 (start + 8) ++ le_bytes 8 (start + 40) ++ le_bytes 8 0.
Definition ex_rs (start : Z) : list reloc :=
  AddPointers start (AddPointers start (AddPointers start [] 0 start 2 [1;2;3;4] [0;0;0;0]) 1 (start + 24) 1 [0;0;0;0] [9;9;9;9]) 1 0 5 [] [].
Definition ex_ss : outcome (list schema) := do ss <- AddSchema [] 16 None [8]; AddSchema ss 32 (Some 0) [16].
Example C05_witness : exists ss file, ex_ss = Ok ss /\ slots ss [hd (mk_reloc 0 [] 0 0 []) (ex_rs 5000)] = [8; 24] /\
  tables_ok ss [hd (mk_reloc 0 [] 0 0 []) (ex_rs 5000)] /\ Forall is_byte (ex_img 5000) /\ slots_ok (zlen (ex_img 5000)) [8; 24] /\
  pointers_ok 5000 (ex_img 5000) [8; 24] /\ SaveFile 5000 ss [hd (mk_reloc 0 [] 0 0 []) (ex_rs 5000)] (ex_img 5000) = Ok file /\
  exists img' e, LoadMemoryMappedDatabase (fun _ => 70000) (mk_env file 3 [1]) = Ok (Some (3, img'), e) /\ ptr_at img' 8 = 70016 /\ e_live e = [1; 3].
Proof.
  eexists. eexists. split; [reflexivity|]. split; [reflexivity|]. split.
  { unfold tables_ok. do 2 (split; [discriminate|]). do 3 (split; [vm_compute; reflexivity|]). split.
    - apply Forall_cons; [|apply Forall_cons; [|apply Forall_nil]]; (split; [unfold is_u64; cbn; lia|]; split; [discriminate|]);
        [apply Forall_cons; [|apply Forall_nil]|apply Forall_cons; [|apply Forall_cons; [|apply Forall_nil]]]; unfold is_u64; lia.
    - apply Forall_cons; [|apply Forall_nil]. unfold is_u64, is_s32. split; [vm_compute; intuition discriminate|]. repeat (split; [vm_compute; intuition discriminate|]). reflexivity. }
  split; [unfold ex_img; repeat (apply Forall_app; split); apply le_bytes_bytes|]. split.
  { split; [intros p [<-|[<-|[]]]; vm_compute; intuition discriminate|]. apply FOP_cons; [apply Forall_cons; [lia|apply Forall_nil]|apply FOP_cons; [apply Forall_nil|apply FOP_nil]]. }
  split; [intros p [<-|[<-|[]]]; right; vm_compute; intuition discriminate|].
  split; [vm_compute; reflexivity|]. eexists. eexists. split; [vm_compute; reflexivity|]. split; vm_compute; reflexivity.
Qed.

(* C06 *)
Theorem C06_foreign_rejected : forall addr e, Forall is_byte (e_file e) -> env_ok e ->
  zlen (e_file e) < 32 \/ firstn 12 (e_file e) <> magic ->
  exists f', LoadMemoryMappedDatabase addr e = Ok (None, mk_env f' (e_next e) (e_live e)).
Proof.
  intros addr e Hb He H. destruct (load_any addr e Hb He) as [[_ X]|[[[X1 _] [X2 _]]|[X1 [_ [X2 _]]]]]; [exact X| |];
    (exfalso; destruct H as [H|H]; [lia|contradiction]).
Qed.
Print Assumptions C06_foreign_rejected.
Theorem C06_truncated_rejected : forall addr start ss rs img next live file n,
  tables_ok ss rs -> Forall is_byte img -> zlen img < 2 ^ 32 -> 0 <= start ->
  slots_ok (zlen img) (slots ss rs) -> pointers_ok start img (slots ss rs) -> Forall (fun r => Forall is_byte (rl_pad0 r ++ rl_pad1 r)) rs ->
  SaveFile start ss rs img = Ok file -> (n < length file)%nat -> Forall (fun b => b < next) live ->
  exists e, LoadMemoryMappedDatabase addr (mk_env (firstn n file) next live) = Ok (None, e).
Proof. exact load_truncated. Qed.
Print Assumptions C06_truncated_rejected.
(* any file shorter than its own header says is rejected *)
Theorem C06_short_rejected : forall addr e, Forall is_byte (e_file e) -> env_ok e -> zlen (e_file e) < full_length (e_file e) ->
  exists e', LoadMemoryMappedDatabase addr e = Ok (None, e').
Proof.
  intros addr e Hb He H. destruct (load_any addr e Hb He) as [[_ [f' X]]|[[_ [_ [f' [n X]]]]|[_ [X _]]]]; [eexists; exact X|eexists; exact X|lia].
Qed.
Print Assumptions C06_short_rejected.
Example C06_witness : firstn 12 (repeat 7 40) <> magic /\ env_ok (mk_env (repeat 7 40) 5 [2; 3]) /\ Forall is_byte (repeat 7 40) /\
  LoadMemoryMappedDatabase (fun _ => 0) (mk_env (repeat 7 40) 5 [2; 3]) = Ok (None, mk_env (repeat 7 8) 5 [2; 3]).
Proof.
  split; [discriminate|]. split; [unfold env_ok; cbn; repeat constructor|]. split; [|reflexivity].
  apply Forall_forall. intros x Hx. apply repeat_spec in Hx. subst. unfold is_byte. lia.
Qed.

(* C07 *)
Theorem C07_what_a_failed_load_keeps : forall addr e e', Forall is_byte (e_file e) -> env_ok e ->
  LoadMemoryMappedDatabase addr e = Ok (None, e') -> e_live e' = e_live e ++ leaked (e_next e) (e_file e).
Proof.
  intros addr e e' Hb He H. destruct (load_any addr e Hb He) as [[X1 [f' X]]|[[_ [_ [f' [n X]]]]|[X1 [X2 [X3 [[img X]|[X|[X|X]]]]]]]]; rewrite X in H; try discriminate.
  - injection H as <-. cbn. unfold leaked. destruct (Z.ltb_spec (zlen (e_file e)) 32); [rewrite app_nil_r; reflexivity|].
    destruct (list_eq_dec Z.eq_dec (firstn 12 (e_file e)) magic) as [E|E]; [exfalso; destruct X1; [lia|contradiction]|]. cbn [negb]. rewrite app_nil_r. reflexivity.
  - injection H as <-. reflexivity.
Qed.
Print Assumptions C07_what_a_failed_load_keeps.
(* so a failed load does not give everything back: truncating a valid file leaks the image *)
Theorem C07_frees_everything_refuted : exists file e, SaveFile 5000 [mk_schema 8 [0]] [mk_reloc 0 [0;0;0;0] 0 1 [0;0;0;0]] (le_bytes 8 5008) = Ok file /\
  LoadMemoryMappedDatabase (fun _ => 4096) (mk_env (removelast file) 0 []) = Ok (None, e) /\ e_live e = [0; 1; 2].
Proof. eexists. eexists. split; [vm_compute; reflexivity|]. split; vm_compute; reflexivity. Qed.
Print Assumptions C07_frees_everything_refuted.

(* C08 *)
Theorem C08_success_keeps_one_block : forall addr e db e', Forall is_byte (e_file e) -> env_ok e ->
  LoadMemoryMappedDatabase addr e = Ok (Some db, e') ->
  e_live e' = e_live e ++ [fst db] /\ ~ In (fst db) (e_live e) /\
  exists e'', destroy (Some db) e' = Ok e'' /\ e_live e'' = e_live e.
Proof.
  intros addr e db e' Hb He H. destruct (load_any addr e Hb He) as [[X1 [f' X]]|[[_ [_ [f' [n X]]]]|[X1 [X2 [X3 [[img X]|[X|[X|X]]]]]]]]; rewrite X in H; try discriminate.
  injection H as <- <-. cbn [fst e_live]. assert (Hn : ~ In (e_next e) (e_live e)).
  { intros Hin. unfold env_ok in He. rewrite Forall_forall in He. specialize (He _ Hin). lia. }
  split; [reflexivity|]. split; [exact Hn|]. cbn [destroy]. rewrite free_last by exact Hn. eexists. split; reflexivity.
Qed.
Print Assumptions C08_success_keeps_one_block.
Example C08_witness : exists file db e, SaveFile 5000 [mk_schema 8 [0]] [mk_reloc 0 [0;0;0;0] 0 1 [0;0;0;0]] (le_bytes 8 5008) = Ok file /\
  LoadMemoryMappedDatabase (fun _ => 4096) (mk_env file 0 []) = Ok (Some db, e) /\ e_live e = [0].
Proof. eexists. eexists. eexists. split; [vm_compute; reflexivity|]. split; vm_compute; reflexivity. Qed.
