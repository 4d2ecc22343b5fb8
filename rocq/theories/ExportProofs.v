(* General lemmas for the export model, the names, the tables and one parenting pass. *)
From Verif Require Import Base BaseProofs Text HashModel HashSpec HashProofs SearchModel Maps DatabaseModel NamesProofs MergeSpec ExportModel ExportSpec.
From Coq Require Import Sorted Permutation.

Lemma bindOk : forall A B (m : outcome A) (f : A -> outcome B) x, m = Ok x -> obind m f = f x.
Proof. intros A B m f x ->. reflexivity. Qed.

(* ---- equality tests ---- *)
Lemma kind_eqb_spec : forall a b, reflect (a = b) (kind_eqb a b).
Proof. intros a b; destruct a, b; constructor; congruence. Qed.
Lemma kind_eqb_refl : forall a, kind_eqb a a = true.
Proof. intros a; destruct a; reflexivity. Qed.
Lemma ak_eqb_spec : forall a b, reflect (a = b) (ak_eqb a b).
Proof. intros a b; destruct a, b; constructor; congruence. Qed.
Lemma loc_eqb_spec : forall a b, reflect (a = b) (loc_eqb a b).
Proof.
  intros [k i] [k' i']. unfold loc_eqb. cbn [fst snd]. destruct (kind_eqb_spec k k'); destruct (Nat.eqb_spec i i'); cbn; constructor; congruence.
Qed.
Lemma loc_eqb_refl : forall a, loc_eqb a a = true.
Proof. intros a. destruct (loc_eqb_spec a a); congruence. Qed.
Lemma cell_eqb_spec : forall a b, reflect (a = b) (cell_eqb a b).
Proof.
  intros [a l] [b m]. unfold cell_eqb. cbn [fst snd]. destruct (ak_eqb_spec a b); destruct (loc_eqb_spec l m); cbn; constructor; congruence.
Qed.
Lemma cell_eqb_refl : forall a, cell_eqb a a = true.
Proof. intros a. destruct (cell_eqb_spec a a); congruence. Qed.
Lemma upd_same : forall A (f : loc -> A) l v, upd f l v l = v.
Proof. intros. unfold upd. rewrite loc_eqb_refl. reflexivity. Qed.
Lemma upd_other : forall A (f : loc -> A) l v l', l <> l' -> upd f l v l' = f l'.
Proof. intros. unfold upd. destruct (loc_eqb_spec l l'); congruence. Qed.
Lemma updc_same : forall A (f : cell -> A) l v, updc f l v l = v.
Proof. intros. unfold updc. rewrite cell_eqb_refl. reflexivity. Qed.
Lemma updc_other : forall A (f : cell -> A) l v l', l <> l' -> updc f l v l' = f l'.
Proof. intros. unfold updc. destruct (cell_eqb_spec l l'); congruence. Qed.

(* ---- loops ---- *)
Lemma each_app : forall A S (f : A -> S -> outcome S) l l' s, each f (l ++ l') s = do s' <- each f l s; each f l' s'.
Proof. induction l as [|a l IH]; intros; cbn [each app]; [reflexivity|]. destruct (f a s); cbn [obind]; auto. Qed.
Lemma each_inv : forall A S (f : A -> S -> outcome S) (P : list A -> S -> Prop) l s,
  P [] s -> (forall done a s, (exists rest, l = done ++ a :: rest) -> P done s -> exists s', f a s = Ok s' /\ P (done ++ [a]) s') ->
  exists s', each f l s = Ok s' /\ P l s'.
Proof.
  intros A S f P l s H0 Hs.
  enough (forall todo done s, l = done ++ todo -> P done s -> exists s', each f todo s = Ok s' /\ P l s').
  { apply (H l [] s); [reflexivity|exact H0]. }
  induction todo as [|a todo IH]; intros done s1 E HP; cbn [each].
  - rewrite app_nil_r in E. subst. eauto.
  - destruct (Hs done a s1) as [s2 [H1 H2]]; [eauto|exact HP|]. rewrite H1. cbn [obind].
    apply (IH (done ++ [a]) s2); [rewrite <- app_assoc; exact E|exact H2].
Qed.
Lemma mapM_ok : forall A B (f : A -> outcome B) g l, (forall a, In a l -> f a = Ok (g a)) -> mapM f l = Ok (map g l).
Proof.
  induction l as [|a l IH]; intros H; cbn [mapM map]; [reflexivity|].
  rewrite (H a) by (left; reflexivity). cbn [obind]. rewrite IH by (intros; apply H; right; assumption). reflexivity.
Qed.

(* ---- lists ---- *)
Lemma filter_ext_in2 : forall A (f g : A -> bool) l, (forall a, In a l -> f a = g a) -> filter f l = filter g l.
Proof. intros. apply filter_ext_in. assumption. Qed.
Lemma find_ext : forall A (f g : A -> bool) l, (forall a, In a l -> f a = g a) -> find f l = find g l.
Proof.
  induction l as [|a l IH]; intros H; cbn [find]; [reflexivity|]. rewrite (H a) by (left; reflexivity).
  destruct (g a); [reflexivity|]. apply IH. intros; apply H; right; assumption.
Qed.
Lemma find_filter : forall A (f g : A -> bool) l, find f (filter g l) = find (fun x => g x && f x) l.
Proof. induction l as [|a l IH]; cbn [find filter]; [reflexivity|]. destruct (g a); cbn [find andb]; [|exact IH]. destruct (f a); auto. Qed.
Lemma find_map : forall A B (f : B -> bool) (g : A -> B) l, find f (map g l) = option_map g (find (fun x => f (g x)) l).
Proof. induction l as [|a l IH]; cbn [find map]; [reflexivity|]. destruct (f (g a)); [reflexivity|exact IH]. Qed.
Lemma find_hd : forall A (f : A -> bool) l, find f l = hd_error (filter f l).
Proof. induction l as [|a l IH]; cbn [find filter]; [reflexivity|]. destruct (f a); [reflexivity|exact IH]. Qed.
Lemma filter_map_comm : forall A B (f : B -> bool) (g : A -> B) l, filter f (map g l) = map g (filter (fun x => f (g x)) l).
Proof. induction l as [|a l IH]; cbn [filter map]; [reflexivity|]. destruct (f (g a)); cbn [map]; congruence. Qed.
Lemma filter_app2 : forall A (f : A -> bool) l l', filter f (l ++ l') = filter f l ++ filter f l'.
Proof. intros. apply filter_app. Qed.

(* ---- multimaps built by inserting in turn ---- *)
Lemma fold_mm_sorted : forall A V (key : A -> Z) (val : A -> V) l m, sorted (keys m) ->
  sorted (keys (fold_left (fun m p => mm_insert (key p) (val p) m) l m)).
Proof. induction l as [|a l IH]; intros m H; cbn [fold_left]; [exact H|]. apply IH. apply mm_insert_sorted. exact H. Qed.
Lemma fold_mm_range : forall A V (key : A -> Z) (val : A -> V) h l m, sorted (keys m) ->
  m_range h (fold_left (fun m p => mm_insert (key p) (val p) m) l m) = m_range h m ++ map val (filter (fun p => key p =? h) l).
Proof.
  induction l as [|a l IH]; intros m H; cbn [fold_left filter map]; [rewrite app_nil_r; reflexivity|].
  rewrite IH by (apply mm_insert_sorted; exact H). rewrite m_range_insert by exact H.
  destruct (key a =? h); cbn [map]; [rewrite <- app_assoc|]; reflexivity.
Qed.

(* ---- places ---- *)
Lemma locs_In : forall (T : table) k l, In l (locs T k) <-> fst l = k /\ (snd l < length (T k))%nat.
Proof.
  intros T k [k' i]. unfold locs. rewrite in_map_iff. cbn [fst snd]. split.
  - intros [j [E H]]. apply in_seq in H. injection E as <- <-. split; [reflexivity|lia].
  - intros [-> H]. exists i. split; [reflexivity|]. apply in_seq. lia.
Qed.
Lemma locs_NoDup : forall (T : table) k, NoDup (locs T k).
Proof.
  intros. unfold locs. apply FinFun.Injective_map_NoDup; [|apply seq_NoDup]. intros a b H. congruence.
Qed.
Lemma places_In : forall db k l, In l (places db k) <-> fst l = k /\ (snd l < length (items db k))%nat.
Proof.
  intros T k [k' i]. unfold places. rewrite in_map_iff. cbn [fst snd]. split.
  - intros [j [E H]]. apply in_seq in H. injection E as <- <-. split; [reflexivity|lia].
  - intros [-> H]. exists i. split; [reflexivity|]. apply in_seq. lia.
Qed.
Lemma places_NoDup : forall db k, NoDup (places db k).
Proof.
  intros. unfold places. apply FinFun.Injective_map_NoDup; [|apply seq_NoDup]. intros a b H. congruence.
Qed.
Lemma NoDup_flat_places : forall (f : kind -> list loc), (forall k l, In l (f k) -> fst l = k) -> (forall k, NoDup (f k)) ->
  forall ks, NoDup ks -> NoDup (flat_map f ks).
Proof.
  intros f Hf Hn ks. induction ks as [|k ks IH]; intros H; cbn [flat_map]; [constructor|].
  inversion H; subst. assert (HD : forall a b : list loc, NoDup a -> NoDup b -> (forall x, In x a -> ~ In x b) -> NoDup (a ++ b)).
  { induction a as [|x a IHa]; intros b Ha Hb Hd; cbn [app]; [exact Hb|]. inversion Ha; subst. constructor.
    - rewrite in_app_iff. intros [Hx|Hx]; [contradiction|]. apply (Hd x); [left; reflexivity|exact Hx].
    - apply IHa; [assumption|assumption|]. intros y Hy. apply Hd. right. exact Hy. }
  apply HD; [apply Hn|apply IH; assumption|]. intros x Hx Hy. apply Hf in Hx. apply in_flat_map in Hy. destruct Hy as [k' [Hk' Hy]].
  apply Hf in Hy. congruence.
Qed.

Lemma row_or_get : forall (T : table) l r, nth_error (T (fst l)) (snd l) = Some r -> row_or T l = r /\ get_row T l = Ok r.
Proof. intros T l r H. unfold row_or, get_row. rewrite H. auto. Qed.
Lemma get_row_locs : forall (T : table) k l, In l (locs T k) -> get_row T l = Ok (row_or T l).
Proof.
  intros T k l H. apply locs_In in H. destruct H as [<- H]. unfold get_row, row_or.
  destruct (nth_error (T (fst l)) (snd l)) eqn:E; [reflexivity|]. apply nth_error_None in E. lia.
Qed.

(* ---- one parenting pass ---- *)
(* indices of the rows with a key *)
Lemma combine_seq_nth : forall A (l : list A) s i x, In (i, x) (combine (seq s (length l)) l) <-> (s <= i)%nat /\ nth_error l (i - s) = Some x.
Proof.
  induction l as [|a l IH]; intros s i x; cbn [length seq combine In].
  - split; [contradiction|]. intros [_ H]. destruct (i - s)%nat; discriminate.
  - rewrite IH. split.
    + intros [E|[H1 H2]].
      * injection E as <- <-. split; [lia|]. rewrite Nat.sub_diag. reflexivity.
      * split; [lia|]. replace (i - s)%nat with (S (i - S s)) by lia. exact H2.
    + intros [H1 H2]. destruct (Nat.eq_dec i s) as [->|Hne].
      * left. rewrite Nat.sub_diag in H2. cbn in H2. congruence.
      * right. split; [lia|]. replace (i - s)%nat with (S (i - S s)) in H2 by lia. exact H2.
Qed.
Lemma map_fst_combine_filter : forall A (f : A -> bool) (l : list A) d s,
  map fst (filter (fun p => f (snd p)) (combine (seq s (length l)) l)) =
  filter (fun i => f (nth (i - s) l d)) (seq s (length l)).
Proof.
  induction l as [|a l IH]; intros d s; [reflexivity|].
  assert (E : filter (fun i => f (nth (i - s) (a :: l) d)) (seq (S s) (length l)) = filter (fun i => f (nth (i - S s) l d)) (seq (S s) (length l))).
  { apply filter_ext_in2. intros i Hi. apply in_seq in Hi. replace (i - s)%nat with (S (i - S s)) by lia. reflexivity. }
  cbn [length seq combine]. cbn [filter]. rewrite E. replace (nth (s - s) (a :: l) d) with a by (rewrite Nat.sub_diag; reflexivity).
  cbn [snd]. destruct (f a); cbn [map fst]; rewrite <- (IH d (S s)); reflexivity.
Qed.
Definition norow : row := mk_row 0 None 0 0 0 [] 0 [].
Lemma row_or_nth : forall (T : table) k i, row_or T (k, i) = nth i (T k) norow.
Proof.
  intros. unfold row_or. cbn [fst snd]. destruct (nth_error (T k) i) as [r|] eqn:E.
  - symmetry. apply nth_error_nth. exact E.
  - symmetry. apply nth_overflow. apply nth_error_None. exact E.
Qed.
Lemma ParentMap_range : forall (T : table) k h,
  m_range h (ParentMap (T k)) = filter (fun j => r_hash (row_or T (k, j)) =? h) (seq 0 (length (T k))).
Proof.
  intros T k h. unfold ParentMap. rewrite (fold_mm_range (nat * row) nat (fun p => r_hash (snd p)) fst h) by exact I.
  cbn [m_range map filter app]. rewrite (map_fst_combine_filter _ (fun r => r_hash r =? h) (T k) norow 0).
  apply filter_ext_in2. intros i _. rewrite row_or_nth, Nat.sub_0_r. reflexivity.
Qed.

Section Pass.
Variables (L : layout) (T : table) (pk : kind) (pm : zmap nat) (key : nat -> Z).
Hypothesis Hpm : forall h, m_range h pm = filter (fun j => key j =? h) (seq 0 (length (T pk))).

(* the parent a child gets in this pass, from what its parent pointer holds before *)
Definition target (par : loc -> ref) (c : loc) : option nat :=
  find (fun j => (key j =? to_hash L (par c)) && matches T pk j c) (seq 0 (length (T pk))).
Lemma assign_parent_eq : forall c par cnt,
  assign_parent L T pk pm c (par, cnt) =
  Ok match target par c with
     | Some j => (upd par c (Ptr (pk, j)), fun i => if (i =? j)%nat then cnt j + 1 else cnt i)
     | None => (par, cnt)
     end.
Proof.
  intros c par cnt. unfold assign_parent, target. rewrite Hpm, find_filter.
  destruct (find _ _); reflexivity.
Qed.
Definition is_target (par : loc -> ref) (j : nat) (c : loc) : bool :=
  match target par c with Some i => (i =? j)%nat | None => false end.
Definition new_parent (par : loc -> ref) (c : loc) : ref :=
  match target par c with Some j => Ptr (pk, j) | None => par c end.
Lemma target_ext : forall par par' c, par c = par' c -> target par c = target par' c.
Proof. intros par par' c E. unfold target. rewrite E. reflexivity. Qed.
Lemma assign_all : forall cs par, NoDup cs ->
  exists par' cnt, each (assign_parent L T pk pm) cs (par, fun _ => 0) = Ok (par', cnt) /\
    (forall l, In l cs -> par' l = new_parent par l) /\ (forall l, ~ In l cs -> par' l = par l) /\
    (forall j, cnt j = zlen (filter (is_target par j) cs)).
Proof.
  intros cs par Hnd.
  destruct (each_inv _ _ (assign_parent L T pk pm)
    (fun done s => (forall l, In l done -> fst s l = new_parent par l) /\ (forall l, ~ In l done -> fst s l = par l) /\
                   (forall j, snd s j = zlen (filter (is_target par j) done))) cs (par, fun _ => 0)) as [[par' cnt] [H1 H2]].
  - cbn [fst snd In]. split; [tauto|]. split; [tauto|]. reflexivity.
  - intros done c [p n] [rest E] (I1 & I2 & I3). cbn [fst snd] in *.
    assert (Hc : ~ In c done).
    { subst cs. apply NoDup_remove_2 in Hnd. intros H. apply Hnd. apply in_or_app. left. exact H. }
    rewrite assign_parent_eq. pose proof (target_ext p par c (I2 c Hc)) as Ht. rewrite Ht.
    exists (match target par c with Some j => (upd p c (Ptr (pk, j)), fun i => if (i =? j)%nat then n j + 1 else n i) | None => (p, n) end).
    split; [reflexivity|]. assert (Hn : forall j, zlen (filter (is_target par j) (done ++ [c])) = zlen (filter (is_target par j) done) + if is_target par j c then 1 else 0).
    { intros j. rewrite filter_app, zlen_app. cbn [filter]. destruct (is_target par j c); reflexivity. }
    unfold is_target in Hn at 3. destruct (target par c) as [j0|] eqn:Et; cbn [fst snd].
    + split; [|split].
      * intros l Hl. destruct (loc_eqb_spec c l) as [<-|Hne].
        -- rewrite upd_same. unfold new_parent. rewrite Et. reflexivity.
        -- rewrite upd_other by exact Hne. apply I1. apply in_app_or in Hl. destruct Hl as [Hl|[<-|[]]]; [exact Hl|congruence].
      * intros l Hl. rewrite upd_other; [|intros ->; apply Hl; apply in_or_app; right; left; reflexivity].
        apply I2. intros H. apply Hl. apply in_or_app. left. exact H.
      * intros j. rewrite Hn, I3. rewrite (Nat.eqb_sym j0 j). destruct (Nat.eqb_spec j j0) as [->|Hne]; [|rewrite I3]; lia.
    + split; [|split].
      * intros l Hl. apply in_app_or in Hl. destruct Hl as [Hl|[<-|[]]]; [apply I1; exact Hl|].
        rewrite I2 by exact Hc. unfold new_parent. rewrite Et. reflexivity.
      * intros l Hl. apply I2. intros H. apply Hl. apply in_or_app. left. exact H.
      * intros j. rewrite Hn, I3. lia.
  - exists par', cnt. cbn [fst snd] in H2. tauto.
Qed.

(* filling: the array with its first n entries in place *)
Definition part (a : ak) (par' : loc -> ref) (arr0 : cell -> list ref) (tot done : nat -> list loc) (j : nat) : list ref :=
  if (length (tot j) =? length (done j))%nat
  then (if (length (tot j) =? 0)%nat then arr0 (a, (pk, j)) else map Ptr (tot j))
  else map Ptr (done j) ++ repeat (Int (lay_junk L)) (length (tot j) - 1 - length (done j)) ++ [Int (zlen (done j))].

Lemma last_slot : forall A (l : list A) x, rdA (l ++ [x]) (zlen (l ++ [x]) - 1) = Ok x.
Proof.
  intros. unfold rdA. rewrite zlen_app. change (zlen [x]) with 1. replace (zlen l + 1 - 1) with (zlen l + 0) by lia.
  rewrite znth_app_r by lia. replace (zlen l + 0 - zlen l) with 0 by lia. reflexivity.
Qed.
Lemma wrA_mid : forall A (l1 l2 : list A) x v, wrA (l1 ++ x :: l2) (zlen l1) v = Ok (l1 ++ v :: l2).
Proof.
  intros. unfold wrA. rewrite zlen_app, zlen_cons. pose proof (zlen_nonneg _ l1). pose proof (zlen_nonneg _ l2).
  replace ((0 <=? zlen l1) && (zlen l1 <? zlen l1 + (1 + zlen l2))) with true by lia.
  unfold zlen. rewrite Nat2Z.id. rewrite firstn_app, firstn_all, Nat.sub_diag. cbn [firstn]. rewrite app_nil_r.
  rewrite skipn_app, skipn_all2 by lia. replace (S (length l1) - length l1)%nat with 1%nat by lia. reflexivity.
Qed.

Lemma add_child_ok : forall (arr : cell -> list ref) c child (done : list loc) (n : nat), (length done <= n)%nat -> Z.of_nat n < 2 ^ 31 - 1 ->
  arr c = map Ptr done ++ repeat (Int (lay_junk L)) (n - length done) ++ [Int (zlen done)] ->
  add_child L c child arr =
    Ok (updc arr c (if (length done =? n)%nat then map Ptr (done ++ [child])
                    else map Ptr (done ++ [child]) ++ repeat (Int (lay_junk L)) (n - S (length done)) ++ [Int (zlen (done ++ [child]))])).
Proof.
  intros arr c child done n Hle Hsm Ha. unfold add_child. rewrite Ha.
  set (A := map Ptr done ++ repeat (Int (lay_junk L)) (n - length done) ++ [Int (zlen done)]).
  assert (HA : A = (map Ptr done ++ repeat (Int (lay_junk L)) (n - length done)) ++ [Int (zlen done)]) by (unfold A; rewrite app_assoc; reflexivity).
  assert (Hlen : zlen A = Z.of_nat n + 1).
  { unfold A. rewrite !zlen_app. unfold zlen. rewrite map_length, repeat_length. cbn [length]. lia. }
  assert (Hu : u32 (zlen A - 1) = zlen A - 1) by (unfold u32; apply Z.mod_small; rewrite Hlen; lia).
  rewrite Hu. rewrite (bindOk _ _ _ _ (Int (zlen done))) by (rewrite HA; apply last_slot). cbv zeta. cbn [as_int].
  assert (Hs : s32 (zlen done) = zlen done) by (unfold s32; rewrite (Z.mod_small (zlen done + 2147483648)) by (unfold zlen; lia); lia).
  assert (Hu2 : u32 (zlen done) = zlen done) by (unfold u32; apply Z.mod_small; unfold zlen; lia).
  rewrite Hs, Hu2.
  assert (Hz : zlen done = zlen (map Ptr done)) by (unfold zlen; rewrite map_length; reflexivity).
  destruct (Nat.eqb_spec (length done) n) as [E|E].
  - assert (HA2 : A = map Ptr done ++ Int (zlen done) :: []).
    { unfold A. replace (n - length done)%nat with O by lia. reflexivity. }
    rewrite (bindOk _ _ _ _ (map Ptr done ++ [Ptr child])) by (rewrite HA2, Hz; apply wrA_mid).
    replace (zlen done + 1 =? zlen A) with true by (rewrite Hlen; unfold zlen; lia). cbn [obind].
    rewrite map_app. reflexivity.
  - assert (HA2 : A = map Ptr done ++ Int (lay_junk L) :: (repeat (Int (lay_junk L)) (n - S (length done)) ++ [Int (zlen done)])).
    { unfold A. replace (n - length done)%nat with (S (n - S (length done))) by lia. reflexivity. }
    rewrite (bindOk _ _ _ _ (map Ptr done ++ Ptr child :: (repeat (Int (lay_junk L)) (n - S (length done)) ++ [Int (zlen done)])))
      by (rewrite HA2, Hz; apply wrA_mid).
    replace (zlen done + 1 =? zlen A) with false by (rewrite Hlen; unfold zlen; lia).
    assert (HB : map Ptr done ++ Ptr child :: (repeat (Int (lay_junk L)) (n - S (length done)) ++ [Int (zlen done)]) =
      (map Ptr (done ++ [child]) ++ repeat (Int (lay_junk L)) (n - S (length done))) ++ Int (zlen done) :: []).
    { rewrite map_app. cbn [map]. rewrite <- !app_assoc. reflexivity. }
    rewrite HB. assert (HC : zlen A - 1 = zlen (map Ptr (done ++ [child]) ++ repeat (Int (lay_junk L)) (n - S (length done)))).
    { rewrite Hlen, zlen_app. unfold zlen. rewrite map_length, app_length, repeat_length. cbn [length]. lia. }
    rewrite HC, wrA_mid. cbn [obind]. f_equal. f_equal. rewrite <- app_assoc. f_equal. f_equal. f_equal. f_equal.
    unfold zlen. rewrite app_length. cbn [length]. lia.
Qed.

Hypothesis Hlow : forall i, (i < length (T pk))%nat -> 2 ^ 32 <= lay_addr L (pk, i).

Lemma fill_all : forall a cs par par' arr0 cnt, NoDup cs -> zlen cs < 2 ^ 31 - 1 ->
  (forall j, cnt j = zlen (filter (is_target par j) cs)) ->
  (forall l, In l cs -> par' l = new_parent par l) ->
  (* what is not assigned here does not point into this table *)
  (forall l, In l cs -> target par l = None -> match par l with Ptr (k, _) => k <> pk | Int z => 0 <= z < 2 ^ 32 end) ->
  exists arr, each (fill_child L T a pk par') cs (alloc_arrays L a pk cnt arr0) = Ok arr /\
    (forall c, fst c <> a \/ fst (snd c) <> pk -> arr c = arr0 c) /\
    (forall j, arr (a, (pk, j)) = match filter (is_target par j) cs with [] => arr0 (a, (pk, j)) | l => map Ptr l end).
Proof.
  intros a cs par par' arr0 cnt Hnd Hsm Hcnt Hpar Hout.
  set (tot := fun j => filter (is_target par j) cs).
  assert (Hlo : forall x, (length (filter x cs) <= length cs)%nat).
  { intros x. clear. induction cs as [|y ys IH]; cbn [filter length]; [lia|]. destruct (x y); cbn [length]; lia. }
  destruct (each_inv _ _ (fill_child L T a pk par')
    (fun done arr => (forall c, fst c <> a \/ fst (snd c) <> pk -> arr c = arr0 c) /\
                     (forall j, arr (a, (pk, j)) = part a par' arr0 tot (fun j => filter (is_target par j) done) j))
    cs (alloc_arrays L a pk cnt arr0)) as [arr [H1 [H2 H3]]].
  - split.
    + intros [a' [k' j']] H. unfold alloc_arrays. cbn [fst snd] in *. destruct (ak_eqb_spec a' a); [|reflexivity]. destruct (kind_eqb_spec k' pk); [|reflexivity].
      subst. destruct H; congruence.
    + intros j. unfold alloc_arrays, part. cbn [fst snd filter length]. destruct (ak_eqb_spec a a); [|congruence]. rewrite kind_eqb_refl. cbn [andb].
      rewrite Hcnt. fold (tot j). unfold zlen at 1. destruct (Nat.eqb_spec (length (tot j)) 0) as [E|E].
      * rewrite E. cbn. reflexivity.
      * replace (negb (Z.of_nat (length (tot j)) =? 0)) with true by lia. cbn [map app]. f_equal. f_equal. unfold zlen. lia.
  - intros done c arr [rest E] (I1 & I2). assert (Hc : In c cs) by (subst cs; apply in_or_app; right; left; reflexivity).
    unfold fill_child. rewrite (Hpar c Hc). unfold new_parent. destruct (target par c) as [j|] eqn:Et.
    + rewrite kind_eqb_refl. assert (Hj : (j < length (T pk))%nat).
      { unfold target in Et. apply find_some in Et. destruct Et as [Et _]. apply in_seq in Et. lia. }
      replace (j <? length (T pk))%nat with true by (symmetry; apply Nat.ltb_lt; exact Hj). cbn [andb].
      set (d := filter (is_target par j) done).
      assert (Hd : exists rest', tot j = d ++ c :: rest').
      { unfold tot, d. rewrite E, filter_app. cbn [filter]. unfold is_target at 2. rewrite Et, Nat.eqb_refl. eauto. }
      destruct Hd as [rest' Hd].
      assert (Hlen : (length (tot j) = S (length d + length rest'))%nat) by (rewrite Hd, app_length; cbn [length]; lia).
      pose proof (Hlo (is_target par j)) as Hl2. fold (tot j) in Hl2.
      assert (Harr : arr (a, (pk, j)) = map Ptr d ++ repeat (Int (lay_junk L)) ((length (tot j) - 1) - length d) ++ [Int (zlen d)]).
      { rewrite I2. unfold part. fold d. replace (length (tot j) =? length d)%nat with false by (symmetry; apply Nat.eqb_neq; lia). reflexivity. }
      rewrite (add_child_ok arr (a, (pk, j)) c d (length (tot j) - 1) ltac:(lia) ltac:(unfold zlen in Hsm; lia) Harr).
      eexists. split; [reflexivity|]. split.
      * intros c' Hc'. rewrite updc_other by (intros <-; cbn in Hc'; destruct Hc'; congruence). apply I1. exact Hc'.
      * intros j'. unfold part. rewrite filter_app. cbn [filter]. assert (Ht1 : is_target par j' c = (j =? j')%nat) by (unfold is_target; rewrite Et; reflexivity). rewrite Ht1.
        clear Ht1. destruct (Nat.eqb_spec j j') as [Ej|Hne]; [subst j'|].
        -- rewrite updc_same. fold d. rewrite app_length. cbn [length].
           destruct (Nat.eqb_spec (length d) (length (tot j) - 1)) as [E1|E1].
           ++ replace (length (tot j) =? length d + 1)%nat with true by (symmetry; apply Nat.eqb_eq; lia).
              replace (length (tot j) =? 0)%nat with false by (symmetry; apply Nat.eqb_neq; lia).
              rewrite Hd. destruct rest'; [reflexivity|cbn [length] in Hlen; lia].
           ++ replace (length (tot j) =? length d + 1)%nat with false by (symmetry; apply Nat.eqb_neq; lia).
              do 3 f_equal. lia.
        -- rewrite updc_other by congruence. rewrite app_nil_r, I2. reflexivity.
    + assert (Hp : forall j, part a par' arr0 tot (fun j => filter (is_target par j) (done ++ [c])) j = part a par' arr0 tot (fun j => filter (is_target par j) done) j).
      { intros j. unfold part. rewrite filter_app. cbn [filter]. assert (Ht0 : is_target par j c = false) by (unfold is_target; rewrite Et; reflexivity). rewrite Ht0, app_nil_r. reflexivity. }
      assert (Hres : exists s', Ok arr = Ok s' /\ (forall c0, fst c0 <> a \/ fst (snd c0) <> pk -> s' c0 = arr0 c0) /\
         (forall j, s' (a, (pk, j)) = part a par' arr0 tot (fun j => filter (is_target par j) (done ++ [c])) j)).
      { exists arr. split; [reflexivity|]. split; [exact I1|]. intros j. rewrite Hp. apply I2. }
      specialize (Hout c Hc Et). destruct (par c) as [z|[k j]].
      * replace ((lay_addr L (pk, 0%nat) <=? z) && (z <? lay_addr L (pk, length (T pk)))) with false; [exact Hres|].
        destruct (length (T pk)) as [|n] eqn:El.
        -- destruct (Z.leb_spec (lay_addr L (pk, 0%nat)) z); [|reflexivity]. destruct (Z.ltb_spec z (lay_addr L (pk, 0%nat))); [lia|reflexivity].
        -- pose proof (Hlow 0%nat ltac:(lia)). destruct (Z.leb_spec (lay_addr L (pk, 0%nat)) z); [lia|reflexivity].
      * destruct (kind_eqb_spec k pk); [contradiction|]. exact Hres.
  - exists arr. split; [exact H1|]. split; [exact H2|]. intros j. rewrite H3. unfold part. cbn beta. fold (tot j). rewrite Nat.eqb_refl.
    destruct (tot j); reflexivity.
Qed.
End Pass.
