(* Proofs about the signatures and the lines of MSVC maps. *)
From Verif Require Import Base BaseProofs Text HashModel HashSpec Maps FileUtilsModel FileUtilsSpec FileUtilsProofs DatabaseModel NamesProofs MapFileModel MapFileSpec MapNameProofs MapParamProofs MapTableProofs MsvcModel MsvcSpec MsvcProofs.

(* ---- tokens ---- *)
Fixpoint read_tokens (ws : list (list Z)) (tn : list Z) (q : qualifier) (this : bool) : outcome (list Z * qualifier * bool) :=
  match ws with
  | [] => Ok (tn, q, this)
  | w :: r => do x <- match_token w tn q this; let '(tn, q, this) := x in read_tokens r tn q this
  end.
Fixpoint joined (ws : list (list Z)) : list Z :=
  match ws with
  | [] => []
  | [w] => w
  | w :: r => w ++ 32 :: joined r
  end.
Definition token (w : list Z) : Prop := Forall letter w /\ w <> [] /\ zlen w < 1024.
Lemma step_blank : forall n w h r stop tn q this x, token w -> letter h -> (stop < length (w ++ 32%Z :: h :: r))%nat -> match_token w tn q this = Ok x ->
  match_loop (S n) (w ++ 32 :: h :: r) stop tn q this = let '(tn, q, this) := x in match_loop n (h :: r) stop tn q this.
Proof.
  intros n w h r stop tn q this [[tn' q'] this'] (L & _ & S) H T M. cbn [match_loop]. rewrite (proj2 (Nat.ltb_lt _ _) T). rewrite (consume_word w 32 (h :: r) L eq_refl S). cbn [obind].
  assert (E : SkipWhitespace (32 :: h :: r) = h :: r) by (cbn [SkipWhitespace]; apply (letter_start h r H)). rewrite E. rewrite M. cbn [obind]. destruct (letter_start h r H) as (_ & B & C). rewrite B. cbn [obind]. rewrite C. reflexivity.
Qed.
Lemma step_end : forall n w c r stop tn q this x, token w -> c = 44 \/ c = 41 -> (stop <= length (c :: r))%nat -> match_token w tn q this = Ok x ->
  match_loop (S n) (w ++ c :: r) stop tn q this = let '(tn, q, this) := x in Ok (tn, q, this, r).
Proof.
  intros n w c r stop tn q this [[tn' q'] this'] (L & N & S) C T M. cbn [match_loop]. replace (stop <? length (w ++ c :: r))%nat with true by (symmetry; apply Nat.ltb_lt; rewrite app_length; destruct w; [congruence|cbn [length] in *; lia]).
  assert (EC : ends_token c = true) by (destruct C as [-> | ->]; reflexivity). rewrite (consume_word w c r L EC S). cbn [obind]. replace (SkipWhitespace (c :: r)) with (c :: r) by (destruct C as [-> | ->]; reflexivity). rewrite M. cbn [obind].
  destruct C as [-> | ->]; reflexivity.
Qed.
Lemma token_head : forall w, token w -> exists h t, w = h :: t /\ letter h.
Proof. intros [|h t] (L & N & _); [congruence|]. inversion L. eauto. Qed.
Lemma joined_head : forall ws, ws <> [] -> Forall token ws -> exists h t, joined ws = h :: t /\ letter h.
Proof.
  intros [|w [|v r]] N F; [congruence| |]; inversion F as [|? ? T _]; subst; destruct (token_head w T) as (h & t & -> & L); cbn [joined app]; eauto.
Qed.
Lemma tokens_end : forall ws n c r stop tn q this tn' q' this', ws <> [] -> Forall token ws -> (length ws <= n)%nat -> c = 44 \/ c = 41 -> (stop <= length (c :: r))%nat ->
  read_tokens ws tn q this = Ok (tn', q', this') -> match_loop n (joined ws ++ c :: r) stop tn q this = Ok (tn', q', this', r).
Proof.
  induction ws as [|w ws IH]; intros n c r stop tn q this tn' q' this' N F L C S R; [congruence|]. inversion F as [|? ? T F']; subst. cbn [read_tokens] in R. destruct (match_token w tn q this) as [[[tn1 q1] this1]| | |] eqn:M; cbn [obind] in R; try discriminate.
  destruct n as [|n]; [cbn in L; lia|]. destruct ws as [|v ws].
  - cbn [joined]. rewrite (step_end n w c r stop tn q this _ T C S M). cbn [read_tokens] in R. congruence.
  - change (joined (w :: v :: ws)) with (w ++ 32 :: joined (v :: ws)). destruct (joined_head (v :: ws) ltac:(discriminate) F') as (h & t & E & LH). rewrite <- app_assoc. cbn [app]. rewrite E. cbn [app].
    rewrite (fun X => step_blank n w h (t ++ c :: r) stop tn q this _ T LH X M); [|rewrite app_length; cbn [length] in *; rewrite app_length; cbn [length]; lia]. cbn beta iota.
    change (h :: t ++ c :: r) with ((h :: t) ++ c :: r). rewrite <- E. apply IH; try assumption; [discriminate|cbn [length] in *; lia].
Qed.
Lemma tokens_stop : forall ws n h t tn q this tn' q' this', Forall token ws -> (length ws < n)%nat -> letter h ->
  read_tokens ws tn q this = Ok (tn', q', this') -> match_loop n (flat_map (fun w => w ++ [32]) ws ++ h :: t) (length (h :: t)) tn q this = Ok (tn', q', this', h :: t).
Proof.
  induction ws as [|w ws IH]; intros n h t tn q this tn' q' this' F L H R; (destruct n as [|n]; [cbn in L; lia|]).
  - cbn [flat_map app match_loop]. rewrite Nat.ltb_irrefl. cbn [read_tokens] in R. congruence.
  - inversion F as [|? ? T F']; subst. cbn [read_tokens] in R. destruct (match_token w tn q this) as [[[tn1 q1] this1]| | |] eqn:M; cbn [obind] in R; try discriminate.
    cbn [flat_map]. rewrite <- !app_assoc. cbn [app].
    assert (E : exists h' t', flat_map (fun w => w ++ [32]) ws ++ h :: t = h' :: t' /\ letter h' /\ (length (h :: t) <= length (h' :: t'))%nat).
    { destruct ws as [|v ws]; [exists h, t; auto|]. inversion F' as [|? ? T' _]; subst. destruct (token_head v T') as (x & y & -> & LX). cbn [flat_map app]. eexists. eexists. split; [reflexivity|]. split; [exact LX|]. cbn [length]. rewrite !app_length. cbn [length]. lia. }
    destruct E as (h' & t' & E & LH & LE). rewrite E. rewrite (fun X => step_blank n w h' t' (length (h :: t)) tn q this _ T LH X M); [|rewrite app_length; cbn [length] in *; lia]. cbn beta iota. rewrite <- E. apply IH; [exact F'|cbn [length] in *; lia|exact H|exact R].
Qed.

(* ---- types ---- *)
Definition tokens (t : ctype) : list (list Z) :=
  (if c_unsigned t then [str "unsigned"] else []) ++ c_word t :: (if c_const t then [str "const"] else []) ++ match c_op t with Some c => [[c]] | None => [] end.
Lemma written_joined : forall t, written t = joined (tokens t).
Proof.
  intros [u w k o]. unfold written, type_name, tokens. cbn [c_unsigned c_word c_const c_op]. destruct u, k, o as [c|]; cbn [app]; rewrite ?app_nil_r; cbn [joined app]; rewrite <- ?app_assoc; reflexivity.
Qed.
Lemma written_flat : forall t r, written t ++ 32 :: r = flat_map (fun w => w ++ [32]) (tokens t) ++ r.
Proof.
  intros [u w k o] r. unfold written, type_name, tokens. cbn [c_unsigned c_word c_const c_op]. destruct u, k, o as [c|]; cbn [app flat_map]; rewrite <- ?app_assoc; cbn [app]; rewrite ?app_nil_r, <- ?app_assoc; reflexivity.
Qed.
Lemma keyword_letters : forall s, In s [str "unsigned"; str "const"; str "__cdecl"; str "__stdcall"; str "__fastcall"; str "__thiscall"; str "void"; [42]; [38]] -> token s.
Proof.
  intros s H. assert (E : forallb (fun s => forallb (fun c => (0 <? c) && (c <? 256) && negb (existsb (Z.eqb c) [32; 9; 44; 40; 41; 60; 62])) s && negb (list_eqb s []) && (zlen s <? 1024)) [str "unsigned"; str "const"; str "__cdecl"; str "__stdcall"; str "__fastcall"; str "__thiscall"; str "void"; [42]; [38]] = true) by (vm_compute; reflexivity).
  rewrite forallb_forall in E. apply E in H. rewrite !andb_true_iff in H. destruct H as [[H1 H2] H3]. split; [|split; [intros ->; discriminate H2|lia]]. apply Forall_forall. intros c I. rewrite forallb_forall in H1. apply H1 in I. rewrite !andb_true_iff in I. destruct I as [[I1 I2] I3]. split; [lia|].
  intros J. apply negb_true_iff in I3. assert (existsb (Z.eqb c) [32; 9; 44; 40; 41; 60; 62] = true) by (apply existsb_exists; exists c; split; [exact J|apply Z.eqb_refl]). congruence.
Qed.
Lemma type_tokens : forall U t, usual U t -> Forall token (tokens t) /\ tokens t <> [] /\ (length (tokens t) <= 4)%nat.
Proof.
  intros U [u w k o] (W & N & L & _ & O). cbn [c_word c_op] in *. unfold tokens. cbn [c_unsigned c_word c_const c_op]. split; [|split].
  - apply Forall_app. split; [destruct u; [|constructor]; constructor; [apply keyword_letters; cbn [In]; tauto|constructor]|]. constructor; [split; [exact (proj1 W)|split; [exact N|lia]]|].
    apply Forall_app. split; [destruct k; [|constructor]; constructor; [apply keyword_letters; cbn [In]; tauto|constructor]|]. destruct O as [-> | [-> | ->]]; [constructor| |]; (constructor; [apply keyword_letters; cbn [In]; tauto|constructor]).
  - destruct u; discriminate.
  - destruct u, k, o; cbn; lia.
Qed.
Definition op_of (t : ctype) : qop := match c_op t with Some 42 => POINTER | Some 38 => REFERENCE | _ => VALUE end.
Lemma type_read : forall U t, usual U t -> read_tokens (tokens t) [] (mk_qual VALUE false) false = Ok (type_name t, mk_qual (op_of t) (c_const t), false).
Proof.
  intros U [u w k o] (W & N & L & _ & O). cbn [c_word c_op] in *.
  assert (A : forall r, read_tokens ((if u then [str "unsigned"] else []) ++ w :: r) [] (mk_qual VALUE false) false = read_tokens r ((if u then str "unsigned " else []) ++ w) (mk_qual VALUE false) false).
  { intros r. destruct u; cbn [app read_tokens].
    - change (match_token (str "unsigned") [] (mk_qual VALUE false) false) with (Ok (str "unsigned ", mk_qual VALUE false, false)). cbn [obind]. rewrite word_token; [reflexivity|exact W|]. change (zlen (str "unsigned ")) with 9. lia.
    - rewrite word_token; [reflexivity|exact W|]. rewrite zlen_nil. lia. }
  unfold tokens, type_name, op_of. cbn [c_unsigned c_word c_const c_op]. rewrite A. set (tn := (if u then str "unsigned " else []) ++ w). destruct k, O as [-> | [-> | ->]]; reflexivity.
Qed.
Lemma text_of_type : forall U t, told_apart U -> usual U t -> text_ok (in_database t) /\ ~ In 40 (written t) /\ ~ In 41 (written t).
Proof.
  intros U [u w k o] TA (W & N & L & I & O). cbn [c_word c_op] in *. destruct (proj1 TA _ I) as (C & CL & _).
  assert (NW : forall x, x = 40 \/ x = 41 -> ~ In x w) by (intros x X J; destruct W as [W _]; rewrite Forall_forall in W; destruct (W x J) as [_ B]; apply B; cbn [In]; destruct X as [-> | ->]; tauto).
  split.
  - unfold in_database, type_name in *. cbn [c_unsigned c_word c_const c_op] in *. split.
    + unfold c_string. apply Forall_app. split; [destruct k; vm_compute; repeat (constructor; [split; reflexivity|]); constructor|]. apply Forall_app. split; [exact C|]. destruct O as [-> | [-> | ->]]; [constructor| |]; (constructor; [lia|constructor]).
    + rewrite !zlen_app. assert (zlen (if u then str "unsigned " else []) <= 9) by (destruct u; vm_compute; discriminate). assert (zlen (if k then str "const " else []) <= 6) by (destruct k; vm_compute; discriminate).
      assert (zlen (match o with Some c => [c] | None => [] end) <= 1) by (destruct o; vm_compute; discriminate). lia.
  - unfold written, type_name. cbn [c_unsigned c_word c_const c_op].
    assert (G : forall x, x = 40 \/ x = 41 -> ~ In x (((if u then str "unsigned " else []) ++ w) ++ (if k then str " const" else []) ++ match o with Some c => [32; c] | None => [] end)).
    { intros x X J. rewrite !in_app_iff in J. destruct J as [[J|J]|[J|J]]; [|exact (NW x X J)| |].
      - destruct u; [|destruct J]. cbn in J. lia.
      - destruct k; [|destruct J]. cbn in J. lia.
      - destruct O as [-> | [-> | ->]]; cbn in J; lia. }
    split; apply G; auto.
Qed.

(* ---- parameters ---- *)
Section Sign.
Variable U : list (list Z).
Hypothesis TA : told_apart U.
Hypothesis VO : In (str "void") U.
Lemma one_param : forall d t c r stop, usual U t -> names_of U (d_names d) -> c = 44 \/ c = 41 -> (stop <= length (c :: r))%nat ->
  exists m', MatchParameter d (written t ++ c :: r) stop = Ok (mk_field (mk_prim noname noname) (mk_name (hash32 (type_name t) 0) (type_name t)) (mk_qual (op_of t) (c_const t)) (-1) 0, false, r, set_names m' d) /\ names_of U m' /\ names_kept (d_names d) m'.
Proof.
  intros d t c r stop W N C S. destruct (type_tokens U t W) as (T1 & T2 & T3). unfold MatchParameter. rewrite written_joined.
  rewrite (fun X => tokens_end (tokens t) _ c r stop [] (mk_qual VALUE false) false _ _ _ T2 T1 X C S (type_read U t W)); [|rewrite app_length; cbn [length]].
  - cbn [obind]. destruct (db_known U d (type_name t) TA N (proj1 (proj2 (proj2 (proj2 W))))) as (m' & E & N' & K). exists m'. rewrite E. cbn [obind fst snd]. split; [reflexivity|]. split; assumption.
  - assert (G : forall ws, Forall token ws -> (length ws <= 1 + length (joined ws))%nat).
    { induction ws as [|w [|v ws] IH]; intros F; [cbn; lia|cbn; lia|]. inversion F as [|? ? _ F']; subst. change (joined (w :: v :: ws)) with (w ++ 32 :: joined (v :: ws)). rewrite app_length. specialize (IH F'). cbn [length] in *. lia. }
    specialize (G _ T1). lia.
Qed.
Lemma field_spelled : forall t n, usual U t -> spelled (mk_field (mk_prim noname noname) (mk_name n (type_name t)) (mk_qual (op_of t) (c_const t)) (-1) 0) = in_database t.
Proof.
  intros t n (_ & _ & _ & _ & O). unfold spelled, in_database, op_of. cbn [f_qual f_type n_text q_const q_op]. destruct O as [-> | [-> | ->]]; reflexivity.
Qed.
Lemma written_nonempty : forall t, usual U t -> written t <> [].
Proof. intros t (_ & N & _) E. unfold written, type_name in E. apply app_eq_nil in E. destruct E as [E _]. apply app_eq_nil in E. destruct E. contradiction. Qed.
Lemma listed_params : forall ps fuel d suf acc, Forall (usual_parameter U) ps -> names_of U (d_names d) -> ps <> [] -> (length ps < fuel)%nat ->
  exists fs m', parameters_loop fuel d (comma_listed ps ++ 41 :: suf) (length (41 :: suf)) acc = Ok (acc ++ fs, set_names m' d) /\ map spelled fs = map in_database ps /\ names_of U m' /\ names_kept (d_names d) m'.
Proof.
  induction ps as [|p ps IH]; intros fuel d suf acc HP N NE Hf; [congruence|]. inversion HP as [|? ? [Hp V] HP']; subst. destruct fuel as [|fuel]; [cbn in Hf; lia|].
  set (f := mk_field (mk_prim noname noname) (mk_name (hash32 (type_name p) 0) (type_name p)) (mk_qual (op_of p) (c_const p)) (-1) 0).
  assert (Body : forall c r, c = 44 \/ c = 41 -> (S (length suf) <= length (c :: r))%nat ->
    exists m1, parameters_loop (S fuel) d (written p ++ c :: r) (length (41 :: suf)) acc = parameters_loop fuel (set_names m1 d) r (length (41 :: suf)) (acc ++ [f]) /\ names_of U m1 /\ names_kept (d_names d) m1).
  { intros c r Hc Hs. destruct (one_param d p c r (length (41 :: suf)) Hp N Hc Hs) as (m1 & E1 & N1 & K1). exists m1. split; [|split; assumption]. cbn [parameters_loop]. change (length (41 :: suf)) with (S (length suf)) in *.
    replace (S (length suf) <? length (written p ++ c :: r))%nat with true by (symmetry; apply Nat.ltb_lt; pose proof (written_nonempty p Hp); rewrite app_length; destruct (written p); [congruence|cbn [length] in *; lia]).
    rewrite E1. cbn [obind]. fold f. replace (IsVoidParameter f) with false; [reflexivity|]. symmetry. unfold IsVoidParameter, f. cbn [f_qual f_type n_text q_op]. unfold op_of. destruct Hp as (_ & _ & _ & _ & [O|[O|O]]); rewrite O in *; try reflexivity. cbn [qop_eqb andb]. apply list_eqb_false. apply V. reflexivity. }
  destruct ps as [|p2 ps].
  - cbn [comma_listed]. destruct (Body 41 suf (or_intror eq_refl) (le_n _)) as (m1 & E1 & N1 & K1). exists [f], m1. rewrite E1. destruct fuel as [|fuel]; [cbn in Hf; lia|]. cbn [parameters_loop]. change (length (41 :: suf)) with (S (length suf)).
    replace (S (length suf) <? length suf)%nat with false by (symmetry; apply Nat.ltb_ge; lia). split; [reflexivity|]. split; [cbn [map]; unfold f; rewrite field_spelled by exact Hp; reflexivity|]. split; assumption.
  - change (comma_listed (p :: p2 :: ps)) with (written p ++ 44 :: comma_listed (p2 :: ps)). rewrite <- app_assoc. cbn [app].
    destruct (Body 44 (comma_listed (p2 :: ps) ++ 41 :: suf) (or_introl eq_refl)) as (m1 & E1 & N1 & K1); [cbn [length]; rewrite app_length; cbn [length]; lia|]. rewrite E1.
    destruct (IH fuel (set_names m1 d) suf (acc ++ [f]) HP' N1) as (fs & m2 & E2 & Sp2 & N2 & K2); [discriminate|cbn [length] in *; lia|].
    exists (f :: fs), m2. rewrite E2, set_names_twice, <- app_assoc. split; [reflexivity|]. split; [cbn [map]; unfold f; rewrite field_spelled by exact Hp; cbn [map] in Sp2; rewrite Sp2; reflexivity|]. split; [exact N2|]. apply (kept_trans _ m1); assumption.
Qed.
Lemma comma_length : forall ps, Forall (usual_parameter U) ps -> (length ps <= length (comma_listed ps))%nat.
Proof.
  induction ps as [|p ps IH]; intros F; [cbn; lia|]. inversion F as [|? ? [Hp _] F']; subst. pose proof (written_nonempty p Hp) as W. destruct ps as [|q ps]; [cbn; destruct (written p); [congruence|cbn; lia]|].
  change (comma_listed (p :: q :: ps)) with (written p ++ 44 :: comma_listed (q :: ps)). rewrite app_length. specialize (IH F'). cbn [length] in *. lia.
Qed.
Lemma all_params : forall ps d suf acc, Forall (usual_parameter U) ps -> names_of U (d_names d) ->
  exists fs m', parameters_loop (S (length (parameters_of ps ++ 41 :: suf))) d (parameters_of ps ++ 41 :: suf) (S (length suf)) acc = Ok (acc ++ fs, set_names m' d) /\ map spelled fs = map in_database ps /\ names_of U m' /\ names_kept (d_names d) m'.
Proof.
  intros ps d suf acc HP N. destruct ps as [|p ps].
  - set (v := mk_ctype false (str "void") false None). assert (W : usual U v).
    { split; [split; [exact (proj1 (keyword_letters (str "void") ltac:(cbn [In]; tauto)))|]|split; [discriminate|split; [vm_compute; reflexivity|split; [exact VO|left; reflexivity]]]].
      split; [unfold keywords; cbn [In]; intuition discriminate|]. split; discriminate. }
    destruct (one_param d v 41 suf (S (length suf)) W N (or_intror eq_refl) (le_n _)) as (m1 & E1 & N1 & K1). exists [], m1. cbn [parameters_of]. cbn [parameters_loop].
    replace (S (length suf) <? length (str "void" ++ 41%Z :: suf))%nat with true by (symmetry; apply Nat.ltb_lt; rewrite app_length; cbn [length]; change (length (str "void")) with 4%nat; lia).
    change (written v) with (str "void") in E1. rewrite E1. cbn [obind]. change (IsVoidParameter _) with true. cbn iota. rewrite app_length. change (length (str "void")) with 4%nat. cbn [Nat.add parameters_loop].
    replace (S (length suf) <? length suf)%nat with false by (symmetry; apply Nat.ltb_ge; lia). rewrite app_nil_r. split; [reflexivity|]. split; [reflexivity|]. split; assumption.
  - apply (listed_params (p :: ps)); [exact HP|exact N|discriminate|]. change (parameters_of (p :: ps)) with (comma_listed (p :: ps)). rewrite app_length. pose proof (comma_length _ HP). cbn [length] in *. lia.
Qed.
Lemma params_no : forall ps, Forall (usual_parameter U) ps -> ~ In 40 (parameters_of ps) /\ ~ In 41 (parameters_of ps).
Proof.
  assert (G : forall ps, Forall (usual_parameter U) ps -> ~ In 40 (comma_listed ps) /\ ~ In 41 (comma_listed ps)).
  { induction ps as [|p ps IH]; intros F; [split; intros []|]. inversion F as [|? ? [Hp _] F']; subst. destruct (text_of_type U p TA Hp) as (_ & A & B). destruct ps as [|q ps]; [split; assumption|].
    change (comma_listed (p :: q :: ps)) with (written p ++ 44 :: comma_listed (q :: ps)). destruct (IH F') as [I1 I2]. split; intros X; apply in_app_iff in X; cbn [In] in X; intuition lia. }
  intros [|p ps] F; [split; cbn; intuition lia|exact (G _ F)].
Qed.

(* ---- signatures ---- *)
Section Add.
Variables (ret n : list Z) (ps : list ctype) (tail : list Z) (address : Z).
Hypothesis HP : Forall (usual_parameter U) ps.
Hypothesis Hn : text_ok n.
Hypothesis n40 : ~ In 40 n.
Hypothesis Ha : address <> 0.
Let s := ret ++ n ++ 40 :: parameters_of ps ++ 41 :: tail.
Hypothesis HF : forall a b, s = a ++ n ++ b -> (length ret <= length a)%nat.
Lemma first_name : string_find s n 0 = Some (length ret).
Proof.
  destruct (string_find s n 0) as [p|] eqn:E.
  - apply string_find_some in E. destruct E as (a & b & E & -> & _ & M). pose proof (HF a b E) as L. f_equal. destruct (Nat.eq_dec (length a) (length ret)) as [Q|Q]; [exact Q|]. exfalso.
    assert (X : a = ret ++ skipn (length ret) a).
    { assert (Y : firstn (length ret) (ret ++ n ++ 40 :: parameters_of ps ++ 41 :: tail) = firstn (length ret) (a ++ n ++ b)) by (fold s; rewrite <- E; reflexivity).
      rewrite firstn_app_exact' in Y by reflexivity. rewrite firstn_app in Y. replace (length ret - length a)%nat with 0%nat in Y by lia. cbn [firstn] in Y. rewrite app_nil_r in Y. rewrite Y at 1. symmetry. apply firstn_skipn. }
    specialize (M ret (skipn (length ret) a) X ltac:(lia)). assert (NE : skipn (length ret) a <> []) by (intros Z0; apply (f_equal (@length _)) in Z0; rewrite skipn_length in Z0; cbn in Z0; lia). specialize (M NE).
    assert (Y : skipn (length ret) a ++ n ++ b = n ++ 40 :: parameters_of ps ++ 41 :: tail) by (apply (app_inv_head ret); rewrite app_assoc, <- X, <- E; reflexivity). rewrite Y, is_prefix_app in M. discriminate.
  - exfalso. assert (0 > length ret)%nat by (apply (string_find_none _ _ _ E ret (40 :: parameters_of ps ++ 41 :: tail)); reflexivity); lia.
Qed.
Lemma sign_find : string_find s (str "(") (length ret) = Some (length ret + length n)%nat /\
  string_find s (str ")") (length ret + length n) = Some (length ret + length n + S (length (parameters_of ps)))%nat /\
  skipn (length ret + length n + 1) s = parameters_of ps ++ 41 :: tail /\
  (length s - (length ret + length n + S (length (parameters_of ps))) = S (length tail))%nat.
Proof.
  destruct (params_no ps HP) as [L1 L2]. unfold s. split; [apply string_find_char; exact n40|]. split; [|split].
  - replace (ret ++ n ++ 40 :: parameters_of ps ++ 41 :: tail) with ((ret ++ n) ++ (40 :: parameters_of ps) ++ 41 :: tail) by (rewrite <- app_assoc; reflexivity). rewrite <- (app_length ret n). rewrite string_find_char; [reflexivity|]. intros [X|X]; [discriminate|contradiction].
  - replace (ret ++ n ++ 40 :: parameters_of ps ++ 41 :: tail) with ((ret ++ n ++ [40]) ++ parameters_of ps ++ 41 :: tail) by (rewrite <- !app_assoc; reflexivity). replace (length ret + length n + 1)%nat with (length (ret ++ n ++ [40])) by (rewrite !app_length; cbn [length]; lia). apply skipn_app_exact'.
  - rewrite !app_length. cbn [length]. rewrite app_length. cbn [length]. lia.
Qed.
Lemma sign_tail : forall d acc ts, names_of U (d_names d) -> map spelled acc = ts -> Forall text_ok ts ->
  found U n address d (id_of (ts ++ map in_database ps)) (
    do x <- parameters_loop (S (length (parameters_of ps ++ 41 :: tail))) d (parameters_of ps ++ 41 :: tail) (S (length tail)) acc;
    let '(ps, d) := x in do uid <- CalculateFunctionUniqueID ps; do hash <- HashNameString (n ++ [0]) 0;
    match set_address hash uid address (d_functions d) with Some m => Ok (true, mk_mapdb (d_names d) m (d_fields d) (d_gettype d)) | None => Ok (false, d) end).
Proof.
  intros d acc ts N Sp Ht. destruct (all_params ps d tail acc HP N) as (fs & m' & E & S2 & N2 & K2). rewrite E. cbn [obind]. rewrite (uid_of (acc ++ fs) (ts ++ map in_database ps)).
  - cbn [obind]. destruct (text_hash n Hn) as [Hh _]. rewrite Hh. cbn [obind set_names d_functions d_fields d_gettype d_names]. destruct (set_address (hash32 n 0) (id_of (ts ++ map in_database ps)) address (d_functions d)) as [m|] eqn:SA.
    + exists true, m', m. split; [reflexivity|]. split; [exact N2|]. split; [exact K2|]. apply set_address_some. exact SA.
    + exists false, m', (d_functions d). split; [reflexivity|]. split; [exact N2|]. split; [exact K2|]. split; [reflexivity|]. apply set_address_none with (a := address). exact SA.
  - rewrite map_app, Sp, S2. reflexivity.
  - apply Forall_app. split; [exact Ht|]. apply Forall_forall. intros x I. apply in_map_iff in I. destruct I as (t & <- & I). rewrite Forall_forall in HP. apply (text_of_type U t TA (proj1 (HP t I))).
Qed.
Lemma sign_free : forall d k, names_of U (d_names d) -> found U n address d (id_of (map in_database ps)) (AddFunctionAddress d n s address false k).
Proof.
  intros d k N. destruct sign_find as (F2 & F3 & F4 & F5). unfold AddFunctionAddress. rewrite (proj2 (Z.eqb_neq _ _) Ha), first_name, F2, F3. cbn [obind]. rewrite F4, F5. apply (sign_tail d [] [] N eq_refl (Forall_nil _)).
Qed.
Lemma sign_this : forall d c m k, n = c ++ str "::" ++ m -> ~ In 58 m -> zlen c < 1024 -> In c U -> names_of U (d_names d) ->
  found U n address d (id_of (this_text c k :: map in_database ps)) (AddFunctionAddress d n s address true k).
Proof.
  intros d c m k En Nm Lc Hc N. destruct sign_find as (F2 & F3 & F4 & F5). unfold AddFunctionAddress. rewrite (proj2 (Z.eqb_neq _ _) Ha), first_name, F2, F3.
  assert (R : string_rfind n (str "::") None = Some (length c)) by (rewrite En; apply rfind_scope; exact Nm). rewrite R. replace (1024 <=? Z.of_nat (length c)) with false by (symmetry; apply Z.leb_gt; unfold zlen in Lc; lia).
  replace (firstn (length c) n) with c by (rewrite En, firstn_app_exact' by reflexivity; reflexivity). destruct (db_known U d c TA N Hc) as [m1 [E1 [N1 K1]]]. rewrite E1. cbn [obind fst snd]. rewrite F4, F5.
  set (f := mk_field (mk_prim noname noname) (mk_name (hash32 c 0) c) (mk_qual POINTER k) (-1) 0).
  destruct (sign_tail (set_names m1 d) [f] [this_text c k] N1) as [b [m' [fns [E2 [N2 [K2 Fd]]]]]].
  - cbn [map]. f_equal.
  - constructor; [|constructor]. destruct TA as [T1 _]. destruct (T1 c Hc) as [C1 [C2 _]]. split.
    + unfold c_string, this_text. apply Forall_app. split; [destruct k; vm_compute; repeat (constructor; [split; reflexivity|]); constructor|]. apply Forall_app. split; [exact C1|]. constructor; [split; reflexivity|constructor].
    + unfold this_text. rewrite !zlen_app3. change (zlen (str "*")) with 1. destruct k; [change (zlen (str "const ")) with 6|rewrite zlen_nil]; lia.
  - exists b, m', fns. split; [exact E2|]. split; [exact N2|]. split; [apply (kept_trans _ m1); assumption|exact Fd].
Qed.
End Add.
(* what stands in front of the name *)
Lemma returned : forall d t cc h r, usual U t -> names_of U (d_names d) -> letter h -> In cc (str "__thiscall" :: free_conventions) ->
  let text := (written t ++ 32 :: cc ++ [32]) ++ h :: r in
  exists f m', MatchParameter d text (length text - length (written t ++ 32 :: cc ++ [32])) = Ok (f, list_eqb cc (str "__thiscall"), h :: r, set_names m' d) /\ q_const (f_qual f) = c_const t /\ names_of U m' /\ names_kept (d_names d) m'.
Proof.
  intros d t cc h r W N LH CC text. destruct (type_tokens U t W) as (T1 & T2 & T3). unfold text. rewrite app_length, Nat.add_comm, Nat.add_sub. unfold MatchParameter.
  assert (E : (written t ++ 32 :: cc ++ [32]) ++ h :: r = flat_map (fun w => w ++ [32]) (tokens t ++ [cc]) ++ h :: r) by (rewrite <- !app_assoc; cbn [app]; rewrite written_flat, flat_map_app, <- !app_assoc; cbn [flat_map app]; rewrite app_nil_r, <- ?app_assoc; reflexivity).
  assert (TC : token cc) by (apply keyword_letters; unfold free_conventions in CC; cbn [In] in *; tauto).
  assert (RD : read_tokens (tokens t ++ [cc]) [] (mk_qual VALUE false) false = Ok (type_name t, mk_qual (op_of t) (c_const t), list_eqb cc (str "__thiscall"))).
  { assert (G : forall a b tn q th tn' q' th', read_tokens a tn q th = Ok (tn', q', th') -> read_tokens (a ++ b) tn q th = read_tokens b tn' q' th').
    { induction a as [|w a IH]; intros b tn q th tn' q' th' H; cbn [app read_tokens] in *; [injection H as -> -> ->; reflexivity|]. destruct (match_token w tn q th) as [[[x y] z]| | |]; cbn [obind] in *; try discriminate. apply IH. exact H. }
    rewrite (G _ _ _ _ _ _ _ _ (type_read U t W)). unfold free_conventions in CC. cbn [In] in CC. destruct CC as [<- | [<- | [<- | [<- | []]]]]; reflexivity. }
  rewrite E. rewrite (fun X => tokens_stop (tokens t ++ [cc]) _ h r [] (mk_qual VALUE false) false _ _ _ ltac:(apply Forall_app; auto) X LH RD).
  - cbn [obind]. destruct (db_known U d (type_name t) TA N (proj1 (proj2 (proj2 (proj2 W))))) as (m' & E1 & N' & K). rewrite E1. cbn [obind fst snd]. eexists. exists m'. split; [reflexivity|]. split; [reflexivity|]. split; assumption.
  - rewrite !app_length. assert (G : forall ws, (length ws <= length (flat_map (fun w => w ++ [32%Z]) ws))%nat) by (induction ws as [|w ws IH]; cbn [flat_map length]; [lia|]; rewrite !app_length; cbn [length]; lia). specialize (G (tokens t ++ [cc])). rewrite app_length in G. cbn [length]. lia.
Qed.
End Sign.

(* ---- symbols and lines ---- *)
Lemma address_field : forall b2 hex b3 more v, blanks b2 -> blanks b3 -> word_of_line hex -> hex_number hex = Some v -> ParseAddressField (b2 ++ hex ++ b3 ++ 102 :: more) = Ok (v mod 2 ^ 32).
Proof.
  intros b2 hex b3 more v [_ B2] [N3 B3] (NH & WH & LH) H.
  assert (SP : forall b, Forall (fun c => c = 32) b -> Forall (fun c => c = 32 \/ c = 9) b) by (intros b F; eapply Forall_impl; [|exact F]; intros c ->; auto).
  unfold ParseAddressField. rewrite (skip_blanks b2); [|exact (SP _ B2)|].
  - rewrite take_ok; [| |intros c r E|exact LH].
    + cbn [obind fst snd]. rewrite (skip_blanks b3); [|exact (SP _ B3)|intros c t E; injection E as <- _; lia]. cbn [Z.eqb Pos.eqb]. rewrite (hextoi_ok hex v H). reflexivity.
    + eapply Forall_impl; [|exact WH]. intros c C. cbn beta in C. lia.
    + destruct b3 as [|x b3]; [congruence|]. injection E as <- _. inversion B3; auto.
  - intros c t E. destruct hex as [|x hex]; [congruence|]. injection E as <- _. inversion WH as [|? ? X _]. cbn beta in X. lia.
Qed.
Lemma no_flag : forall b2 hex b3 more, blanks b2 -> Forall (fun c => c = 32) b3 -> word_of_line hex -> (b3 = [] -> more = []) -> (forall c r, more = c :: r -> c <> 102 /\ c <> 32 /\ c <> 9) -> ParseAddressField (b2 ++ hex ++ b3 ++ more) = Ok 0.
Proof.
  intros b2 hex b3 more [_ B2] B3 (NH & WH & LH) M1 M2.
  assert (SP : forall b, Forall (fun c => c = 32) b -> Forall (fun c => c = 32 \/ c = 9) b) by (intros b F; eapply Forall_impl; [|exact F]; intros c ->; auto).
  unfold ParseAddressField. rewrite (skip_blanks b2); [|exact (SP _ B2)|].
  - rewrite take_ok; [| |intros c r E|exact LH].
    + cbn [obind fst snd]. rewrite (skip_blanks b3); [|exact (SP _ B3)|intros c t E; apply (M2 c t E)]. destruct more as [|c r]; [reflexivity|]. destruct (M2 c r eq_refl) as [X _]. rewrite (proj2 (Z.eqb_neq _ _) X). reflexivity.
    + eapply Forall_impl; [|exact WH]. intros c C. cbn beta in C. lia.
    + destruct b3 as [|x b3]; [rewrite (M1 eq_refl) in E; discriminate|]. injection E as <- _. inversion B3; auto.
  - intros c t E. destruct hex as [|x hex]; [congruence|]. injection E as <- _. inversion WH as [|? ? X _]. cbn beta in X. lia.
Qed.
Lemma take_suffix : forall text delim size rest t, take_token text delim size = Ok (rest, t) -> exists a, text = a ++ rest.
Proof.
  intros text delim size rest t H. unfold take_token, ConsumeToken in H. generalize dependent (repeat 0 (Z.to_nat size)). generalize 0 at 1. intros i dest H.
  destruct (consume_loop text delim dest i size) as [[[r full] n]| | |] eqn:C; cbn [obind fst snd] in H; try discriminate. destruct (wr full n 0) as [full'| | |]; cbn [obind fst snd] in H; try discriminate. destruct (c_str full') as [t'| | |]; cbn [obind fst snd] in H; try discriminate. injection H as -> _.
  revert dest i C. induction text as [|c text IH]; intros dest i C; cbn [consume_loop] in C; [injection C as <- _ _; exists []; reflexivity|]. destruct (_ && _); [|injection C as <- _ _; exists []; reflexivity].
  destruct (wr dest i c) as [dest'| | |]; cbn [obind] in C; try discriminate. destruct (IH _ _ C) as (a & ->). exists (c :: a). reflexivity.
Qed.
Section Symbols.
Variables (uname usig : list Z -> list Z) (U : list (list Z)).
Hypothesis TA : told_apart U.
Hypothesis VO : In (str "void") U.
Lemma line_suffix : forall d l x rest, msvc_line uname usig d l = Ok (x, rest) -> exists a, l = a ++ rest.
Proof.
  intros d l x rest H. unfold msvc_line in H. destruct (take_token (SkipWhitespace l) 32 1024) as [[r1 t1]| | |] eqn:T1; cbn [obind fst snd] in H; try discriminate.
  destruct (take_token (SkipWhitespace r1) 32 1024) as [[r2 t2]| | |] eqn:T2; cbn [obind fst snd] in H; try discriminate. destruct (msvc_symbol uname usig d t2 r2) as [y| | |]; cbn [obind] in H; try discriminate. injection H as _ <-.
  destruct (take_suffix _ _ _ _ _ T1) as (a1 & E1). destruct (take_suffix _ _ _ _ _ T2) as (a2 & E2). destruct (skip_suffix l) as (a3 & E3). destruct (skip_suffix r1) as (a4 & E4). exists (a3 ++ a1 ++ a4 ++ a2). rewrite E3, E1, E4, E2, <- !app_assoc at 1. reflexivity.
Qed.
Lemma no_base_lines : forall ls public d d' b', Forall no_base ls -> msvc_lines uname usig ls public d 0 = Ok (d', b') -> b' = 0.
Proof.
  intros ls. induction ls as [ls IH] using (well_founded_induction (well_founded_ltof _ (@length _))). unfold ltof in IH. intros public d d' b' F H. destruct ls as [|l r]; cbn [msvc_lines] in H; [congruence|]. inversion F as [|? ? NL F']; subst. destruct public.
  - destruct (msvc_line uname usig d l) as [[[d1|] rest]| | |] eqn:L; cbn [obind] in H; try discriminate; [|congruence]. rewrite load_absent in H; [cbn [obind] in H; apply IH in H; [exact H|cbn; lia|exact F']|].
    intros x y E. destruct (line_suffix _ _ _ _ L) as (a & E2). apply (NL (a ++ x) y). rewrite E2, E, <- app_assoc. reflexivity.
  - destruct (has l (str "  Address")).
    + destruct r as [|n r]; [congruence|]. inversion F' as [|? ? NN F'']; subst. rewrite load_absent in H by exact NN. cbn [obind] in H. apply IH in H; [exact H|cbn; lia|exact F''].
    + rewrite load_absent in H by exact NL. cbn [obind] in H. apply IH in H; [exact H|cbn; lia|exact F'].
Qed.
Lemma undecorated : forall sym s, without_class_words (usig sym) s -> UndecorateFunctionSignature usig sym = Ok s.
Proof.
  intros sym s (m & R1 & R2). unfold UndecorateFunctionSignature. cbv zeta. destruct (replace_ok (S (length (usig sym))) (str "struct ") [] (usig sym)) as (r1 & E1 & Q1); [discriminate|lia|]. rewrite E1. cbn [obind].
  rewrite <- (replaced_fun _ _ _ _ R1 ltac:(discriminate) _ Q1) in *. destruct (replace_ok (S (length m)) (str "class ") [] m) as (r2 & E2 & Q2); [discriminate|lia|]. rewrite E2. f_equal. symmetry. exact (replaced_fun _ _ _ _ R2 ltac:(discriminate) _ Q2).
Qed.
Lemma symbol_given : forall d sym n id line v, msvc_function uname usig U sym n id -> names_of U (d_names d) -> ParseAddressField line = Ok v -> v <> 0 ->
  exists m' fns, msvc_symbol uname usig d sym line = Ok (Some (mk_mapdb m' fns (d_fields d) (d_gettype d))) /\ names_of U m' /\ names_kept (d_names d) m' /\ given (hash32 n 0) v [id] (d_functions d) fns.
Proof.
  intros d sym n id line v F N A V. unfold msvc_symbol.
  assert (X : uname sym = n /\ plain_name n /\ exists ret cc ps tail, usual U ret /\ Forall (usual_parameter U) ps /\ without_class_words (usig sym) (full_signature ret cc n ps tail) /\
    (forall a b, full_signature ret cc n ps tail = a ++ n ++ b -> (length (written ret ++ 32%Z :: cc ++ [32%Z]) <= length a)%nat) /\
    (In cc free_conventions /\ id = id_of (map in_database ps) \/ cc = str "__thiscall" /\ exists c m, n = c ++ str "::" ++ m /\ ~ In 58 m /\ zlen c < 1024 /\ In c U /\ id = id_of (this_text c (c_const ret) :: map in_database ps))).
  { destruct F as [ret cc n ps tail F1 F2 F3 F4 F5 F6 F7|ret c m n ps tail F0 F1 F2 F3 F4 F5 F6 F7 F8 F9].
    - split; [exact F1|]. split; [exact F2|]. exists ret, cc, ps, tail. repeat (split; [assumption|]). left. auto.
    - split; [exact F1|]. split; [exact F2|]. exists ret, (str "__thiscall"), ps, tail. repeat (split; [assumption|]). right. split; [reflexivity|]. exists c, m. repeat (split; [assumption|]). reflexivity. }
  clear F. destruct X as (Un & (PL & PN & PZ & P1 & P2) & ret & cc & ps & tail & W & HP & WC & HF & ID). cbv zeta. rewrite Un.
  assert (P3 : forall p, In 60 p -> forall r, n <> p ++ r) by (intros p I r E; rewrite Forall_forall in PL; destruct (PL 60) as [_ B]; [rewrite E; apply in_app_iff; auto|apply B; cbn [In]; tauto]).
  unfold IsConstructFunction, IsDestructFunction, IsGetTypeFunction, IsGetTypeNameHashFunction. rewrite !startswith_false by (first [assumption | apply P3; vm_compute; tauto]).
  assert (TN : text_ok n) by (split; [eapply Forall_impl; [|exact PL]; intros c C; exact (proj1 C)|exact PZ]). rewrite (proj1 (text_hash n TN)). cbn [obind].
  destruct (m_find (hash32 n 0) (d_functions d)) as [f|] eqn:Fd.
  2: { exists (d_names d), (d_functions d). split; [destruct d; reflexivity|]. split; [exact N|]. split; [apply kept_refl|]. apply given_next; [apply no_key_unmatched; exact Fd|constructor]. }
  rewrite (undecorated _ _ WC). cbn [obind]. rewrite A. cbn [obind]. unfold full_signature in *. set (pre := written ret ++ 32 :: cc ++ [32]) in *.
  assert (n40 : ~ In 40 n) by (intros I; rewrite Forall_forall in PL; destruct (PL 40 I) as [_ B]; apply B; cbn [In]; tauto).
  rewrite (first_name pre n ps tail HF). destruct n as [|h n']; [congruence|]. set (n := h :: n') in *.
  assert (CC : In cc (str "__thiscall" :: free_conventions)) by (destruct ID as [[I _]|[-> _]]; cbn [In]; auto).
  assert (LH : letter h) by (inversion PL; assumption).
  destruct (returned U TA d ret cc h (n' ++ 40 :: parameters_of ps ++ 41 :: tail) W N LH CC) as (g & m1 & E1 & Qc & N1 & K1). cbv zeta in E1. fold pre in E1.
  change (n ++ 40 :: parameters_of ps ++ 41 :: tail) with (h :: n' ++ 40 :: parameters_of ps ++ 41 :: tail) at 1 2. rewrite E1. cbn [obind]. rewrite Qc.
  assert (R : found U n v (set_names m1 d) id (AddFunctionAddress (set_names m1 d) n (pre ++ n ++ 40 :: parameters_of ps ++ 41 :: tail) v (list_eqb cc (str "__thiscall")) (c_const ret))).
  { destruct ID as [[I ->]|[-> (c & m & En & Nm & Lc & Hc & ->)]].
    - replace (list_eqb cc (str "__thiscall")) with false by (unfold free_conventions in I; cbn [In] in I; destruct I as [<- | [<- | [<- | []]]]; reflexivity). apply sign_free; assumption.
    - change (list_eqb (str "__thiscall") (str "__thiscall")) with true. apply sign_this with (m := m); assumption. }
  destruct R as (b & m' & fns & E2 & N2 & K2 & Fb). rewrite E2. cbn [obind snd]. exists m', fns. split; [reflexivity|]. split; [exact N2|]. split; [apply (kept_trans _ m1); assumption|].
  destruct b; [apply given_hit; exact Fb|]. destruct Fb as [-> Fb]. apply given_next; [exact Fb|constructor].
Qed.
Lemma line_words : forall d b0 seg b1 sym rest, Forall (fun c => c = 32) b0 -> blanks b1 -> word_of_line seg -> word_of_line sym -> (forall c t, rest = c :: t -> c = 32) ->
  msvc_line uname usig d (b0 ++ seg ++ b1 ++ sym ++ rest) = (do r <- msvc_symbol uname usig d sym rest; Ok (r, rest)).
Proof.
  intros d b0 seg b1 sym rest B0 [N1 B1] (NS & WS & LS) (NY & WY & LY) R.
  assert (SP : forall b, Forall (fun c => c = 32) b -> Forall (fun c => c = 32 \/ c = 9) b) by (intros b G; eapply Forall_impl; [|exact G]; intros c ->; auto).
  assert (ST : forall w, Forall (fun c => 0 < c < 256 /\ c <> 32 /\ c <> 9) w -> Forall (fun c => c <> 32 /\ c <> 0) w) by (intros w G; eapply Forall_impl; [|exact G]; intros c C; cbn beta in C; lia).
  assert (HD : forall w rest c t, w <> [] -> Forall (fun c => 0 < c < 256 /\ c <> 32 /\ c <> 9) w -> w ++ rest = c :: t -> c <> 32 /\ c <> 9) by (intros [|x w] rest0 c t NE G E; [congruence|]; injection E as <- _; inversion G as [|? ? X _]; cbn beta in X; lia).
  assert (BL : forall b rest c t, b <> [] -> Forall (fun c => c = 32) b -> b ++ rest = c :: t -> c = 32) by (intros [|x b] rest0 c t NE G E; [congruence|]; injection E as <- _; inversion G; auto).
  unfold msvc_line. rewrite (skip_blanks b0); [|exact (SP _ B0)|intros c t; apply HD; assumption]. rewrite take_ok; [|exact (ST _ WS)|intros c t; apply BL; assumption|exact LS]. cbn [obind fst snd].
  rewrite (skip_blanks b1); [|exact (SP _ B1)|intros c t; apply HD; assumption]. rewrite take_ok; [|exact (ST _ WY)|exact R|exact LY]. reflexivity.
Qed.
Lemma line_given : forall d l sym v n id, symbol_row l sym v -> msvc_function uname usig U sym n id -> names_of U (d_names d) -> v mod 2 ^ 32 <> 0 ->
  exists m' fns rest, msvc_line uname usig d l = Ok (Some (mk_mapdb m' fns (d_fields d) (d_gettype d)), rest) /\ names_of U m' /\ names_kept (d_names d) m' /\ given (hash32 n 0) (v mod 2 ^ 32) [id] (d_functions d) fns.
Proof.
  intros d l sym v n id L F N V. destruct L as [b0 seg b1 sym b2 hex b3 more v B0 B1 B2 B3 WS WY WH H]. rewrite line_words; try assumption.
  - destruct (symbol_given d sym n id (b2 ++ hex ++ b3 ++ 102 :: more) (v mod 2 ^ 32) F N (address_field _ _ _ _ _ B2 B3 WH H) V) as (m' & fns & E & R). rewrite E. cbn [obind]. exists m', fns. eexists. split; [reflexivity|exact R].
  - destruct B2 as [N2 B2]. intros c t E. destruct b2 as [|x b2]; [congruence|]. injection E as <- _. inversion B2; auto.
Qed.
Lemma all_lines : forall ls cs d b, Forall2 (fun l c => exists sym v n id, symbol_row l sym v /\ msvc_function uname usig U sym n id /\ v mod 2 ^ 32 <> 0 /\ c = (hash32 n 0, [id], v mod 2 ^ 32)) ls cs -> names_of U (d_names d) -> b <> 0 ->
  exists m' fns, msvc_lines uname usig ls true d b = Ok (mk_mapdb m' fns (d_fields d) (d_gettype d), b) /\ names_of U m' /\ names_kept (d_names d) m' /\ all_given cs (d_functions d) fns.
Proof.
  intros ls cs d b F. revert d. induction F as [|l c ls cs (sym & v & n & id & L & M & V & ->) F IH]; intros d N B.
  - exists (d_names d), (d_functions d). cbn [msvc_lines]. split; [destruct d; reflexivity|]. split; [exact N|]. split; [apply kept_refl|constructor].
  - destruct (line_given d l sym v n id L M N V) as (m1 & f1 & rest & E & N1 & K1 & G). cbn [msvc_lines]. rewrite E. cbn [obind]. rewrite load_known by exact B. cbn [obind].
    destruct (IH (mk_mapdb m1 f1 (d_fields d) (d_gettype d)) N1 B) as (m2 & f2 & E2 & N2 & K2 & G2). cbn [d_fields d_gettype d_names d_functions] in *. exists m2, f2. split; [exact E2|]. split; [exact N2|]. split; [apply (kept_trans _ m1); assumption|]. eapply all_more; [exact G|exact G2].
Qed.
End Symbols.
