(* Scanning ends when no template specialisation mentions itself. *)
From Verif Require Import Base BaseProofs Text HashModel Maps FileUtilsModel FileUtilsSpec FileUtilsProofs DatabaseModel TextDbModel AttrModel ScanModel ScanSpec ScanTypeProofs ScanWalkProofs.
Local Open Scope string_scope.
Local Open Scope list_scope.
Local Open Scope Z_scope.

Definition nofuel {A} (x : outcome A) : Prop := x <> Fuel.
Lemma nf_bind : forall A B (x : outcome A) (f : A -> outcome B), nofuel x -> (forall a, x = Ok a -> nofuel (f a)) -> nofuel (obind x f).
Proof. intros A B x f Hx Hf. destruct x; cbn; try discriminate; [apply Hf; reflexivity|contradiction]. Qed.
Lemma nf_ok : forall A (a : A), nofuel (Ok a). Proof. discriminate. Qed.
Lemma nf_rd : forall A (l : list A) i, nofuel (rd l i).
Proof. intros. unfold rd. destruct (znth l i); discriminate. Qed.
Lemma nf_rd_bytes : forall l i n, nofuel (rd_bytes l i n).
Proof. intros. unfold rd_bytes. destruct (_ && _); discriminate. Qed.
Lemma nf_strlen : forall l, nofuel (strlen l).
Proof. induction l as [|c l IH]; cbn [strlen]; [discriminate|]. destruct (c =? 0); [discriminate|]. apply nf_bind; [exact IH|intros; apply nf_ok]. Qed.
Lemma nf_body : forall data nb n h, nofuel (body data nb n h).
Proof.
  induction n as [|n IH]; intros h; cbn [body]; [discriminate|]. apply nf_bind; [|intros; apply IH]. unfold rd_block. apply nf_bind; [apply nf_rd_bytes|intros; apply nf_ok].
Qed.
Lemma nf_murmur : forall data len seed, nofuel (MurmurHash3 data len seed).
Proof.
  intros. unfold MurmurHash3. cbv zeta. apply nf_bind; [apply nf_body|intros h _]. apply nf_bind; [|intros; apply nf_ok]. unfold tail.
  repeat match goal with |- nofuel (if ?b then _ else _) => destruct b end; repeat (apply nf_bind; [apply nf_rd|intros]); apply nf_ok.
Qed.
Lemma nf_hash : forall s seed, nofuel (HashNameString s seed).
Proof. intros. unfold HashNameString. apply nf_bind; [apply nf_strlen|intros; apply nf_murmur]. Qed.
Lemma nf_assert : forall b, nofuel (assert b). Proof. intros []; discriminate. Qed.
Lemma nf_getname : forall m t, nofuel (GetName m t).
Proof.
  intros m [t|]; unfold GetName; [|discriminate]. apply nf_bind; [apply nf_hash|intros h _]. destruct (h =? 0); [discriminate|]. destruct (m_find h m); [|discriminate].
  apply nf_bind; [apply nf_assert|intros; apply nf_ok].
Qed.
Lemma nf_name : forall d t, nofuel (db_name d t).
Proof. intros. unfold db_name. apply nf_bind; [apply nf_getname|intros; apply nf_ok]. Qed.
Lemma nf_first : forall T (m : zmap T) t, nofuel (first_prim m t).
Proof. intros. unfold first_prim. apply nf_bind; [apply nf_hash|intros; apply nf_ok]. Qed.
Lemma nf_add : forall T nm (v : T) m, nofuel (db_add nm v m).
Proof. intros. unfold db_add. apply nf_bind; [apply nf_assert|intros; apply nf_ok]. Qed.
Lemma nf_addu : forall T nm (v : T) m, nofuel (db_add_unique nm v m).
Proof. intros. unfold db_add_unique. apply nf_bind; [apply nf_assert|intros; apply nf_ok]. Qed.
Lemma nf_inh : forall a b c d, nofuel (AddTypeInheritance a b c d).
Proof. intros. unfold AddTypeInheritance. apply nf_bind; [apply nf_getname|intros; apply nf_ok]. Qed.
Lemma nf_remove : forall s pat, pat <> [] -> nofuel (Remove s pat).
Proof. intros s pat Hp. destruct (Remove_ok s pat Hp) as [r [H _]]. rewrite H. discriminate. Qed.
Lemma nf_tidy : forall s, nofuel (tidy s).
Proof.
  intros s. unfold tidy, Replace. repeat (apply nf_bind; [apply nf_remove; discriminate|intros]).
  apply nf_bind; [|intros]; match goal with |- nofuel (StringReplace ?f ?x ?p ?r) => destruct (replace_ok f p r x) as [y [Hy _]]; [discriminate|lia|rewrite Hy; discriminate] end.
Qed.
Lemma nf_uid : forall l acc, nofuel (unique_id acc l).
Proof. induction l as [|f l IH]; intros acc; cbn [unique_id]; [discriminate|]. apply nf_bind; [apply nf_hash|intros]. apply nf_bind; [apply nf_murmur|intros; apply IH]. Qed.

(* attributes *)
Lemma nf_string : forall t acc, nofuel (ParseString t acc) /\ forall k r, ParseString t acc = Ok (Some (k, r)) -> (length r <= length t)%nat.
Proof.
  induction t as [|c t IH]; intros acc; cbn [ParseString]; [split; [discriminate|intros; discriminate]|]. destruct (c =? 0); [split; [discriminate|intros; discriminate]|].
  destruct (c =? 34); [split; [discriminate|]; intros k r E; assert (r = t) by congruence; subst; cbn; lia|]. destruct (IH (c :: acc)) as [A B]. split; [exact A|]. intros k r E. apply B in E. cbn. lia.
Qed.
Lemma nf_symbol : forall t acc, nofuel (ParseSymbol t acc) /\ forall k r, ParseSymbol t acc = Ok (Some (k, r)) -> (length r <= length t)%nat.
Proof.
  induction t as [|c t IH]; intros acc; cbn [ParseSymbol]; [split; [discriminate|intros; discriminate]|]. destruct (negb _ && _).
  - destruct (IH (c :: acc)) as [A B]. split; [exact A|]. intros k r E. apply B in E. cbn. lia.
  - split; [discriminate|]. intros k r E. assert (r = c :: t) by congruence. subst. lia.
Qed.
Lemma nf_number : forall t ty acc, nofuel (ParseNumber ty t acc) /\ forall k r, ParseNumber ty t acc = Ok (Some (k, r)) -> (length r <= length t)%nat.
Proof.
  induction t as [|c t IH]; intros ty acc; cbn [ParseNumber]; [split; [discriminate|intros; discriminate]|]. destruct (negb _ && _).
  - destruct (_ || _).
    + destruct (negb _); [split; [discriminate|intros; discriminate]|]. destruct (IH (if c =? 46 then TOKEN_FLOAT else TOKEN_HEX_INT) (c :: acc)) as [A B]. split; [exact A|]. intros k r E. apply B in E. cbn. lia.
    + destruct (IH ty (c :: acc)) as [A B]. split; [exact A|]. intros k r E. apply B in E. cbn. lia.
  - split; [discriminate|]. intros k r E. assert (r = c :: t) by congruence. subst. lia.
Qed.
Lemma nf_lexer_loop : forall fuel t tokens, (length t < fuel)%nat -> nofuel (lexer_loop fuel t tokens).
Proof.
  induction fuel as [|fuel IH]; intros t tokens Hl; [lia|]. cbn [lexer_loop]. destruct t as [|c t]; [discriminate|]. cbn [length] in Hl.
  destruct (Z.eqb_spec c 0); [discriminate|]. destruct (c =? 61); [apply IH; lia|]. destruct (c =? 44); [apply IH; lia|]. destruct (_ || _); [apply IH; lia|].
  destruct (Z.eqb_spec c 34).
  { destruct (nf_string t []) as [A B]. apply nf_bind; [exact A|]. intros [[k r]|] E; [|discriminate]. apply B in E. apply IH. lia. }
  assert (S : nofuel (ParseSymbol (c :: t) []) /\ (is_alnum c || (c =? 95) = true -> forall k r, ParseSymbol (c :: t) [] = Ok (Some (k, r)) -> (length r <= length t)%nat)).
  { split; [apply nf_symbol|]. intros Ha k r E. cbn [ParseSymbol] in E. rewrite Ha in E. cbn [orb] in E. replace (c =? 0) with false in E by (symmetry; apply Z.eqb_neq; assumption).
    cbn [negb andb] in E. apply nf_symbol in E. exact E. }
  destruct S as [S1 S2]. destruct (Z.eqb_spec c 95).
  { apply nf_bind; [exact S1|]. intros [[k r]|] E; [|discriminate]. apply S2 in E; [apply IH; lia|]. subst c. reflexivity. }
  destruct (is_alpha c) eqn:Ea.
  { apply nf_bind; [exact S1|]. intros [[k r]|] E; [|discriminate]. apply S2 in E; [apply IH; lia|]. unfold is_alnum. rewrite Ea. reflexivity. }
  destruct (is_digit c) eqn:Ed; [|discriminate].
  apply nf_bind; [apply nf_number|]. intros [[k r]|] E; [|discriminate]. apply IH.
  assert (length r <= length t)%nat; [|lia]. cbn [ParseNumber] in E. replace (c =? 0) with false in E by (symmetry; apply Z.eqb_neq; assumption). unfold is_xdigit in E. rewrite Ed in E. cbn [negb andb orb] in E.
  unfold is_digit in Ed. replace (c =? 46) with false in E by (symmetry; apply Z.eqb_neq; lia). replace (c =? 120) with false in E by (symmetry; apply Z.eqb_neq; lia). replace (c =? 88) with false in E by (symmetry; apply Z.eqb_neq; lia).
  cbn [orb] in E. apply nf_number in E. exact E.
Qed.
Lemma nf_atoi : forall t, nofuel (atoi t).
Proof. intros t. unfold atoi. cbv zeta. destruct (_ && _); discriminate. Qed.
Lemma nf_hex : forall t, nofuel (hex_value t).
Proof.
  intros t. unfold hex_value. cbv zeta. apply nf_bind; [apply nf_rd|intros]. destruct (_ =? 48); [|discriminate]. apply nf_bind; [apply nf_rd|intros]. apply nf_bind; [|intros x _; destruct x; discriminate].
  destruct (_ =? 120); [discriminate|]. apply nf_bind; [apply nf_rd|intros; apply nf_ok].
Qed.
Lemma nf_attr : forall sf m t v, nofuel (AddAttribute sf m t v).
Proof.
  intros sf m t [v|]; unfold AddAttribute; [|apply nf_bind; [apply nf_getname|intros; apply nf_ok]].
  destruct (tk_type v); try discriminate; repeat first [apply nf_ok | apply nf_getname | apply nf_atoi | apply nf_hex | apply nf_bind; [|intros]].
Qed.
Lemma nf_def : forall sf m ts pos, nofuel (AttributeDef sf m ts pos) /\ forall a p, AttributeDef sf m ts pos = Ok (Some (a, p)) -> pos < p.
Proof.
  intros sf m ts pos. unfold AttributeDef. split.
  - apply nf_bind; [unfold ExpectNext; apply nf_bind; [apply nf_rd|intros; destruct (ttype_eqb _ _); discriminate]|]. intros [[n|] p] _; cbn [fst snd]; [|discriminate].
    apply nf_bind; [unfold CheckNext; destruct (_ <=? _); [discriminate|]; apply nf_bind; [apply nf_rd|intros; destruct (ttype_eqb _ _); discriminate]|].
    intros [[x|] p'] _; cbn [fst snd].
    + destruct (_ <=? _); [discriminate|]. apply nf_bind; [apply nf_rd|intros]. apply nf_bind; [apply nf_attr|intros [y|] _; discriminate].
    + apply nf_bind; [apply nf_attr|intros [y|] _; discriminate].
  - intros a p H. apply obind_ok in H. destruct H as [[[n|] p1] [H1 H]]; cbn [fst snd] in H; [|discriminate H]. unfold ExpectNext in H1. apply obind_ok in H1. destruct H1 as [t [_ H1]].
    destruct (ttype_eqb _ _); [|discriminate H1]. assert (p1 = pos + 1) by congruence. subst p1. apply obind_ok in H. destruct H as [[[x|] p2] [H2 H]]; cbn [fst snd] in H; unfold CheckNext in H2.
    + destruct (_ <=? _) in H2; [discriminate H2|]. apply obind_ok in H2. destruct H2 as [t2 [_ H2]]. destruct (ttype_eqb _ _); [|discriminate H2]. assert (p2 = pos + 1 + 1) by congruence. subst p2.
      destruct (_ <=? _) in H; [discriminate H|]. apply obind_ok in H. destruct H as [v [_ H]]. apply obind_ok in H. destruct H as [[y|] [_ H]]; [|discriminate H]. assert (p = pos + 1 + 1 + 1) by congruence. lia.
    + assert (p2 = pos + 1). { destruct (_ <=? _) in H2; [congruence|]. apply obind_ok in H2. destruct H2 as [t2 [_ H2]]. destruct (ttype_eqb _ _); congruence. }
      subst p2. apply obind_ok in H. destruct H as [[y|] [_ H]]; [|discriminate H]. assert (p = pos + 1) by congruence. lia.
Qed.
Lemma nf_parser_loop : forall fuel sf m ts pos, 0 <= pos -> (Z.to_nat (zlen ts - pos) < fuel)%nat -> nofuel (parser_loop fuel sf m ts pos).
Proof.
  induction fuel as [|fuel IH]; intros sf m ts pos Hp Hf; [lia|]. cbn [parser_loop]. destruct (nf_def sf m ts pos) as [A B]. apply nf_bind; [exact A|]. intros [[[a m'] p]|] E; [|discriminate].
  apply B in E. destruct (Z.ltb_spec p (zlen ts)); [|discriminate]. apply nf_bind; [apply nf_rd|intros t _]. destruct (ttype_eqb _ _); [|discriminate]. apply nf_bind; [|intros; apply nf_ok]. apply IH; lia.
Qed.
Lemma nf_attributes : forall sf m t, nofuel (ParseAttributes sf m t).
Proof.
  intros sf m t. unfold ParseAttributes. apply nf_bind; [apply nf_lexer_loop; lia|]. intros ts _. unfold Parser. destruct ts as [|x ts]; [discriminate|]. apply nf_parser_loop; [lia|]. unfold zlen. lia.
Qed.
Lemma nf_annots : forall sf l m, nofuel (parse_annots sf m l).
Proof. induction l as [|a l IH]; intros m; cbn [parse_annots]; [discriminate|]. apply nf_bind; [apply nf_attributes|intros]. apply nf_bind; [apply IH|intros; apply nf_ok]. Qed.
Lemma nf_attr_in : forall T (eqb : T -> T -> bool) nm v m, nofuel (add_attr_in eqb nm v m).
Proof. intros. unfold add_attr_in. destruct (m_find _ _) as [w|]; [destruct (eqb w v); [discriminate|]|]; apply nf_add. Qed.
Lemma nf_attrs : forall p l d, nofuel (add_attrs p l d).
Proof.
  induction l as [|a l IH]; intros d; cbn [add_attrs]; [discriminate|]. apply nf_bind; [apply nf_name|intros]. apply nf_bind; [|intros; apply IH].
  unfold add_attr. destruct a; apply nf_bind; try apply nf_attr_in; intros; apply nf_ok.
Qed.
Lemma nf_decl_attributes : forall sf sp d h allow db, nofuel (ParseDeclAttributes sf sp d h allow db).
Proof.
  intros. unfold ParseDeclAttributes. cbv zeta. apply nf_bind; [apply nf_annots|intros]. apply nf_bind; [apply nf_hash|intros]. apply nf_bind; [apply nf_hash|intros]. apply nf_bind; [apply nf_hash|intros].
  apply nf_bind; [|intros; apply nf_ok]. destruct (_ || _); [apply nf_attrs|discriminate].
Qed.

(* types *)
Section Types.
Variables (pcts : database -> Z -> outcome (presult (list Z) * database)).
Lemma nf_spec : forall db t nm, (forall k db, spec_of t = Some k -> nofuel (pcts db k)) -> nofuel (parse_spec_type pcts db t nm).
Proof. intros db t nm H. unfold parse_spec_type. destruct t as [p|p|p [ | |i]|p [ | |i]|q|q|q|n q| ]; try discriminate; apply H; reflexivity. Qed.
Lemma nf_element : forall db n e, (forall op c t k db, shape e op c t -> spec_of t = Some k -> nofuel (pcts db k)) -> nofuel (element_info pcts db n e).
Proof.
  intros db n e H.
  assert (K : forall op q2, shape_of e = (op, q2) -> nofuel (let 'Q is_const t := update q2 in
     match t with
     | T_builtin _ | T_enum _ | T_record _ _ | T_tspec _ _ =>
      do x <- parse_spec_type pcts db t (printed t);
      match fst x with
      | Bad s => Ok (Bad s, snd x)
      | Good nm => do nm' <- tidy nm; Ok (Good (mk_pinfo nm' (mk_qual op is_const) n), snd x)
      end
     | _ => Ok (Bad false, db)
     end)).
  { intros op q2 E1. destruct (update q2) as [c t] eqn:E2.
    assert (S : forall k db, spec_of t = Some k -> nofuel (pcts db k)). { intros k db0 Hk. apply (H op c t k db0); [|exact Hk]. apply shape_spec. exists q2. auto. }
    assert (F : forall x : presult (list Z) * database, nofuel (match fst x with Good nm => do nm' <- tidy nm; Ok (Good (mk_pinfo nm' (mk_qual op c) n), snd x) | Bad s => Ok (Bad s, snd x) end)).
    { intros [[g|b] x]; cbn [fst snd]; [|discriminate]. apply nf_bind; [apply nf_tidy|intros; apply nf_ok]. }
    destruct t; try discriminate; (apply nf_bind; [apply nf_spec; exact S|intros; apply F]). }
  unfold element_info. unfold shape_of in K. destruct (update e) as [c0 t0]. destruct t0; exact (K _ _ eq_refl).
Qed.
Lemma nf_info : forall db q, (forall k db, uses_type q k -> nofuel (pcts db k)) -> nofuel (GetParameterInfo pcts db q).
Proof.
  intros db q H. assert (H' : forall n e, sized q n e -> forall db, nofuel (element_info pcts db n e)).
  { intros n e He db0. apply nf_element. intros op c t k db1 Hs Hk. apply H. exists n, e, op, c, t. auto. }
  destruct q as [c t]. unfold GetParameterInfo. destruct t; try (apply H'; apply sz_other; intros; discriminate).
  destruct (Z.ltb_spec UINT_MAX n); [discriminate|]. apply H'. apply sz_array. unfold UINT_MAX in *. lia.
Qed.
Lemma nf_base : forall db nm b, (forall k db, uses_base b k -> nofuel (pcts db k)) -> nofuel (ParseBaseClass pcts db nm b).
Proof.
  intros db nm b H. unfold ParseBaseClass. destruct (update (b_type b)) as [c t] eqn:E. apply nf_bind; [apply nf_remove; discriminate|intros]. apply nf_bind; [apply nf_remove; discriminate|intros].
  destruct (b_virtual b); [discriminate|]. apply nf_bind.
  - apply nf_spec. intros k db0 Hk. apply H. exists c, t. split; [apply stands_update; exact E|exact Hk].
  - intros [[g|s] x] _; cbn [fst snd]; [|discriminate]. apply nf_bind; [apply nf_name|intros]. apply nf_bind; [apply nf_inh|intros; apply nf_ok].
Qed.
Lemma nf_targs : forall l first db, (forall q k db, In (TA_type q) l -> uses_type q k -> nofuel (pcts db k)) -> nofuel (parse_targs pcts db first l).
Proof.
  induction l as [|[q| ] l IH]; intros first db H; cbn [parse_targs]; [discriminate| |discriminate]. apply nf_bind.
  - apply nf_info. intros k db0 Hk. eapply H; [left; reflexivity|exact Hk].
  - intros [[i|s] x] _; cbn [fst snd]; [|discriminate]. destruct (qop_eqb _ _); [discriminate|]. destruct (negb _); [discriminate|]. apply nf_bind.
    + apply IH. intros q' k db0 Hq Hk. eapply H; [right; exact Hq|exact Hk].
    + intros [[[is t]|s] y] _; cbn [fst snd]; discriminate.
Qed.
Lemma nf_bases : forall l nm db, (forall b k db, In b l -> uses_base b k -> nofuel (pcts db k)) -> nofuel (parse_bases pcts db nm l).
Proof.
  induction l as [|b l IH]; intros nm db H; cbn [parse_bases]; [discriminate|]. apply nf_bind.
  - apply nf_base. intros k db0 Hk. eapply H; [left; reflexivity|exact Hk].
  - intros [[n|s] x] _; cbn [fst snd]; [|discriminate]. apply nf_bind.
    + apply IH. intros b' k db0 Hq Hk. eapply H; [right; exact Hq|exact Hk].
    + intros [[ns|s] y] _; cbn [fst snd]; discriminate.
Qed.
End Types.
Lemma nf_names : forall l db, nofuel (get_type_names db l).
Proof. induction l as [|i l IH]; intros db; cbn [get_type_names]; [discriminate|]. apply nf_bind; [apply nf_name|intros]. apply nf_bind; [apply IH|intros; apply nf_ok]. Qed.
Lemma nf_cts : forall E rank, (forall i j, mentions (E i) j -> (rank j < rank i)%nat) -> forall fuel i db, (rank i < fuel)%nat -> nofuel (parse_cts fuel E db i).
Proof.
  intros E rank Hr. induction fuel as [|fuel IH]; intros i db Hi; [lia|]. cbn [parse_cts]. cbv zeta. apply nf_bind; [apply nf_name|intros p _]. destruct (_ <=? _); [discriminate|]. apply nf_bind.
  - apply nf_targs. intros q k db0 Hq Hk. apply IH. assert (rank k < rank i)%nat; [|lia]. apply Hr. left. exists q. auto.
  - intros [[[infos text]|s] a] _; cbn [fst snd]; [|discriminate]. apply nf_bind; [apply nf_first|intros [found|] _; [discriminate|]]. apply nf_bind; [apply nf_name|intros t _]. apply nf_bind.
    + apply nf_bases. intros b k db0 Hb Hk. apply IH. assert (rank k < rank i)%nat; [|lia]. apply Hr. right. exists b. auto.
    + intros [[ns|s] b] _; cbn [fst snd]; [|discriminate]. apply nf_bind; [apply nf_names|intros n _]. apply nf_bind; [apply nf_add|intros; apply nf_ok].
Qed.
Section Decls.
Variables (fuel : nat) (sf : list Z -> Z) (E : env) (sp : specs).
Hypothesis HE : ranked fuel E.
Lemma nf_pcts : forall db k, nofuel (parse_cts fuel E db k).
Proof. intros db k. destruct HE as [rank [H1 H2]]. apply (nf_cts E rank H1). apply H2. Qed.
Lemma nf_field : forall db q a b i, nofuel (MakeField fuel E db q a b i).
Proof.
  intros. unfold MakeField. apply nf_bind; [apply nf_info; intros; apply nf_pcts|]. intros [[info|s] x] _; cbn [fst snd]; [|discriminate].
  apply nf_bind; [apply nf_name|intros]. apply nf_bind; [apply nf_name|intros]. apply nf_bind; [apply nf_name|intros]. cbv zeta. destruct (_ =? 0); [discriminate|].
  apply nf_bind; [apply nf_name|intros]. apply nf_bind; [apply nf_addu|intros; apply nf_ok].
Qed.
Lemma nf_params : forall l db nm i, nofuel (make_params fuel E db nm i l).
Proof.
  induction l as [|[n q] l IH]; intros db nm i; cbn [make_params]; [discriminate|]. cbv zeta. apply nf_bind; [apply nf_field|]. intros [[f|s] x] _; cbn [fst snd]; [|discriminate].
  apply nf_bind; [apply IH|]. intros [[fs|s] y] _; cbn [fst snd]; discriminate.
Qed.
Lemma nf_add_field : forall f d, nofuel (add_field f d).
Proof. intros. unfold add_field. apply nf_bind; [apply nf_add|intros; apply nf_ok]. Qed.
Lemma nf_add_fields : forall l d, nofuel (add_fields l d).
Proof. induction l as [|f l IH]; intros d; cbn [add_fields]; [discriminate|]. apply nf_bind; [apply nf_add_field|intros; apply IH]. Qed.
Lemma nf_function : forall f nm parent this s, nofuel (MakeFunction fuel E f nm parent this s).
Proof.
  intros. unfold MakeFunction. destruct (negb _); [discriminate|]. apply nf_bind; [apply nf_field|]. intros [[r|b] x] _; cbn [fst snd]; [|discriminate]. apply nf_bind; [apply nf_params|].
  intros [[ps|b] y] _; cbn [fst snd]; [|discriminate]. cbv zeta. apply nf_bind; [apply nf_uid|intros]. apply nf_bind; [apply nf_name|intros]. apply nf_bind; [apply nf_name|intros].
  apply nf_bind; [apply nf_add|intros]. apply nf_bind; [destruct (list_eqb _ _); [discriminate|apply nf_add_field]|intros]. apply nf_bind; [apply nf_add_fields|intros; apply nf_ok].
Qed.
Lemma nf_constants : forall e p l d, nofuel (add_constants e p l d).
Proof.
  induction l as [|[c v] l IH]; intros d; cbn [add_constants]; [discriminate|]. cbv zeta. apply nf_bind; [apply nf_name|intros]. apply nf_bind; [apply nf_name|intros]. apply nf_bind; [apply nf_add|intros; apply IH].
Qed.
Lemma nf_leaf : forall k nm parent layout s, nofuel (add_leaf fuel E k nm parent layout s).
Proof.
  intros. unfold add_leaf. destruct k as [sc cs|f|op inst this f|anon n bits q|n fwd| ].
  - unfold AddEnumDecl. apply nf_bind; [apply nf_name|intros]. apply nf_bind; [apply nf_name|intros]. apply nf_bind; [apply nf_add|intros]. apply nf_bind; [apply nf_constants|intros; apply nf_ok].
  - apply nf_function.
  - unfold AddMethodDecl. destruct op; [discriminate|]. destruct inst; [|apply nf_function]. apply nf_bind; [apply nf_field|]. intros [[t|b] x] _; cbn [fst snd]; [apply nf_function|discriminate].
  - unfold AddFieldDecl. destruct anon; [discriminate|]. destruct (negb layout); [discriminate|]. apply nf_bind; [apply nf_field|]. intros [[t|b] x] _; cbn [fst snd]; [|discriminate].
    apply nf_bind; [apply nf_add_field|intros; apply nf_ok].
  - unfold AddClassTemplateDecl. apply nf_bind; [apply nf_first|intros [x|] _; [discriminate|]]. destruct (_ <? _); [discriminate|]. apply nf_bind; [apply nf_name|intros]. apply nf_bind; [apply nf_name|intros].
    apply nf_bind; [apply nf_add|intros; apply nf_ok].
  - discriminate.
Qed.
Lemma nf_class_bases : forall l nm db, nofuel (class_bases fuel E db nm l).
Proof.
  induction l as [|b l IH]; intros nm db; cbn [class_bases]; [discriminate|]. apply nf_bind; [apply nf_base; intros; apply nf_pcts|]. intros [[n|s] x] _; cbn [fst snd]; [|discriminate].
  apply nf_bind; [apply nf_inh|intros; apply IH].
Qed.
Lemma nf_class : forall r nm parent s, nofuel (AddClassDecl fuel E r nm parent s).
Proof.
  intros. unfold AddClassDecl. destruct (_ && _); [discriminate|]. cbv zeta. destruct (_ && _); [discriminate|]. apply nf_bind; [apply nf_name|intros]. apply nf_bind.
  - destruct (negb _); [discriminate|apply nf_class_bases].
  - intros [[u|b] x] _; cbn [fst snd]; [|discriminate]. destruct (r_anon r); [discriminate|]. apply nf_bind; [apply nf_first|intros found _]. apply nf_bind.
    + destruct found; [discriminate|]. apply nf_bind; [apply nf_name|intros]. apply nf_bind; [apply nf_name|intros]. apply nf_bind; [apply nf_add|intros; apply nf_ok].
    + intros d1 _. destruct (negb _); [discriminate|]. apply nf_bind; [apply nf_hash|intros]. destruct (m_find _ _); discriminate.
Qed.
Lemma nf_namespace : forall nm parent s, nofuel (AddNamespaceDecl nm parent s).
Proof.
  intros. unfold AddNamespaceDecl. apply nf_bind; [apply nf_first|intros [x|] _; [discriminate|]]. apply nf_bind; [apply nf_name|intros]. apply nf_bind; [apply nf_name|intros]. apply nf_bind; [apply nf_add|intros; apply nf_ok].
Qed.
Lemma nf_run : forall d h s body, (forall s, nofuel (body s)) -> nofuel (run sf sp d h s body).
Proof.
  intros d h s bd Hb. unfold run. destruct (h_invalid h); [discriminate|]. apply nf_bind; [apply nf_decl_attributes|]. intros [r x] _. cbn [fst snd]. destruct r.
  - destruct (st_allow _); [apply Hb|discriminate].
  - apply nf_bind; [apply Hb|intros; apply nf_ok].
  - apply Hb.
  - discriminate.
Qed.
Lemma nf_contained : forall l, Forall (fun d => forall parent layout s, nofuel (AddDecl fuel sf E sp d parent layout s)) l -> forall scope layout s, nofuel (contained E fuel sf sp l scope layout s).
Proof. induction 1 as [|d l Hd Hl IH]; intros scope layout s; cbn [contained]; [discriminate|]. apply nf_bind; [apply Hd|intros; apply IH]. Qed.
Lemma nf_decl : forall d parent layout s, nofuel (AddDecl fuel sf E sp d parent layout s).
Proof.
  apply (decl_ind2 (fun d => forall parent layout s, nofuel (AddDecl fuel sf E sp d parent layout s))).
  - intros h l IH parent layout s. rewrite AddDecl_eq. apply nf_run. intros s1. apply nf_bind; [apply nf_namespace|intros; apply nf_contained; exact IH].
  - intros h r l IH parent layout s. rewrite AddDecl_eq. apply nf_run. intros s1. apply nf_bind; [apply nf_class|]. intros [s2 [scope|]] _; cbn [fst snd]; [apply nf_contained; exact IH|discriminate].
  - intros h k parent layout s. rewrite AddDecl_eq. apply nf_run. intros s1. apply nf_leaf.
  - intros parent layout s. rewrite AddDecl_eq. discriminate.
Qed.
Lemma nf_walk : forall l s, nofuel (walk_tu fuel sf E sp l s).
Proof. induction l as [|d l IH]; intros s; cbn [walk_tu]; [discriminate|]. apply nf_bind; [destruct (top_level d); [apply nf_decl|discriminate]|intros; apply IH]. Qed.
End Decls.
Lemma nf_base_types : forall l d, nofuel (add_base_types l d).
Proof. induction l as [|[t z] l IH]; intros d; cbn [add_base_types]; [discriminate|]. apply nf_bind; [apply nf_name|intros]. apply nf_bind; [apply nf_add|intros; apply IH]. Qed.
Lemma nf_tus : forall fuel sf tus, (forall E, In E (map fst tus) -> ranked fuel E) -> forall x, nofuel (scan_tus fuel sf tus x).
Proof.
  induction tus as [|[E tu] tus IH]; intros H x; cbn [scan_tus]; [discriminate|]. apply nf_bind; [|intros; apply IH; intros E' HE; apply H; right; exact HE].
  unfold scan_tu. cbv zeta. apply nf_bind; [apply nf_base_types|intros]. apply nf_bind; [|intros; apply nf_ok]. apply nf_walk. apply H. left. reflexivity.
Qed.
Lemma nf_containers : forall l d, nofuel (add_containers l d).
Proof.
  induction l as [|[c [[r w] k]] l IH]; intros d; cbn [add_containers]; [discriminate|]. apply nf_bind; [apply nf_name|intros]. apply nf_bind; [apply nf_name|intros]. apply nf_bind; [apply nf_name|intros]. apply IH.
Qed.
Lemma scan_ends : forall fuel sf tus, (forall E, In E (map fst tus) -> ranked fuel E) -> scan fuel sf tus <> Fuel.
Proof.
  intros fuel sf tus H. apply nf_bind; [apply nf_tus; exact H|]. intros x _. apply nf_bind; [apply nf_containers|intros; apply nf_ok].
Qed.

(* the specialisations of   template <class T> struct B { };   template <class T> struct A : B<A<T> > { };   A<int> *)
Definition crtp : env := fun i =>
  if i =? 0 then mk_cts (str "A") [TA_type (Q false (T_builtin (str "int")))] [mk_base false (Q false (T_tspec (str "B<A<int> >") (RD_spec 1)))] 1
  else mk_cts (str "B") [TA_type (Q false (T_record (str "A<int>") (RD_spec 0)))] [] 1.
Lemma names_only : forall d t x, db_name d t = Ok x -> m_template_types (snd x) = m_template_types d.
Proof. intros d t x H. unfold db_name in H. apply obind_ok in H. destruct H as [y [_ H]]. assert (x = (fst y, set_names (snd y) d)) by congruence. subst. reflexivity. Qed.
Lemma crtp_never : forall fuel db r, m_template_types db = [] -> parse_cts fuel crtp db 0 <> Ok r.
Proof.
  induction fuel as [fuel IH] using lt_wf_ind. intros db r Hdb H. destruct fuel as [|fuel]; [discriminate H|]. cbn [parse_cts] in H. cbv zeta in H.
  change (crtp 0) with (mk_cts (str "A") [TA_type (Q false (T_builtin (str "int")))] [mk_base false (Q false (T_tspec (str "B<A<int> >") (RD_spec 1)))] 1) in H. cbn [s_template s_args s_bases s_size] in H.
  apply obind_ok in H. destruct H as [p [H1 H]]. change (MAX_NB_ARGS <=? zlen [TA_type (Q false (T_builtin (str "int")))]) with false in H. cbn [negb] in H. cbv iota in H.
  apply names_only in H1. apply obind_ok in H. destruct H as [a [H2 H]].
  assert (A : a = (Good ([mk_pinfo (str "int") (mk_qual VALUE false) 0], str "int"), snd p)).
  { cbn [parse_targs] in H2. apply obind_ok in H2. destruct H2 as [x [X1 X2]]. 
    change (GetParameterInfo (parse_cts fuel crtp) (snd p) (Q false (T_builtin (str "int")))) with (do nm' <- tidy (str "int"); Ok (@Good pinfo (mk_pinfo nm' (mk_qual VALUE false) 0), snd p)) in X1.
    assert (T : tidy (str "int") = Ok (str "int")) by (vm_compute; reflexivity). rewrite T in X1. cbn [obind] in X1.
    assert (x = (Good (mk_pinfo (str "int") (mk_qual VALUE false) 0), snd p)) by congruence. subst x. cbn [fst snd pi_qual pi_count q_op qop_eqb] in X2. change (negb (0 =? 0)) with false in X2. cbv iota in X2.
    cbn [obind fst snd pi_type app] in X2. rewrite app_nil_r in X2. congruence. }
  subst a. cbn [fst snd] in H. apply obind_ok in H. destruct H as [found [H3 H]].
  assert (F : found = None). { unfold first_prim in H3. apply obind_ok in H3. destruct H3 as [h [_ H3]]. rewrite H1, Hdb in H3. cbn [m_find] in H3. congruence. }
  subst found. apply obind_ok in H. destruct H as [t [H4 H]]. apply names_only in H4. apply obind_ok in H. destruct H as [b [H5 _]]. clear H2 H3.
  cbn [parse_bases] in H5. apply obind_ok in H5. destruct H5 as [x [H6 _]]. unfold ParseBaseClass in H6. cbn [b_type update b_virtual] in H6.
  apply obind_ok in H6. destruct H6 as [y [_ H6]]. apply obind_ok in H6. destruct H6 as [nm [_ H6]]. apply obind_ok in H6. destruct H6 as [z [H6 _]]. cbn [parse_spec_type] in H6.
  destruct fuel as [|fuel]; [discriminate H6|]. cbn [parse_cts] in H6. cbv zeta in H6.
  change (crtp 1) with (mk_cts (str "B") [TA_type (Q false (T_record (str "A<int>") (RD_spec 0)))] [] 1) in H6. cbn [s_template s_args s_bases s_size] in H6.
  apply obind_ok in H6. destruct H6 as [p' [P1 H6]]. change (MAX_NB_ARGS <=? zlen [TA_type (Q false (T_record (str "A<int>") (RD_spec 0)))]) with false in H6. cbv iota in H6.
  apply names_only in P1. apply obind_ok in H6. destruct H6 as [a [H6 _]]. cbn [parse_targs] in H6. apply obind_ok in H6. destruct H6 as [i [H6 _]].
  unfold GetParameterInfo, element_info in H6. cbn [update printed parse_spec_type] in H6. apply obind_ok in H6. destruct H6 as [q [H6 _]].
  revert H6. apply IH; [lia|]. rewrite P1, H4. cbn [fst snd]. rewrite H1. exact Hdb.
Qed.
Lemma crtp_field : forall fuel db nm owner i r, m_template_types db = [] -> MakeField fuel crtp db (Q false (T_tspec (str "A<int>") (RD_spec 0))) nm owner i <> Ok r.
Proof.
  intros fuel db nm owner i r Hd H. unfold MakeField in H. apply obind_ok in H. destruct H as [x [H _]]. unfold GetParameterInfo, element_info in H. cbn [update printed parse_spec_type] in H.
  apply obind_ok in H. destruct H as [q [H _]]. revert H. apply crtp_never. exact Hd.
Qed.
