(* Text as lists of byte values. A C string is such a list without its terminator
   and without zero bytes. *)
From Verif Require Import Base.
From Coq Require Export String Ascii.
Notation length := List.length.
Notation concat := List.concat.
#[global] Open Scope list_scope.
#[global] Open Scope Z_scope.

(* the bytes of a literal *)
Definition str (s : string) : list Z := map (fun c => Z.of_N (N_of_ascii c)) (list_ascii_of_string s).
Definition c_string (s : list Z) : Prop := Forall (fun c => 0 < c < 256) s.

Fixpoint list_eqb (a b : list Z) : bool :=
  match a, b with
  | [], [] => true
  | x :: a', y :: b' => (x =? y) && list_eqb a' b'
  | _, _ => false
  end.
Fixpoint is_prefix (p s : list Z) : bool :=
  match p, s with
  | [], _ => true
  | x :: p', y :: s' => (x =? y) && is_prefix p' s'
  | _ :: _, [] => false
  end.

(* the C string held by a buffer: bytes up to the first zero; running off the
   end of the buffer is undefined behaviour *)
Fixpoint c_str (buf : list Z) : outcome (list Z) :=
  match buf with
  | [] => UB
  | c :: r => if c =? 0 then Ok [] else do t <- c_str r; Ok (c :: t)
  end.

Lemma list_eqb_eq : forall a b, list_eqb a b = true <-> a = b.
Proof.
  induction a as [|x a IH]; destruct b as [|y b]; cbn; split; intros H; try discriminate; auto.
  - apply andb_true_iff in H. destruct H as [H1 H2]. apply Z.eqb_eq in H1. apply IH in H2. congruence.
  - injection H as -> ->. rewrite Z.eqb_refl. cbn. apply IH. reflexivity.
Qed.
Lemma is_prefix_spec : forall p s, is_prefix p s = true <-> exists r, s = p ++ r.
Proof.
  induction p as [|x p IH]; intros s; cbn.
  - split; [eauto|reflexivity].
  - destruct s as [|y s]; cbn.
    + split; [discriminate|intros [r H]; discriminate].
    + rewrite andb_true_iff, Z.eqb_eq, IH. split.
      * intros [-> [r ->]]. eauto.
      * intros [r H]. injection H as -> ->. eauto.
Qed.
Lemma is_prefix_app : forall p r, is_prefix p (p ++ r) = true.
Proof. intros. apply is_prefix_spec. eauto. Qed.
Lemma c_str_app : forall s r, Forall (fun c => c <> 0) s -> c_str (s ++ 0 :: r) = Ok s.
Proof.
  induction s as [|c s IH]; intros r H; cbn; [reflexivity|]. inversion H; subst.
  destruct (Z.eqb_spec c 0); [contradiction|]. rewrite IH by assumption. reflexivity.
Qed.
Lemma c_string_nz : forall s, c_string s -> Forall (fun c => c <> 0) s.
Proof. intros s H. eapply Forall_impl; [|exact H]. cbn. lia. Qed.
