(** Byte strings.  Go [string] and [[]byte] values are both modelled as lists of
    8-bit characters; a nil slice and an empty slice are not distinguished
    except where a definition says so. *)
From Coq Require Export String Ascii.
From Coq Require Export List Arith Lia Bool.
Export ListNotations.
Open Scope list_scope.

Definition bytes := list ascii.

Global Arguments Ascii.eqb : simpl never.

(** [B "text"] is the byte string written as a Coq string literal. *)
Definition B (s : string) : bytes := list_ascii_of_string s.

(** Equality test on byte strings (Go [==] on strings). *)
Fixpoint beq (x y : bytes) : bool :=
  match x, y with
  | [], [] => true
  | a :: x', b :: y' => Ascii.eqb a b && beq x' y'
  | _, _ => false
  end.

(** Go [strings.HasPrefix]. *)
Fixpoint has_prefix (p s : bytes) : bool :=
  match p, s with
  | [], _ => true
  | a :: p', b :: s' => Ascii.eqb a b && has_prefix p' s'
  | _ :: _, [] => false
  end.

(** Membership of a name in a list of names. *)
Definition bmem (x : bytes) (l : list bytes) : bool := existsb (beq x) l.

Lemma beq_eq x y : beq x y = true <-> x = y.
Proof.
  revert y; induction x as [|a x IH]; destruct y as [|b y]; simpl; split;
    intro H; try congruence.
  - apply andb_true_iff in H as [H1 H2]. apply Ascii.eqb_eq in H1.
    apply IH in H2. congruence.
  - inversion H; subst. rewrite Ascii.eqb_refl. simpl. apply IH. reflexivity.
Qed.

Lemma beq_refl x : beq x x = true.
Proof. apply beq_eq; reflexivity. Qed.

Lemma beq_neq x y : beq x y = false <-> x <> y.
Proof.
  split; intro H.
  - intro E; subst. rewrite beq_refl in H; discriminate.
  - destruct (beq x y) eqn:E; auto. apply beq_eq in E. contradiction.
Qed.

Lemma beq_sym x y : beq x y = beq y x.
Proof.
  destruct (beq x y) eqn:E.
  - apply beq_eq in E; subst. symmetry; apply beq_refl.
  - symmetry. apply beq_neq. apply beq_neq in E. congruence.
Qed.

Lemma beq_spec x y : reflect (x = y) (beq x y).
Proof. apply iff_reflect. symmetry. apply beq_eq. Qed.

Lemma bytes_dec (x y : bytes) : {x = y} + {x <> y}.
Proof. destruct (beq_spec x y); auto. Qed.

Lemma bmem_In x l : bmem x l = true <-> In x l.
Proof.
  unfold bmem. rewrite existsb_exists. split.
  - intros (y & Hy & E). apply beq_eq in E. subst; auto.
  - intro H. exists x. split; auto. apply beq_refl.
Qed.

Lemma has_prefix_spec p s : has_prefix p s = true <-> exists t, s = p ++ t.
Proof.
  revert s; induction p as [|a p IH]; intro s; simpl.
  - split; eauto.
  - destruct s as [|b s].
    + split; [discriminate|]. intros (t & E); discriminate.
    + rewrite andb_true_iff, Ascii.eqb_eq, IH. split.
      * intros (-> & t & ->). eauto.
      * intros (t & E). inversion E; subst; eauto.
Qed.
