(** C08: which names are accepted. *)
From Verif Require Import Bytes IO Nodes Values Render Build Demo.

(** The language, by listing the characters. *)
Definition letters : bytes := B "abcdefghijklmnopqrstuvwxyzABCDEFGHIJKLMNOPQRSTUVWXYZ".
Definition digits : bytes := B "0123456789".
Definition marks : bytes := B "._-:".
Definition good_name (s : bytes) : Prop :=
  exists c s', s = c :: s' /\ In c letters /\ forall x, In x s' -> In x (letters ++ digits ++ marks).

Lemma char_table : forall c : ascii,
  (is_letter c = true <-> In c letters) /\ (name_char c = true <-> In c (letters ++ digits ++ marks)).
Proof.
  assert (H : forall c : ascii,
    Bool.eqb (is_letter c) (existsb (Ascii.eqb c) letters) &&
    Bool.eqb (name_char c) (existsb (Ascii.eqb c) (letters ++ digits ++ marks)) = true).
  { intros [[] [] [] [] [] [] [] []]; vm_compute; reflexivity. }
  assert (E : forall (c : ascii) l, existsb (Ascii.eqb c) l = true <-> In c l).
  { intros c l. rewrite existsb_exists. split.
    - intros (x & H1 & H2). apply Ascii.eqb_eq in H2. subst. auto.
    - intro H1. exists c. split; auto. apply Ascii.eqb_refl. }
  intro c. specialize (H c). apply andb_true_iff in H as [H1 H2].
  apply Bool.eqb_prop in H1, H2. rewrite H1, H2. split; apply E.
Qed.

Theorem C08_language s : valid_name s = true <-> good_name s.
Proof.
  destruct s as [|c s]; simpl.
  - split; [discriminate|]. intros (c & s' & H & _). discriminate.
  - rewrite andb_true_iff, forallb_forall. split.
    + intros [H1 H2]. exists c, s. split; auto. split; [apply char_table; auto|].
      intros x Hx. apply char_table. auto.
    + intros (c' & s' & E & H1 & H2). injection E as <- <-. split; [apply char_table; auto|].
      intros x Hx. apply char_table. auto.
Qed.

Section Names.
Context {W : UserWorld}.

(** The five constructors, as one function of the name and PanicOnInvalidName:
    a constructed node, nil, or a panic. *)
Theorem C08_accept p name u (mk : U -> node U * U) :
  good_name name -> checked p name mk u = Done (Some (fst (mk u)), snd (mk u)).
Proof.
  intro G. apply C08_language in G. unfold checked. rewrite G. destruct (mk u). reflexivity.
Qed.
Theorem C08_reject p name u (mk : U -> node U * U) :
  ~ good_name name -> checked p name mk u = if p then Panic else Done (None, u).
Proof.
  intro G. unfold checked. destruct (valid_name name) eqn:E; auto.
  apply C08_language in E. contradiction.
Qed.

(** What each constructor accepts: it gives a node iff the name is good. *)
Theorem C08_constructors p name u args d :
  (good_name name <-> exists n u', Element p name args u = Done (Some n, u')) /\
  (good_name name <-> exists n u', VoidElement p name args u = Done (Some n, u')) /\
  (good_name name <-> exists n u', Attribute p name args u = Done (Some n, u')) /\
  (good_name name <-> exists n u', BooleanAttribute p name u = Done (Some n, u')) /\
  (good_name name <-> exists n u', DelimitedAttribute p name d args u = Done (Some n, u')).
Proof.
  assert (H : forall mk, good_name name <-> exists n u', checked p name mk u = Done (Some n, u')).
  { intro mk. split.
    - intro G. rewrite C08_accept by auto. eauto.
    - intros (n & u' & E). unfold checked in E. destruct (valid_name name) eqn:V.
      + apply C08_language. auto.
      + destruct p; discriminate. }
  unfold Element, VoidElement, Attribute, BooleanAttribute, DelimitedAttribute. auto.
Qed.

(** A node whose name was accepted can carry only harmless names. *)
Theorem C08_safe name c :
  good_name name -> In c name -> ~ In c (B " ""'=/<>&" ++ map ascii_of_nat [0; 9; 10; 12; 13; 32]).
Proof.
  intros (a & s & -> & H1 & H2) H.
  assert (I : In c (letters ++ digits ++ marks)).
  { destruct H as [<-|H]; [apply in_or_app; auto|auto]. }
  assert (T : forallb (fun c => negb (existsb (Ascii.eqb c)
      (B " ""'=/<>&" ++ map ascii_of_nat [0; 9; 10; 12; 13; 32]))) (letters ++ digits ++ marks) = true)
    by (vm_compute; reflexivity).
  rewrite forallb_forall in T. specialize (T c I). apply negb_true_iff in T.
  intro X. assert (existsb (Ascii.eqb c) (B " ""'=/<>&" ++ map ascii_of_nat [0; 9; 10; 12; 13; 32]) = true).
  { apply existsb_exists. exists c. split; auto. apply Ascii.eqb_refl. }
  congruence.
Qed.

End Names.

Example ex_name_good : good_name (B "data-x.y_Z:9").
Proof. apply C08_language. reflexivity. Qed.
Example ex_name_bad : ~ good_name (B "1a") /\ ~ good_name [] /\ ~ good_name (B "a b") /\
  ~ good_name (B "a" ++ ["010"%char]).
Proof. repeat split; intro H; apply C08_language in H; discriminate. Qed.
Example ex_name_reject :
  Element true (B "a b") [] (st 0) = Panic /\ Element false (B "a b") [] (st 0) = Done (None, st 0).
Proof. split; reflexivity. Qed.
