(** C57: is the attribute that Headers makes of header maps JSON? *)
From Coq Require Import ZArith List Ascii String Permutation Sorting.Sorted.
From Verif Require Import Bytes IO Nodes Values Render Build Headers SpecEscape SpecRun SpecOut SpecElem SpecJson
  IOFacts RenderFacts PageFacts PropValues PropElements PropHeaders Demo PropGroups.
Import ListNotations.
Local Open Scope string_scope.
Local Open Scope list_scope.

(** A JSON text that begins with a brace goes on with white space, a double
    quote or the closing brace. *)
Lemma blanks_head w c b d b' : blanks w -> w ++ c :: b = d :: b' -> blank d \/ (w = [] /\ c = d /\ b = b').
Proof.
  intros H E. destruct w as [|x w]; [injection E as -> ->; auto|]. injection E as -> _. left. apply (Forall_inv H).
Qed.

Lemma members_head ms : json_members ms -> exists c b, ms = c :: b /\ (blank c \/ c = """"%char).
Proof.
  assert (M : forall m, json_member m -> exists c b, m = c :: b /\ (blank c \/ c = """"%char)).
  { intros m H. destruct H as [w1 s w2 v H1 [b _] _ _]. destruct w1 as [|x w1].
    - eexists _, _. split; [reflexivity|]. auto.
    - eexists _, _. split; [reflexivity|]. left. apply (Forall_inv H1). }
  intros [m H|m ms' H _]; destruct (M m H) as (c & b & -> & D); eexists _, _; split; try reflexivity; auto.
Qed.

Lemma brace_next c b : json_text ("{"%char :: c :: b) -> blank c \/ c = """"%char \/ c = "}"%char.
Proof.
  intro H. unfold json_text in H. remember ("{"%char :: c :: b) as t eqn:E.
  destruct H as [w1 v w2 B1 V B2].
  destruct w1 as [|x w1].
  2: { injection E as -> _. apply Forall_inv in B1. cbn in B1. intuition discriminate. }
  cbn [app] in E. destruct V as [v I|v N|v S|w Hw|ms Hm|w Hw|es He].
  - cbn in I. destruct I as [<-|[<-|[<-|[]]]]; discriminate.
  - exfalso. destruct N as [m i f e Hm Hi _ _]. destruct Hm as [<-|[<-|[]]]; [|discriminate].
    destruct Hi as [|d ds D _ _]; [discriminate|]. injection E as -> _. cbn in D. intuition discriminate.
  - exfalso. destruct S. discriminate.
  - destruct w as [|x w].
    + injection E as <- _. auto.
    + injection E as -> _. left. apply (Forall_inv Hw).
  - destruct (members_head ms Hm) as (d & b' & -> & D). injection E as -> _. tauto.
  - discriminate.
  - discriminate.
Qed.

Lemma braces : json_text (B "{}").
Proof. apply (element [] (B "{}") []); [constructor| |constructor]. apply (value_empty_object []). constructor. Qed.

Lemma decode_plain c b : c <> "&"%char -> decode (c :: b) = c :: decode b.
Proof.
  intro N. unfold decode. cbn [decode_from].
  replace (entity_at (c :: b)) with (@None (bytes * ascii)); [reflexivity|].
  unfold entity_at. cbn [entities find map fst].
  assert (H : forall e, has_prefix ("&"%char :: e) (c :: b) = false).
  { intro e. cbn [has_prefix]. destruct (Ascii.eqb_spec "&"%char c); [congruence|reflexivity]. }
  repeat (change (has_prefix (B ?x) (c :: b)) with (has_prefix ("&"%char :: tl (B x)) (c :: b))).
  cbn [B list_ascii_of_string] in *. rewrite !H. reflexivity.
Qed.

Section Json.
Context {W : UserWorld} (o : order) (fr : frame U).

(** The last map that has the key. *)
Lemma last_map k (l : list hmap) : forall m (v : arg U), In m l -> In (k, v) m ->
  exists pre m' post v', l = pre ++ m' :: post /\ In (k, v') m' /\
    forall m2, In m2 post -> ~ In k (map fst m2).
Proof.
  induction l as [|y l IH]; intros m v H1 H2; [destruct H1|].
  destruct (existsb (fun m2 => bmem k (map fst m2)) l) eqn:Q.
  - apply existsb_exists in Q as (m3 & M1 & M2). apply bmem_In, in_map_iff in M2 as ([k3 v3] & E3 & M2).
    cbn in E3. subst k3. destruct (IH m3 v3 M1 M2) as (pre & m' & post & v' & -> & Y).
    exists (y :: pre), m', post, v'. auto.
  - assert (Y : forall m3, In m3 l -> ~ In k (map fst m3)).
    { intros m3 M3 M4. apply bmem_In in M4. rewrite <- Bool.not_true_iff_false in Q. apply Q.
      apply existsb_exists. eauto. }
    destruct H1 as [->|H1]; [|exfalso; apply (Y m H1), in_map_iff; exists (k, v); auto].
    exists [], m, l, v. auto.
Qed.

(** For every list of header maps, whatever their values: the attribute is
    written; and the value, as it stands and as the browser decodes it, is JSON
    only when there are no headers at all. *)
Theorem C57_only_empty r ms u s :
  ranges_ok r -> Forall hmap_ok ms -> ms <> [] ->
  exists n u' b s',
    Headers r (map HMap ms) u = Done (n, u') /\
    page o n fr s = (B " hx-headers=""" ++ b ++ B """", s') /\
    (json_text b <-> forall m, In m ms -> m = []) /\
    (json_text (decode b) <-> forall m, In m ms -> m = []).
Proof.
  intros R F N. destruct (C36_headers o fr r ms u s R F N) as (es & n & u' & _ & L & E & Pg & _).
  exists n, u'. rewrite Pg. clear Pg. unfold NewAttribute, object.
  destruct es as [|[k v] es].
  - assert (Z : forall m, In m ms -> m = []).
    { intros m I. destruct m as [|[k v] m]; [reflexivity|]. exfalso.
      destruct (last_map k ms _ v I (or_introl eq_refl)) as (pre & m' & post & v' & X1 & X2 & X3).
      assert (In (k, v') []) as []. apply L. exists pre, m', post. auto. }
    exists (B "{}"), s. split; [exact E|]. split.
    { cbn [items app new_values new_value raw value_to_bytes fst]. rewrite page_attr. apply liftU_ret. intro w. reflexivity. }
    split; split; auto; intros _; apply braces.
  - assert (Z : ~ forall m, In m ms -> m = []).
    { intro H. assert (last_entry ms k v) as (pre & m & post & -> & I & _) by (apply L; left; auto).
      rewrite (H m) in I by (apply in_or_app; right; left; auto). destruct I. }
    assert (X : exists rest, new_values (raw (B "{") :: items ((k, v) :: es) ++ [raw (B "}")]) u =
                  (Val (B "{") None [] :: Val (B "'") None [] :: fst rest, snd rest)).
    { assert (RW : forall x l, new_values (raw x :: l) u = (Val x None [] :: fst (new_values l u), snd (new_values l u))).
      { intros x l. unfold raw. cbn [new_values new_value value_to_bytes]. destruct (new_values l u). reflexivity. }
      rewrite RW. destruct es as [|e es]; cbn [items item app fst snd]; rewrite RW; cbn [fst snd]; eexists (_, _); reflexivity. }
    destruct X as [[vs u2] X]. rewrite X. cbn [fst snd]. rewrite page_attr. unfold liftU. cbn [sattr].
    rewrite (svals_app fr [Val (B "{") None []] (Val (B "'") None [] :: vs)), svals_one. cbn [sval].
    rewrite (svals_app fr [Val (B "'") None []] vs), svals_one. cbn [sval].
    destruct (svals fr vs (fst s)) as [bs u3].
    exists (B "{" ++ B "'" ++ bs), (u3, snd s). split; [exact E|]. split; [reflexivity|].
    assert (NB : forall b, ~ json_text ("{"%char :: "'"%char :: b)).
    { intros b H. apply brace_next in H. cbn in H. intuition discriminate. }
    split; split; try (intro; contradiction); intro H; exfalso; [apply (NB bs H)|].
    apply (NB (decode bs)). cbn [B list_ascii_of_string app] in H. rewrite !decode_plain in H by discriminate. exact H.
Qed.

End Json.

(** The claim itself, refuted by a single header with a number. *)
Theorem C57_refuted : exists (m : @hmap demo) n u' b,
  hmap_ok m /\ (forall k v, In (k, v) m -> exists z, v = AData (GInt z)) /\
  Headers forwards [HMap m] (st 0) = Done (n, u') /\
  fst (page listed n fr0 (st 0, 0)) = B " hx-headers=""" ++ b ++ B """" /\
  b = B "{'a': 1}" /\ ~ json_text (decode b).
Proof.
  exists [(B "a", AData (GInt 1%Z))]. eexists _, _, (B "{'a': 1}").
  split; [repeat constructor; intros []|]. split.
  { intros k v [H|[]]. injection H as <- <-. eauto. }
  split; [vm_compute; reflexivity|]. split; [vm_compute; reflexivity|]. split; [reflexivity|].
  intro H. apply brace_next in H. cbn in H. intuition discriminate.
Qed.
(** The grammar does accept the object a browser needs. *)
Example C57_json_example : json_text (B "{""a"": 1, ""b"" : [true, -0.5e+3]}").
Proof.
  assert (N : forall b, json_value b -> json_element b).
  { intros b H. replace b with ([] ++ b ++ []) by apply app_nil_r. apply element; auto; constructor. }
  assert (S : forall b, json_value b -> json_element (B " " ++ b)).
  { intros b H. replace b with (b ++ []) by apply app_nil_r. apply element; auto; repeat constructor. }
  assert (Q : forall c, In c (B "ab") -> json_string (B """" ++ [c] ++ B """")).
  { intros c H. apply (string_ [c]). cbn in H. destruct H as [<-|[<-|[]]]; apply chars_plain; try discriminate; try constructor;
      vm_compute; repeat constructor. }
  apply N.
  apply (value_object (B """a"": 1, ""b"" : [true, -0.5e+3]")).
  apply (members_more (B """a"": 1") (B " ""b"" : [true, -0.5e+3]")).
  - apply (member [] (B """a""") [] (B " 1")); try constructor.
    + apply (Q "a"%char). cbn; auto.
    + apply (S (B "1")). apply value_number.
      apply (number [] (B "1") [] []); [left; auto| |constructor|constructor].
      apply int_some; [cbn; auto|discriminate|constructor].
  - apply members_one. apply (member (B " ") (B """b""") (B " ") (B " [true, -0.5e+3]")).
    + repeat constructor.
    + apply (Q "b"%char). cbn; auto.
    + repeat constructor.
    + apply (S (B "[true, -0.5e+3]")). apply (value_array (B "true, -0.5e+3")).
      apply (elements_more (B "true") (B " -0.5e+3")).
      * apply N. apply value_word. cbn; auto.
      * apply elements_one. apply (S (B "-0.5e+3")). apply value_number.
        apply (number (B "-") (B "0") (B ".5") (B "e+3")); [cbn; auto|constructor| |].
        -- apply (frac_some (B "5")). split; [discriminate|]. apply Forall_cons; [cbn; auto 12|constructor].
        -- apply (exp_some "e"%char (B "+") (B "3")); [cbn; auto|cbn; auto|]. split; [discriminate|]. apply Forall_cons; [cbn; auto 12|constructor].
Qed.
