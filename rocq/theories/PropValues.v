(** C01 C02 C03 C04 C12 C46 C48 C49 C52: what values render as. *)
From Coq Require Import ZArith.
From Verif Require Import Bytes IO IOFacts Escape SpecEscape EscapeFacts Nodes Values Render Build
  SpecOut SpecRun RenderFacts PageFacts Demo.

Section Values.
Context {W : UserWorld}.
Variables (o : order) (fr : frame U).

Lemma escapes_inert ss : inert (concat (map html_escape_string ss)).
Proof.
  induction ss as [|s ss IH]; simpl; [apply inert_nil|]. apply inert_app; auto. apply escape_inert.
Qed.
Lemma escapes_flat ss : concat (map html_escape_string ss) = html_escape_string (concat ss).
Proof. induction ss as [|s ss IH]; simpl; auto. rewrite escape_app, IH. reflexivity. Qed.

Lemma svals_strings ss u :
  svals fr (map (fun s => Val (html_escape_string s) None []) ss) u =
  (concat (map html_escape_string ss), u).
Proof.
  rewrite <- (map_map html_escape_string (fun b => Val b None [])). apply svals_static.
Qed.

Lemma liftU_ret {Y} (f : U -> Y * U) y s : (forall u, f u = (y, u)) -> liftU f s = (y, s).
Proof. intro H. unfold liftU. rewrite H. destruct s. reflexivity. Qed.

Lemma page_text_strings ss u s :
  page o (fst (Text (map str ss) u)) fr s = (concat (map html_escape_string ss), s).
Proof.
  unfold Text. rewrite new_values_strings. cbn [fst]. rewrite page_text.
  apply liftU_ret. intro. apply svals_strings.
Qed.

(** ** C01 *)

(** Text of any strings. *)
Theorem C01_text ss u s : inert (fst (page o (fst (Text (map str ss) u)) fr s)).
Proof. rewrite page_text_strings. apply escapes_inert. Qed.

(** Attribute values: between the quotes there is nothing but inert bytes. *)
Theorem C01_attribute name ss u s :
  exists v, inert v /\
    fst (page o (fst (NewAttribute name (map str ss) u)) fr s) =
    B " " ++ name ++ B "=""" ++ v ++ B """".
Proof.
  exists (concat (map html_escape_string ss)). split; [apply escapes_inert|].
  unfold NewAttribute. rewrite new_values_strings. cbn [fst]. rewrite page_attr.
  unfold liftU. cbn [sattr]. rewrite svals_strings. reflexivity.
Qed.

Lemma djoin_inert d bs : inert d -> (forall b, In b bs -> inert b) -> inert (djoin d bs).
Proof.
  intro D. induction bs as [|b bs IH]; intro H; simpl; [apply inert_nil|].
  apply inert_app; [apply H; left; auto|]. apply inert_app; [|apply IH; intros; apply H; right; auto].
  destruct b; [apply inert_nil|]. destruct bs; [apply inert_nil|exact D].
Qed.

(** Delimited attributes, when the delimiter itself is inert. *)
Theorem C01_delimited name d ss u s :
  inert d ->
  exists v, inert v /\
    fst (page o (fst (NewDelimitedAttribute name d (map str ss) u)) fr s) =
    B " " ++ name ++ B "=""" ++ v ++ B """".
Proof.
  intro D. exists (djoin d (map html_escape_string ss)). split.
  - apply djoin_inert; auto. intros b Hb. apply in_map_iff in Hb as (x & <- & _). apply escape_inert.
  - unfold NewDelimitedAttribute. rewrite new_values_strings. cbn [fst]. rewrite page_attr.
    unfold liftU. cbn [sattr]. rewrite <- (map_map html_escape_string (fun b => Val b None [])), mapS_static.
    reflexivity.
Qed.

(** Comments. *)
Theorem C01_comment ss u s :
  exists v, inert v /\
    fst (page o (fst (Comment (map str ss) u)) fr s) = B "<!--" ++ v ++ B "-->".
Proof.
  exists (concat (map html_escape_string ss)). split; [apply escapes_inert|].
  unfold Comment. rewrite new_values_strings. cbn [fst]. rewrite page_comment.
  unfold liftU. rewrite svals_strings. reflexivity.
Qed.

(** A string found through a dynamic key, or in Cargo through the key ".". *)
Theorem C01_key k x m u s :
  k <> B "." -> f_data fr = Some m -> mget (fst s) m k = Some (GString x) ->
  inert (fst (page o (fst (Text [AKey k] u)) fr s)).
Proof.
  intros K D M. cbn [Text new_values new_value fst app]. rewrite page_text. unfold liftU.
  rewrite svals_one. cbn [sval]. unfold key_fn.
  destruct (beq_spec k (B ".")); [contradiction|]. unfold data_get, view. cbn [c_data].
  rewrite D, M. apply escape_inert.
Qed.
Theorem C01_cargo x u s :
  f_cargo fr = GString x ->
  inert (fst (page o (fst (Text [AKey (B ".")] u)) fr s)).
Proof.
  intros D. cbn [Text new_values new_value fst app]. rewrite page_text. unfold liftU.
  rewrite svals_one. cbn [sval]. unfold key_fn. rewrite beq_refl. unfold view. cbn [c_cargo].
  rewrite D. apply escape_inert.
Qed.

(** ImperativeContext.WriteString. *)
Theorem C01_write_string x e s :
  inert (fst (page o (Imperative (Some (IWriteString x (IRet e)))) fr s)).
Proof.
  rewrite page_hrun. unfold Imperative. cbn [render run_imper]. rewrite hrun_bind, h_ctx_write.
  cbn [hrun fst]. rewrite app_nil_r. apply escape_inert.
Qed.

Lemma static_writes (bs : list bytes) E err w :
  exists l, w_log (snd (run E (values_render fr (map (fun b => Val b None []) bs) err) w)) = w_log w ++ l /\
            map wc_data l = bs.
Proof.
  revert err w; induction bs as [|b bs IH]; intros err w; cbn [map values_render].
  - exists []. rewrite app_nil_r. auto.
  - rewrite run_bind. cbn [value_render run].
    destruct (e_wr E (w_log w) b) as [n e]. cbn [run].
    destruct (IH e (World (w_log w ++ [WCall b n e]) (w_u w) (w_tick w))) as (l & H1 & H2).
    rewrite H1. cbn [w_log]. exists (WCall b n e :: l). rewrite <- app_assoc. simpl. rewrite H2. auto.
Qed.

(** Whatever the writer does, it is only ever offered inert bytes for strings. *)
Theorem C01_any_writer E ss u s :
  inert (offered (calls E (fst (Text (map str ss) u)) fr s)).
Proof.
  unfold calls, Text. rewrite new_values_strings. cbn [fst render].
  rewrite <- (map_map html_escape_string (fun b => Val b None [])).
  rewrite run_bind.
  destruct (static_writes (map html_escape_string ss) E None (World [] (fst s) (snd s))) as (l & H1 & H2).
  destruct (run E _ _) as [a w]. cbn [snd] in H1. cbn [run snd]. rewrite H1. simpl.
  unfold offered. rewrite H2. apply escapes_inert.
Qed.

(** ** C02 *)

Theorem C02_decode ss u s :
  decode (fst (page o (fst (Text (map str ss) u)) fr s)) = strip_nul (concat ss).
Proof. rewrite page_text_strings. cbn [fst]. rewrite escapes_flat. apply decode_escape. Qed.

Theorem C02_injective x y u s :
  ~ In Ascii.zero x -> ~ In Ascii.zero y ->
  page o (fst (Text [str x] u)) fr s = page o (fst (Text [str y] u)) fr s -> x = y.
Proof.
  intros Hx Hy H.
  pose proof (C02_decode [x] u s) as Dx. pose proof (C02_decode [y] u s) as Dy.
  cbn [map] in *. rewrite H, Dy in Dx. simpl in Dx. rewrite !app_nil_r in Dx.
  rewrite !strip_nul_id in Dx by auto. auto.
Qed.

Theorem C02_concat x y u s :
  page o (fst (Text [str (x ++ y)] u)) fr s = page o (fst (Text [str x; str y] u)) fr s.
Proof.
  change [str (x ++ y)] with (map str [x ++ y]). change [str x; str y] with (map str [x; y]).
  rewrite !page_text_strings, !escapes_flat. simpl. rewrite !app_nil_r. reflexivity.
Qed.

(** ** C03 *)

(** What [Text(v)] shows, with the user state after building it. *)
Lemma text_data g u s :
  (forall x, g = x -> match x with GNil => False | _ => True end) ->
  page o (fst (Text [AData g] u)) fr s = (fst (value_to_bytes g u), s) /\
  snd (Text [AData g] u) = snd (value_to_bytes g u).
Proof.
  intro H. specialize (H g eq_refl). unfold Text. rewrite new_values_one.
  assert (N : new_value (AData g) u = let '(b, u') := value_to_bytes g u in ([Val b None []], u')).
  { destruct g; try reflexivity. destruct H. }
  rewrite N. destruct (value_to_bytes g u) as [b u']. cbn [fst snd]. split; auto.
  rewrite page_text. apply liftU_ret. intro. rewrite svals_one. reflexivity.
Qed.

Theorem C03_bool (b : bool) u s :
  page o (fst (Text [AData (GBool b)] u)) fr s = (if b then B "true" else B "false", s).
Proof. rewrite (proj1 (text_data (GBool b) u s (fun x E => ltac:(subst; exact I)))). destruct b; reflexivity. Qed.
Theorem C03_bytes b u s : page o (fst (Text [AData (GBytes b)] u)) fr s = (b, s).
Proof. apply (proj1 (text_data (GBytes b) u s (fun x E => ltac:(subst; exact I)))). Qed.
Theorem C03_int z u s :
  exists b, page o (fst (Text [AData (GInt z)] u)) fr s = (b, s) /\ read_int b = Some z /\
            (canonical_uint b \/ exists b', b = "-"%char :: b' /\ canonical_uint b' /\ (z < 0)%Z).
Proof.
  exists (format_int z). split; [|split].
  - apply (proj1 (text_data (GInt z) u s (fun x E => ltac:(subst; exact I)))).
  - apply read_format_int.
  - destruct z as [|p|p]; simpl.
    + left. apply (format_uint_canonical 0).
    + left. apply (format_uint_canonical (Npos p)).
    + right. exists (format_uint (Npos p)). split; [reflexivity|]. split; [|lia].
      apply (format_uint_canonical (Npos p)).
Qed.
Theorem C03_uint n u s :
  exists b, page o (fst (Text [AData (GUint n)] u)) fr s = (b, s) /\ read_uint b = Some n /\
            canonical_uint b.
Proof.
  exists (format_uint n). split; [|split].
  - apply (proj1 (text_data (GUint n) u s (fun x E => ltac:(subst; exact I)))).
  - apply read_format_uint.
  - apply format_uint_canonical.
Qed.
(** A Stringer is asked once, when the node is built, and its text is used
    verbatim. *)
Theorem C03_stringer f u s :
  page o (fst (Text [AData (GStringer f)] u)) fr s = (fst (f u), s) /\
  snd (Text [AData (GStringer f)] u) = snd (f u).
Proof. apply (text_data (GStringer f) u s (fun x E => ltac:(subst; exact I))). Qed.
(** [func() any] is called once, and stands for its (non-nil) result. *)
Theorem C03_func f u s :
  fst (f u) <> GNil ->
  page o (fst (Text [AData (GFunc f)] u)) fr s = page o (fst (Text [AData (fst (f u))] (snd (f u)))) fr s /\
  snd (Text [AData (GFunc f)] u) = snd (Text [AData (fst (f u))] (snd (f u))).
Proof.
  intro H.
  destruct (text_data (GFunc f) u s (fun x E => ltac:(subst; exact I))) as [A1 A2].
  destruct (text_data (fst (f u)) (snd (f u)) s) as [B1 B2].
  { intros x E. destruct x; try exact I. contradiction. }
  rewrite A1, A2, B1, B2. simpl. destruct (f u). auto.
Qed.
Theorem C03_func_nil f u s :
  fst (f u) = GNil -> page o (fst (Text [AData (GFunc f)] u)) fr s = ([], s).
Proof.
  intro H. rewrite (proj1 (text_data (GFunc f) u s (fun x E => ltac:(subst; exact I)))).
  simpl. destruct (f u). simpl in *. subst. reflexivity.
Qed.
(** nil, maps, slices and unsupported types show nothing. *)
Theorem C03_nothing g u s :
  (g = GNil \/ (exists m, g = GMap m) \/ (exists t xs, g = GSlice t xs) \/ (exists i, g = GOther i)) ->
  page o (fst (Text [AData g] u)) fr s = ([], s).
Proof.
  intros [->|[(m & ->)|[(t & xs & ->)|(i & ->)]]].
  - cbn [Text new_values new_value fst app]. rewrite page_text. apply liftU_ret. reflexivity.
  - apply (proj1 (text_data (GMap m) u s (fun x E => ltac:(subst; exact I)))).
  - apply (proj1 (text_data (GSlice t xs) u s (fun x E => ltac:(subst; exact I)))).
  - apply (proj1 (text_data (GOther i) u s (fun x E => ltac:(subst; exact I)))).
Qed.

(** ** C04 *)

(** Rendering [DynamicValueKey(k)] is the same as building and rendering the
    static text of [ctx.Data[k]] at that moment (state included). *)
Theorem C04_key k v m u s :
  k <> B "." -> f_data fr = Some m -> mget (fst s) m k = Some v ->
  page o (fst (Text [AKey k] u)) fr s =
  page o (fst (Text [AData v] (fst s))) fr (snd (Text [AData v] (fst s)), snd s).
Proof.
  intros K D M. cbn [Text new_values new_value fst app]. rewrite page_text. unfold liftU.
  rewrite svals_one. cbn [sval]. unfold key_fn.
  destruct (beq_spec k (B ".")); [contradiction|]. unfold data_get, view. cbn [c_data].
  rewrite D, M.
  assert (G : v = GNil \/ (forall x, v = x -> match x with GNil => False | _ => True end)).
  { destruct v; auto; right; intros x <-; exact I. }
  destruct G as [->|G].
  - cbn [Text new_values new_value fst snd app value_to_bytes]. rewrite page_text. reflexivity.
  - destruct (text_data v (fst s) (snd (Text [AData v] (fst s)), snd s) G) as [A1 A2].
    rewrite A1, A2. destruct (value_to_bytes v (fst s)). reflexivity.
Qed.

(** The same in an attribute value: the value is what the text would be. *)
Theorem C04_key_attribute name k u s :
  page o (fst (NewAttribute name [AKey k] u)) fr s =
  let '(b, s') := page o (fst (Text [AKey k] u)) fr s in
  (B " " ++ name ++ B "=""" ++ b ++ B """", s').
Proof.
  cbn [Text NewAttribute new_values new_value fst app]. rewrite page_text, page_attr.
  unfold liftU. cbn [sattr]. destruct (svals fr _ (fst s)). reflexivity.
Qed.

Theorem C04_cargo u s :
  page o (fst (Text [AKey (B ".")] u)) fr s =
  page o (fst (Text [AData (f_cargo fr)] (fst s))) fr (snd (Text [AData (f_cargo fr)] (fst s)), snd s).
Proof.
  cbn [Text new_values new_value fst app]. rewrite page_text. unfold liftU.
  rewrite svals_one. cbn [sval]. unfold key_fn. rewrite beq_refl. unfold view. cbn [c_cargo].
  assert (G : f_cargo fr = GNil \/ (forall x, f_cargo fr = x -> match x with GNil => False | _ => True end)).
  { destruct (f_cargo fr); auto; right; intros x <-; exact I. }
  destruct G as [->|G].
  - cbn [Text new_values new_value fst snd app value_to_bytes]. rewrite page_text. reflexivity.
  - destruct (text_data (f_cargo fr) (fst s) (snd (Text [AData (f_cargo fr)] (fst s)), snd s) G) as [A1 A2].
    rewrite A1, A2. destruct (value_to_bytes (f_cargo fr) (fst s)). reflexivity.
Qed.

Theorem C04_absent k u s :
  k <> B "." ->
  (f_data fr = None \/ exists m, f_data fr = Some m /\ mget (fst s) m k = None) ->
  page o (fst (Text [AKey k] u)) fr s = ([], s).
Proof.
  intros K H. cbn [Text new_values new_value fst app]. rewrite page_text. unfold liftU.
  rewrite svals_one. cbn [sval]. unfold key_fn.
  destruct (beq_spec k (B ".")); [contradiction|]. unfold data_get, view. cbn [c_data].
  destruct s as [u1 t]. destruct H as [->|(m & -> & M)]; [reflexivity|]. cbn [fst] in *. rewrite M. reflexivity.
Qed.

(** The lookup happens at its place in the rendering: after a dynamic function
    [f] that precedes it in the same text, in the state [f] left. *)
Theorem C04_late f k v m u s :
  k <> B "." -> f_data fr = Some m ->
  mget (snd (f (view fr None) (fst s))) m k = Some v ->
  page o (fst (Text [ADyn f; AKey k] u)) fr s =
  let '(b1, u1) := f (view fr None) (fst s) in
  let '(b2, u2) := value_to_bytes v u1 in (b1 ++ b2, (u2, snd s)).
Proof.
  intros K D M. cbn [Text new_values new_value fst app]. rewrite page_text. unfold liftU.
  change [Val [] (Some f) []; Val [] (Some (key_fn k)) []]
    with ([Val [] (Some f) []] ++ [Val [] (Some (key_fn k)) []]).
  rewrite svals_app, !svals_one. cbn [sval].
  destruct (f (view fr None) (fst s)) as [b1 u1]. cbn [snd] in M.
  rewrite svals_one. cbn [sval]. unfold key_fn.
  destruct (beq_spec k (B ".")); [contradiction|]. unfold data_get, view. cbn [c_data].
  rewrite D, M. destruct (value_to_bytes v u1). reflexivity.
Qed.

(** ** C12 *)

(** The specification: the non-empty values separated by the delimiter, and
    one more delimiter if the last value is empty but some other is not. *)
Fixpoint separated (d : bytes) (l : list bytes) : bytes :=
  match l with
  | [] => []
  | [x] => x
  | x :: l' => x ++ d ++ separated d l'
  end.
Definition delimited (d : bytes) (vs : list bytes) : bytes :=
  let ne := filter (fun v => negb (beq v [])) vs in
  separated d ne ++
  (if beq (last vs []) [] then match ne with [] => [] | _ => d end else []).

Lemma djoin_delimited d vs : djoin d vs = delimited d vs.
Proof.
  induction vs as [|v vs IH]; [reflexivity|]. cbn [djoin]. rewrite IH. unfold delimited.
  destruct v as [|c v].
  - simpl. destruct vs; reflexivity.
  - destruct vs as [|w vs].
    + simpl. rewrite !app_nil_r. reflexivity.
    + change (last ((c :: v) :: w :: vs) []) with (last (w :: vs) []).
      change (filter (fun v => negb (beq v [])) ((c :: v) :: w :: vs))
        with ((c :: v) :: filter (fun v => negb (beq v [])) (w :: vs)).
      destruct (filter (fun v => negb (beq v [])) (w :: vs)) as [|x ne] eqn:E.
      * assert (L : beq (last (w :: vs) []) [] = true).
        { assert (A : forall x, In x (w :: vs) -> x = []).
          { intros x Hx. destruct x; auto. exfalso.
            assert (H : In (a :: x) (filter (fun v => negb (beq v [])) (w :: vs))) by (apply filter_In; auto).
            rewrite E in H. destruct H. }
          rewrite (A (last (w :: vs) [])); auto.
          clear. generalize w; induction vs as [|y vs IH]; intro z; simpl; auto.
          destruct (IH y); auto. }
        rewrite L. simpl. rewrite !app_nil_r. reflexivity.
      * cbn [separated]. rewrite <- !app_assoc. reflexivity.
Qed.

(** For every list of values, whatever they render to: [bs] are the bytes of
    the values taken one after the other. *)
Theorem C12_delimited name d (args : list (arg U)) u s :
  forall vs, new_values args u = (vs, snd (NewDelimitedAttribute name d args u)) ->
  let '(bs, s') := fold_left (fun '(acc, s) v =>
                     let '(b, s1) := page o (NText [v]) fr s in (acc ++ [b], s1)) vs ([], s) in
  page o (fst (NewDelimitedAttribute name d args u)) fr s =
  (B " " ++ name ++ B "=""" ++ delimited d bs ++ B """", s').
Proof.
  intros vs H. unfold NewDelimitedAttribute. rewrite H. cbn [fst].
  assert (G : forall vs acc s,
    fold_left (fun '(acc, s) v =>
       let '(b, s1) := page o (NText [v]) fr s in (acc ++ [b], s1)) vs (acc, s) =
    let '(bs, u') := mapS (sval fr) vs (fst s) in (acc ++ bs, (u', snd s))).
  { clear. induction vs as [|v vs IH]; intros acc s; cbn [fold_left mapS].
    - rewrite app_nil_r. destruct s; reflexivity.
    - rewrite page_text. unfold liftU. rewrite svals_one. destruct (sval fr v (fst s)) as [b u1].
      rewrite IH. simpl. destruct (mapS (sval fr) vs u1). rewrite <- app_assoc. reflexivity. }
  rewrite G, page_attr. unfold liftU. cbn [sattr].
  destruct (mapS (sval fr) vs (fst s)) as [bs u']. rewrite djoin_delimited. reflexivity.
Qed.

(** ** C48 *)

Lemma inert_no c b : inert b -> markup_char c -> ~ In c b.
Proof. intros [H _] M I. exact (H c I M). Qed.

(** The only place where [-->] occurs in the output of a comment of strings is
    at its end. *)
Theorem C48_comment ss u s p q :
  fst (page o (fst (Comment (map str ss) u)) fr s) = p ++ B "-->" ++ q -> q = [].
Proof.
  destruct (C01_comment ss u s) as (v & Hv & ->). intro H.
  assert (N : ~ In ">"%char (B "<!--" ++ v ++ B "--")).
  { rewrite !in_app_iff. intros [F|[F|F]].
    - simpl in F. repeat (destruct F as [F|F]; [discriminate|]). destruct F.
    - apply (inert_no ">"%char v Hv); auto. unfold markup_char. simpl. auto.
    - simpl in F. repeat (destruct F as [F|F]; [discriminate|]). destruct F. }
  replace (B "<!--" ++ v ++ B "-->") with ((B "<!--" ++ v ++ B "--") ++ [">"%char]) in H
    by (rewrite <- !app_assoc; reflexivity).
  destruct q as [|c q _] using rev_ind; auto. exfalso.
  rewrite !app_assoc in H. apply app_inj_tail in H as [H _].
  apply N. rewrite app_assoc, H. rewrite !in_app_iff. left. right. simpl. auto.
Qed.

(** In an attribute of strings with a valid name the only quotation marks are
    the two delimiting ones. *)
Theorem C48_attribute name ss u s p q :
  valid_name name = true ->
  fst (page o (fst (NewAttribute name (map str ss) u)) fr s) = p ++ B """" ++ q ->
  p = B " " ++ name ++ B "=" \/ q = [].
Proof.
  intros V. destruct (C01_attribute name ss u s) as (v & Hv & ->). intro H.
  assert (Nn : ~ In "034"%char name).
  { unfold valid_name in V. destruct name as [|c n]; [discriminate|].
    apply andb_true_iff in V as [V1 V2]. intros [F|F].
    - subst. discriminate V1.
    - rewrite forallb_forall in V2. specialize (V2 _ F). discriminate V2. }
  assert (Nv : ~ In "034"%char v) by (apply inert_no; auto; unfold markup_char; simpl; auto).
  assert (Np : ~ In "034"%char (B " " ++ name ++ B "=")).
  { rewrite !in_app_iff. intros [F|[F|F]]; auto; simpl in F; destruct F as [F|[]]; discriminate. }
  replace (B " " ++ name ++ B "=""" ++ v ++ B """")
    with ((B " " ++ name ++ B "=") ++ "034"%char :: v ++ ["034"%char]) in H
    by (rewrite <- !app_assoc; reflexivity).
  change (B """" ++ q) with ("034"%char :: q) in H.
  assert (X : forall (a b c d : bytes) (x : ascii), ~ In x a -> a ++ x :: b = c ++ x :: d ->
             (c = a /\ d = b) \/ exists r, c = a ++ x :: r).
  { clear. induction a as [|y a IH]; intros b c d x N E.
    - destruct c as [|z c]; simpl in *; inversion E; subst; [left; auto|right; eauto].
    - destruct c as [|z c]; simpl in *; inversion E; subst.
      + exfalso. apply N. auto.
      + destruct (IH b c d x) as [[-> ->]|(r & ->)]; auto.
        right. exists r. reflexivity. }
  destruct (X _ _ _ _ _ Np H) as [[Hp _]|(r & Hp)]; [left; auto|right].
  subst p. rewrite <- (app_assoc (B " " ++ name ++ B "=")) in H.
  apply app_inv_head in H. cbn [app] in H. injection H as H.
  destruct (X _ _ _ _ _ Nv H) as [[_ Hq]|(r' & Hr)]; auto. subst r.
  rewrite <- app_assoc in H. simpl in H. apply app_inv_head in H. injection H as H.
  destruct r'; discriminate.
Qed.

(** ** C49 *)

Theorem C49_text xs ys u s :
  page o (fst (Text (xs ++ ys) u)) fr s =
  pages o [fst (Text xs u); fst (Text ys (snd (Text xs u)))] fr s.
Proof.
  unfold Text. rewrite new_values_app. destruct (new_values xs u) as [v1 u1]. cbn [fst snd].
  destruct (new_values ys u1) as [v2 u2]. cbn [fst pages]. rewrite !page_text. unfold liftU.
  rewrite svals_app. destruct (svals fr v1 (fst s)) as [b1 s1]. cbn [fst snd]. rewrite page_text.
  unfold liftU. cbn [fst snd]. destruct (svals fr v2 s1) as [b2 s2]. rewrite app_nil_r. reflexivity.
Qed.

(** Text, Fragment, attribute and comment show the same bytes for the same
    values. *)
Theorem C49_kinds name xs u s :
  let '(b, s') := page o (fst (Text xs u)) fr s in
  page o (fst (Fragment xs u)) fr s = (b, s') /\
  page o (fst (Comment xs u)) fr s = (B "<!--" ++ b ++ B "-->", s') /\
  page o (fst (PI name xs u)) fr s = (B "<!" ++ name ++ B " " ++ b ++ [">"%char; "010"%char], s') /\
  page o (fst (NewAttribute name xs u)) fr s = (B " " ++ name ++ B "=""" ++ b ++ B """", s').
Proof.
  unfold Text, Fragment, Comment, PI, NewAttribute. destruct (new_values xs u) as [vs u1]. cbn [fst].
  rewrite page_text, page_fragment, page_comment, page_pi, page_attr. unfold liftU. cbn [sattr].
  destruct (svals fr vs (fst s)) as [b u2]. auto.
Qed.

(** Grouping with NewConcatValue or NewValue changes nothing. *)
Theorem C49_concat xs u s :
  let '(v, u') := NewConcatValue xs u in
  page o (fst (Text [AVal v] u')) fr s = page o (fst (Text xs u)) fr s.
Proof.
  unfold NewConcatValue, Text. destruct (new_values xs u) as [vs u']. cbn [new_values new_value fst app].
  rewrite !page_text. unfold liftU. rewrite svals_one. destruct vs as [|v vs]; [reflexivity|].
  rewrite sval_group by discriminate. reflexivity.
Qed.
Theorem C49_value x u s :
  let '(v, u') := NewValue x u in
  page o (fst (Text [AVal v] u')) fr s = page o (fst (Text [x] u)) fr s.
Proof.
  unfold NewValue, Text. rewrite new_values_one. destruct (new_value x u) as [vs u'].
  destruct vs as [|v [|w vs]]; cbn [new_values new_value fst app]; rewrite !page_text; unfold liftU;
    rewrite !svals_one; auto.
  rewrite sval_group by discriminate. reflexivity.
Qed.

(** A value-carrying node used as a value contributes its values. *)
Theorem C49_node_values xs u s n :
  In n [fst (Text xs u); fst (Fragment xs u); fst (Comment xs u); fst (PI (B "x") xs u);
        fst (NewAttribute (B "x") xs u); fst (NewDelimitedAttribute (B "x") (B " ") xs u)] ->
  forall u', page o (fst (Text [ANode n] u')) fr s = page o (fst (Text xs u)) fr s.
Proof.
  unfold Text at 1, Fragment, Comment, PI, NewAttribute, NewDelimitedAttribute.
  unfold Text at 2. destruct (new_values xs u) as [vs u1] eqn:E. cbn [fst].
  intros H u'. repeat (destruct H as [<-|H]; [cbn [Text new_values new_value node_values attr_values fst app];
     rewrite app_nil_r; reflexivity|]). destruct H.
Qed.
(** Collections contribute the values of their members; elements, conditionals
    and the other nodes contribute none. *)
Theorem C49_collection_values ns u s :
  page o (fst (Text [ANode (NCollection ns)] u)) fr s =
  page o (fst (Text (map ANode ns) u)) fr s.
Proof.
  unfold Text. rewrite new_values_one. cbn [new_value node_values].
  assert (E : forall ns u, new_values (map ANode ns) u = (flat_map node_values ns, u)).
  { clear. induction ns as [|n ns IH]; intro u; simpl; auto. rewrite IH. reflexivity. }
  rewrite E. reflexivity.
Qed.
Theorem C49_other_nodes n u s :
  (match n with
   | NElement _ _ _ _ _ | NVoid _ _ _ _ | NConditional _ _ _ | NCollect _ | NImper _
   | NIter _ _ | NYield _ _ | NDocument _ _ | NAttr (ABool _) => True
   | _ => False
   end) ->
  page o (fst (Text [ANode n] u)) fr s = ([], s).
Proof.
  intro H. cbn [Text new_values new_value fst].
  assert (node_values n = []) as ->. { destruct n as [[]| | | | | | | | | | | | |]; simpl in *; tauto. }
  rewrite page_text. apply liftU_ret. reflexivity.
Qed.

(** ** C52 *)

Theorem C52_dynamic f u s :
  page o (fst (Text [ADyn f] u)) fr s =
  let '(b, u') := f (view fr None) (fst s) in (b, (u', snd s)).
Proof.
  cbn [Text new_values new_value fst app]. rewrite page_text. unfold liftU. rewrite svals_one. reflexivity.
Qed.
Theorem C52_raw b u s : page o (fst (Fragment [AData (GBytes b)] u)) fr s = (b, s).
Proof.
  pose proof (C49_kinds [] [AData (GBytes b)] u s) as H. rewrite C03_bytes in H. tauto.
Qed.
Theorem C52_stringer f u s :
  fst (page o (fst (Text [AData (GStringer f)] u)) fr s) = fst (f u).
Proof. rewrite (proj1 (C03_stringer f u s)). reflexivity. Qed.
Theorem C52_write_raw b e s :
  page o (Imperative (Some (IWriteRaw b (IRet e)))) fr s = (b, s).
Proof.
  rewrite page_hrun. unfold Imperative. cbn [render run_imper]. rewrite hrun_bind, h_ctx_write.
  cbn [hrun]. rewrite app_nil_r. destruct s; reflexivity.
Qed.

(** Any mixture of the three, in every kind of node.  [raw_built] is what building
    makes of them (String is called then), [raw_shown] what rendering shows. *)
Inductive raw := RBytes (b : bytes) | RStringer (f : U -> bytes * U) | RFunc (f : dynfn U).
Definition raw_arg (r : raw) : arg U :=
  match r with
  | RBytes b => AData (GBytes b)
  | RStringer f => AData (GStringer f)
  | RFunc f => ADyn f
  end.
Fixpoint raw_built (l : list raw) (u : U) : list (bytes + dynfn U) * U :=
  match l with
  | [] => ([], u)
  | r :: l' =>
      let '(p, u1) := match r with
                      | RBytes b => (inl b, u)
                      | RStringer f => let '(b, u1) := f u in (inl b, u1)
                      | RFunc f => (inr f, u)
                      end in
      let '(ps, u2) := raw_built l' u1 in (p :: ps, u2)
  end.
Definition raw_part (c : ctx U) (p : bytes + dynfn U) (u : U) : bytes * U :=
  match p with inl b => (b, u) | inr f => f c u end.
Fixpoint raw_shown (c : ctx U) (ps : list (bytes + dynfn U)) (u : U) : bytes * U :=
  match ps with
  | [] => ([], u)
  | p :: ps' => let '(b, u1) := raw_part c p u in let '(bs, u2) := raw_shown c ps' u1 in (b ++ bs, u2)
  end.

Definition raw_value (p : bytes + dynfn U) : value U :=
  match p with inl b => Val b None [] | inr f => Val [] (Some f) [] end.
Lemma new_values_raw l u :
  new_values (map raw_arg l) u = let '(ps, u') := raw_built l u in (map raw_value ps, u').
Proof.
  revert u; induction l as [|r l IH]; intro u; [reflexivity|]. cbn [map new_values raw_built].
  destruct r as [b|f|f]; cbn [raw_arg new_value value_to_bytes].
  - rewrite IH. destruct (raw_built l u). reflexivity.
  - destruct (f u) as [b u1]. rewrite IH. destruct (raw_built l u1). reflexivity.
  - rewrite IH. destruct (raw_built l u). reflexivity.
Qed.
Theorem C52_everywhere name l u s :
  let '(ps, u') := raw_built l u in
  let '(b, u1) := raw_shown (view fr None) ps (fst s) in
  (snd (Text (map raw_arg l) u) = u') /\
  (page o (fst (Text (map raw_arg l) u)) fr s = (b, (u1, snd s))) /\
  (page o (fst (Fragment (map raw_arg l) u)) fr s = (b, (u1, snd s))) /\
  (page o (fst (Comment (map raw_arg l) u)) fr s = (B "<!--" ++ b ++ B "-->", (u1, snd s))) /\
  (page o (fst (PI name (map raw_arg l) u)) fr s = (B "<!" ++ name ++ B " " ++ b ++ [">"%char; "010"%char], (u1, snd s))) /\
  (page o (fst (NewAttribute name (map raw_arg l) u)) fr s = (B " " ++ name ++ B "=""" ++ b ++ B """", (u1, snd s))).
Proof.
  destruct (raw_built l u) as [ps u'] eqn:E. destruct (raw_shown (view fr None) ps (fst s)) as [b u1] eqn:S.
  pose proof (C49_kinds name (map raw_arg l) u s) as K.
  assert (T : snd (Text (map raw_arg l) u) = u' /\ page o (fst (Text (map raw_arg l) u)) fr s = (b, (u1, snd s))).
  { unfold Text. rewrite new_values_raw, E. cbn [fst snd]. split; [reflexivity|].
    rewrite page_text. unfold liftU.
    assert (G : forall ps u, svals fr (map raw_value ps) u = raw_shown (view fr None) ps u).
    { clear. induction ps as [|p ps IH]; intro u; [reflexivity|]. cbn [map raw_shown].
      change (raw_value p :: map raw_value ps) with ([raw_value p] ++ map raw_value ps).
      rewrite svals_app, svals_one. destruct p as [b|f]; cbn [raw_value sval raw_part].
      - rewrite IH. reflexivity.
      - destruct (f (view fr None) u) as [b u1]. rewrite IH. reflexivity. }
    rewrite G, S. reflexivity. }
  destruct T as [T1 T2]. rewrite T2 in K. tauto.
Qed.

(** Whatever the writer does: one call for each of them, with just its bytes; a
    function sees in its context what the call before it answered. *)
Fixpoint raw_offers (ps : list (bytes + dynfn U)) (err : option error) (u : U) (l : list wcall) : Prop :=
  match ps, l with
  | [], [] => True
  | p :: ps', c :: l' =>
      wc_data c = fst (raw_part (view fr err) p u) /\ raw_offers ps' (wc_err c) (snd (raw_part (view fr err) p u)) l'
  | _, _ => False
  end.
Theorem C52_any_writer E l u s :
  raw_offers (fst (raw_built l u)) None (fst s) (calls E (fst (Text (map raw_arg l) u)) fr s).
Proof.
  unfold calls, Text. rewrite new_values_raw. destruct (raw_built l u) as [ps u']. cbn [fst render].
  assert (G : forall ps err w, exists l,
    w_log (snd (run E (values_render fr (map raw_value ps) err) w)) = w_log w ++ l /\ raw_offers ps err (w_u w) l).
  { clear. induction ps as [|p ps IH]; intros err w; cbn [map values_render].
    - exists []. rewrite app_nil_r. split; [reflexivity|exact I].
    - rewrite run_bind. destruct p as [b|f]; cbn [raw_value value_render run].
      + destruct (e_wr E (w_log w) b) as [n e]. cbn [run].
        destruct (IH e (World (w_log w ++ [WCall b n e]) (w_u w) (w_tick w))) as (l & H1 & H2).
        rewrite H1. cbn [w_log w_u] in *. exists (WCall b n e :: l). rewrite <- app_assoc. split; [reflexivity|].
        cbn [raw_offers raw_part wc_data wc_err fst snd]. auto.
      + destruct (f (view fr err) (w_u w)) as [b u1] eqn:F. cbn [run w_log w_u w_tick].
        destruct (e_wr E (w_log w) b) as [n e]. cbn [run].
        destruct (IH e (World (w_log w ++ [WCall b n e]) u1 (w_tick w))) as (l & H1 & H2).
        rewrite H1. cbn [w_log w_u] in *. exists (WCall b n e :: l). rewrite <- app_assoc. split; [reflexivity|].
        cbn [raw_offers raw_part wc_data wc_err fst snd]. rewrite F. cbn [fst snd]. auto. }
  destruct (G ps None (World [] (fst s) (snd s))) as (l' & H1 & H2).
  rewrite run_bind. destruct (run E _ _) as [a w]. cbn [snd] in H1. cbn [run snd w_u] in *. rewrite H1. exact H2.
Qed.

(** Found under a key, or as the Cargo. *)
Theorem C52_key k m v u s :
  k <> B "." -> f_data fr = Some m -> mget (fst s) m k = Some v ->
  (forall b, v = GBytes b -> page o (fst (Text [AKey k] u)) fr s = (b, s)) /\
  (forall f, v = GStringer f -> page o (fst (Text [AKey k] u)) fr s = (fst (f (fst s)), (snd (f (fst s)), snd s))).
Proof.
  intros K D M. rewrite (C04_key k v m u s K D M). split; [intros b ->|intros f ->].
  - rewrite C03_bytes. cbn. destruct s. reflexivity.
  - rewrite (proj1 (C03_stringer _ _ _)), (proj2 (C03_stringer f (fst s) s)). reflexivity.
Qed.
Theorem C52_cargo v u s :
  f_cargo fr = v ->
  (forall b, v = GBytes b -> page o (fst (Text [AKey (B ".")] u)) fr s = (b, s)) /\
  (forall f, v = GStringer f -> page o (fst (Text [AKey (B ".")] u)) fr s = (fst (f (fst s)), (snd (f (fst s)), snd s))).
Proof.
  intro C. rewrite C04_cargo, C. split; [intros b ->|intros f ->].
  - rewrite C03_bytes. cbn. destruct s. reflexivity.
  - rewrite (proj1 (C03_stringer _ _ _)), (proj2 (C03_stringer f (fst s) s)). reflexivity.
Qed.

End Values.

(** ** C46 *)

Lemma copy_step done rest :
  6 <= length rest -> copy_at (done ++ rest) (length done) nbsp = done ++ nbsp ++ skipn 6 rest.
Proof.
  intro H. unfold copy_at. rewrite firstn_app, Nat.sub_diag, firstn_all. simpl (firstn 0 _).
  rewrite app_nil_r. f_equal. f_equal.
  - apply firstn_all2. rewrite app_length. change (length nbsp) with 6. lia.
  - rewrite skipn_app, skipn_all2 by (change (length nbsp) with 6; lia).
    change (length nbsp) with 6. replace (length done + 6 - length done) with 6 by lia. reflexivity.
Qed.

Lemma nbsps_loop_spec n done rest :
  length rest = 6 * n ->
  nbsps_loop n (length done) (done ++ rest) = done ++ concat (repeat nbsp n).
Proof.
  revert done rest; induction n as [|n IH]; intros done rest H.
  - destruct rest; [simpl; reflexivity|discriminate].
  - cbn [nbsps_loop repeat concat]. rewrite copy_step by lia.
    rewrite app_assoc. replace (length done + length nbsp) with (length (done ++ nbsp)).
    + rewrite IH, app_assoc; auto. rewrite skipn_length. lia.
    + rewrite app_length. reflexivity.
Qed.

Theorem C46_nbsps n : Nbsps n = concat (repeat (B "&nbsp;") (Z.to_nat n)).
Proof.
  unfold Nbsps. destruct (Z.leb_spec n 0).
  - replace (Z.to_nat n) with 0 by lia. reflexivity.
  - apply (nbsps_loop_spec (Z.to_nat n) [] (repeat Ascii.zero (length nbsp * Z.to_nat n))).
    rewrite repeat_length. reflexivity.
Qed.

(** ** Examples *)

Example ex_text :
  page listed (fst (Text [str (B "a<b&'c""")] (st 5))) fr0 (st 5, 0) =
  (B "a&lt;b&amp;&apos;c&quot;", (st 5, 0)).
Proof. vm_compute. reflexivity. Qed.
Example ex_key :
  page listed (fst (NewAttribute (B "title") [AKey (B "name")] (st 5))) fr0 (st 5, 0) =
  (B " title=""a&lt;b""", (st 5, 0)).
Proof. vm_compute. reflexivity. Qed.
(** The data map is read when the key is rendered: the first function
    increments the counter, the key then shows the new value. *)
Example ex_late :
  page listed (fst (Text [ADyn (fun _ u => (B "n=", S u)); AKey (B "count")] (st 5))) fr1 (st 5, 0) =
  (B "n=6", (st 6, 0)).
Proof. vm_compute. reflexivity. Qed.
Example ex_delimited :
  page listed
    (fst (NewDelimitedAttribute (B "class") (B " ") [str (B "a"); str []; str (B "b"); str []] (st 0))) frn (st 0, 0) =
  (B " class=""a b """, (st 0, 0)).
Proof. vm_compute. reflexivity. Qed.
(** Raw bytes, a String method that counts its calls and a function. *)
Definition raw_ex : list (@raw demo) :=
  [RBytes (B "<a&"); RStringer (fun u => (B "<", S u)); RFunc (fun _ u => (if Nat.eqb u 5 then B "'5'" else B "?", S u))].
Example C52_example :
  raw_built raw_ex (st 2) = ([inl (B "<a&"); inl (B "<"); inr (fun _ u => (if Nat.eqb u 5 then B "'5'" else B "?", S u))], st 3) /\
  page listed (fst (Comment (map raw_arg raw_ex) (st 2))) fr0 (st 5, 0) = (B "<!--<a&<'5'-->", (st 6, 0)) /\
  map wc_data (calls (Env (dies_after 1 7) listed) (fst (Text (map raw_arg raw_ex) (st 2))) fr0 (st 5, 0)) =
    [B "<a&"; B "<"; B "'5'"].
Proof. repeat split; vm_compute; reflexivity. Qed.
Example ex_int : page listed (fst (Text [AData (GInt (-120))] (st 0))) frn (st 0, 0) = (B "-120", (st 0, 0)).
Proof. vm_compute. reflexivity. Qed.
Example ex_nbsps : Nbsps 3 = B "&nbsp;&nbsp;&nbsp;".
Proof. vm_compute. reflexivity. Qed.
Example ex_delim_inert : inert (B "; ").
Proof.
  apply plain_inert. repeat constructor; try discriminate;
    unfold markup_char; simpl; intuition discriminate.
Qed.
