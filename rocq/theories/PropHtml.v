(** C06: the output, read by an HTML tokenizer, is the template. *)
From Coq Require Import Permutation ZArith Decimal DecimalString.
From Verif Require Import Bytes IO IOFacts Escape SpecEscape EscapeFacts SpecHtml HtmlFacts Nodes NodeInd
  Values Render Slices Build Api SpecOut SpecRun SpecElem RenderFacts AttrFacts ApiFacts PageFacts
  CondFacts TagFacts PropValues Demo PropElements PropGroups SpecTemplate.

(** ** Values *)

Section Scalars.
Context {W : UserWorld}.
Variable fr : frame U.

Definition vbytes (v : scalar) : bytes :=
  match v with
  | SString s => html_escape_string s
  | SInt z => format_int z
  | SUint n => format_uint n
  | SBool true => B "true"
  | SBool false => B "false"
  end.

Lemma scalar_values vs u :
  new_values (scalar_args vs) u = (map (fun v => Val (vbytes v) None []) vs, u).
Proof.
  induction vs as [|v vs IH]; [reflexivity|]. cbn [scalar_args map new_values].
  change (map scalar_arg vs) with (scalar_args vs).
  destruct v as [s|z|n|[]]; cbn; rewrite IH; reflexivity.
Qed.

Lemma uint_string d : uint_bytes d = B (NilEmpty.string_of_uint d).
Proof. induction d; cbn; f_equal; auto. Qed.
Lemma int_string z : format_int z = B (NilEmpty.string_of_int (Z.to_int z)).
Proof. destruct z; cbn; unfold format_uint; rewrite ?uint_string; reflexivity. Qed.

Lemma digits_plain n : Forall plain_char (format_uint n).
Proof. eapply Forall_impl; [|apply format_uint_digits]. intros c H. apply digit_not_markup. auto. Qed.
Lemma minus_plain : plain_char "-"%char.
Proof.
  split; [|discriminate]. unfold markup_char. intro H. simpl in H.
  repeat (destruct H as [H|H]; [discriminate|]). exact H.
Qed.
Lemma int_plain z : Forall plain_char (format_int z).
Proof. destruct z; unfold format_int; try apply digits_plain. constructor; [apply minus_plain|apply digits_plain]. Qed.
Lemma bool_plain (b : bool) : Forall plain_char (if b then B "true" else B "false").
Proof.
  apply Forall_forall. intros c Hc.
  assert (F : forall c, is_letter c = true -> plain_char c).
  { clear. intros c H. split; [|intros ->; discriminate]. intro M. unfold markup_char in M. simpl in M.
    repeat (destruct M as [<-|M]; [discriminate|]). exact M. }
  apply F. assert (A : forallb is_letter (if b then B "true" else B "false") = true) by (destruct b; reflexivity).
  rewrite forallb_forall in A. auto.
Qed.

Lemma encode_plain b : Forall plain_char b -> flat_map encode b = b.
Proof.
  induction 1 as [|c b [M N] F IH]; [reflexivity|]. cbn [flat_map]. rewrite IH.
  assert (encode c = [c]) as ->; [|reflexivity]. unfold encode.
  assert (E : forall d, In d ["034"%char; "039"%char; "&"%char; "<"%char; ">"%char] -> Ascii.eqb d c = false).
  { intros d Hd. apply Ascii.eqb_neq. intros <-. simpl in Hd. unfold markup_char in M. simpl in M.
    repeat (destruct Hd as [<-|Hd]; [first [congruence|apply M; auto 8]|]). destruct Hd. }
  cbn [entities find snd]. rewrite !E by (simpl; auto 8). reflexivity.
Qed.

Lemma scalar_plain v : match v with SString _ => True | _ => Forall plain_char (vbytes v) /\ text_of v = vbytes v end.
Proof.
  destruct v as [s|z|n|b]; [exact I| | |]; cbn [text_of vbytes].
  - rewrite <- int_string. split; auto using int_plain.
  - unfold format_uint. rewrite <- uint_string. split; auto. apply digits_plain.
  - destruct b; (split; [|reflexivity]); [apply (bool_plain true)|apply (bool_plain false)].
Qed.

Lemma esc1_encode c : esc1 c = if Ascii.eqb c Ascii.zero then [] else encode c.
Proof. destruct c as [[] [] [] [] [] [] [] []]; vm_compute; reflexivity. Qed.

Lemma scalar_facts v :
  inert (vbytes v) /\ decode (vbytes v) = text_of v /\ vbytes v = source_of v.
Proof.
  destruct v as [s|z|n|b].
  - cbn [vbytes text_of]. split; [apply escape_inert|]. split; [apply decode_escape|].
    unfold source_of. cbn [text_of]. rewrite escape_flat. unfold strip_nul.
    induction s as [|c s IH]; [reflexivity|]. cbn [flat_map filter]. rewrite esc1_encode, IH.
    destruct (Ascii.eqb c Ascii.zero); reflexivity.
  - destruct (scalar_plain (SInt z)) as [P E]. unfold source_of. rewrite E, encode_plain by auto.
    split; [apply plain_inert; auto|]. split; auto. apply plain_decode. auto.
  - destruct (scalar_plain (SUint n)) as [P E]. unfold source_of. rewrite E, encode_plain by auto.
    split; [apply plain_inert; auto|]. split; auto. apply plain_decode. auto.
  - destruct (scalar_plain (SBool b)) as [P E]. unfold source_of. rewrite E, encode_plain by auto.
    split; [apply plain_inert; auto|]. split; auto. apply plain_decode. auto.
Qed.

Lemma values_facts vs :
  inert (concat (map vbytes vs)) /\ decode (concat (map vbytes vs)) = texts vs /\
  concat (map vbytes vs) = sources vs.
Proof.
  assert (I : forall b, In b (map vbytes vs) -> inert b).
  { intros b Hb. apply in_map_iff in Hb as (v & <- & _). apply scalar_facts. }
  destruct (feed_inerts _ I) as [D J]. split; auto. split.
  - rewrite D, map_map. unfold texts. f_equal. apply map_ext. intro v. apply scalar_facts.
  - unfold sources. f_equal. apply map_ext. intro v. apply scalar_facts.
Qed.

Lemma delim_facts d vs : Forall plain_char d ->
  inert (djoin d (map vbytes vs)) /\
  decode (djoin d (map vbytes vs)) = delimited_text d (map text_of vs).
Proof.
  intro P. pose proof (plain_inert d P) as Id. pose proof (plain_decode d P) as Dd.
  assert (Inn : forall l, inert (djoin d (map vbytes l))).
  { intro l. apply djoin_inert; auto. intros b Hb. apply in_map_iff in Hb as (v & <- & _). apply scalar_facts. }
  split; auto. induction vs as [|v vs IH]; [reflexivity|]. cbn [map djoin delimited_text].
  destruct (scalar_facts v) as (Iv & Dv & _).
  pose proof (decode_nonempty (vbytes v) Iv) as Ne.
  rewrite <- IH. rewrite Dv in Ne.
  assert (E : forall m, inert m -> decode (vbytes v ++ m ++ djoin d (map vbytes vs)) =
              text_of v ++ decode m ++ decode (djoin d (map vbytes vs))).
  { intros m Im. rewrite !decode_app, Dv; auto. apply inert_app; auto. }
  destruct (vbytes v) as [|c b] eqn:Ev.
  - rewrite (E []) by apply inert_nil. assert (text_of v = []) as -> by (rewrite <- Dv; reflexivity). reflexivity.
  - assert (beq (text_of v) [] = false) as ->.
    { destruct (beq_spec (text_of v) []); auto. exfalso. apply Ne; [discriminate|auto]. }
    destruct vs as [|w vs]; cbn [map] in *.
    + apply (E []). apply inert_nil.
    + rewrite (E d) by auto. rewrite Dd. reflexivity.
Qed.

End Scalars.

(** ** Tags *)

Section Html.
Context {W : UserWorld}.
Variables (o : order) (fr : frame U).
Hypothesis O : ord_ok o.
Notation names := (map (@attr_name U)).

Lemma names_of_nodup (ds : list (attr U)) : NoDup (names ds) -> names_of ds = names ds.
Proof.
  intro N. unfold names_of. rewrite nodup_fixed_point; [apply rev_involutive|]. apply NoDup_rev. auto.
Qed.

Lemma declared_one (ds : list (attr U)) a : NoDup (names ds) -> In a ds -> declared (attr_name a) ds = [a].
Proof.
  intros N H. apply in_split in H as (l1 & l2 & ->). unfold declared.
  rewrite map_app in N. cbn [map] in N. apply NoDup_remove_2 in N.
  rewrite filter_app. cbn [filter]. rewrite beq_refl.
  assert (Z : forall l : list (attr U), (forall b, In b l -> In (attr_name b) (names l1 ++ names l2)) ->
              filter (fun b => beq (attr_name b) (attr_name a)) l = []).
  { induction l as [|b l IH]; intro L; [reflexivity|]. cbn [filter].
    destruct (beq_spec (attr_name b) (attr_name a)) as [E|_].
    - exfalso. apply N. rewrite <- E. apply L. left. auto.
    - apply IH. intros; apply L; right; auto. }
  rewrite !Z; auto; intros b Hb; apply in_app_iff; [right|left]; apply in_map; auto.
Qed.

Lemma tag_spec_nodup (ds : list (attr U)) : NoDup (names ds) -> tag_spec ds [] = ds.
Proof.
  intro N. unfold tag_spec. rewrite app_nil_r, names_of_nodup by auto.
  assert (G : forall l, (forall a, In a l -> In a ds) ->
    flat_map (fun n => oapp (resolve (effective (declared n ds)) (declared n []))) (names l) = l).
  { induction l as [|a l IH]; intro H; [reflexivity|]. cbn [map flat_map].
    rewrite (declared_one ds a) by (auto; apply H; left; auto).
    rewrite IH by (intros; apply H; right; auto). destruct a; cbn; rewrite ?app_nil_r; reflexivity. }
  apply G. auto.
Qed.

(** An element without conditional attributes and without repeated names. *)
Lemma page_plain_element name ns s :
  all tables_ok ns -> all quiet ns -> flat_map (cond_decls []) ns = [] ->
  NoDup (names (flat_map static_decls ns)) ->
  page o (mk_element name ns) fr s =
    (let '(A, s1) := pages o (map NAttr (flat_map static_decls ns)) fr s in
     let '(C, s2) := pages o (non_attrs ns) fr s1 in
     (wrap name A C, s2)) /\
  page o (mk_void name ns) fr s =
    (let '(A, s1) := pages o (map NAttr (flat_map static_decls ns)) fr s in
     (B "<" ++ name ++ A ++ B ">", s1)).
Proof.
  intros T Q Z N.
  destruct (page_element o fr O name ns s T Q) as (conds & active & u1 & l & t & H1 & _ & H3 & _ & H5 & H6 & H7).
  rewrite Z in H1. destruct conds; [|discriminate]. cbn in H3. injection H3 as <- <-.
  destruct (H5 eq_refl) as [-> ->]. rewrite tag_spec_nodup in * by auto. destruct s. auto.
Qed.

(** The attributes of a tag. *)
Definition mk_attr (a : tattr) : attr U :=
  match a with
  | XAttr n vs => APlain n (map (fun v => Val (vbytes v) None []) vs)
  | XBool n => ABool n
  | XDelim n d vs => ADelim n d (map (fun v => Val (vbytes v) None []) vs)
  end.
Lemma build_attr_eq u a : build_attr u a = NAttr (mk_attr a).
Proof.
  destruct a; cbn [build_attr mk_attr]; unfold NewAttribute, NewDelimitedAttribute;
    rewrite ?scalar_values; reflexivity.
Qed.
Lemma mk_attr_name a : attr_name (mk_attr a) = x_name a.
Proof. destruct a; reflexivity. Qed.

Lemma vals_static vs : map (fun v => @Val U (vbytes v) None []) vs = map (fun b => Val b None []) (map vbytes vs).
Proof. rewrite map_map. reflexivity. Qed.

Lemma feed_attr a t st s : attr_wf a -> pending t st ->
  exists b st', page o (NAttr (mk_attr a)) fr s = (b, s) /\ feed st b = ([], st') /\
    pending (add_attr t (fst (attr_seen a)) (snd (attr_seen a))) st'.
Proof.
  intros [V D] P. rewrite page_attr. unfold liftU. destruct a as [n vs|n|n d vs]; cbn [mk_attr sattr x_name attr_seen fst snd] in *.
  - rewrite vals_static, svals_static. destruct (values_facts vs) as (I & E & _).
    destruct (pending_value t st n _ P V I) as (st' & F & G). rewrite E in G.
    exists (B " " ++ n ++ B "=""" ++ concat (map vbytes vs) ++ B """"), st'. destruct s. auto.
  - destruct (pending_bool t st n P V) as (st' & F & G). exists (B " " ++ n), st'. destruct s. auto.
  - rewrite vals_static, mapS_static. destruct (delim_facts d vs D) as (I & E).
    destruct (pending_value t st n _ P V I) as (st' & F & G). rewrite E in G.
    exists (B " " ++ n ++ B "=""" ++ djoin d (map vbytes vs) ++ B """"), st'. destruct s. auto.
Qed.

Lemma attr_seen_name a : fst (attr_seen a) = map lower (x_name a).
Proof. destruct a; reflexivity. Qed.

Lemma feed_attrs ats t st s : Forall attr_wf ats -> pending t st ->
  NoDup (map fst (t_attrs t) ++ map (fun a => map lower (x_name a)) ats) ->
  exists b st', pages o (map NAttr (map mk_attr ats)) fr s = (b, s) /\ feed st b = ([], st') /\
    pending (Tag (t_end t) (t_name t) (t_attrs t ++ map attr_seen ats)) st'.
Proof.
  intros F. revert t st; induction F as [|a ats Wa F IH]; intros t st P N.
  - exists [], st. cbn [map pages feed]. rewrite app_nil_r. destruct t. auto.
  - destruct (feed_attr a t st s Wa P) as (b1 & st1 & E1 & F1 & P1).
    cbn [map] in N. pose proof (NoDup_remove_2 _ _ _ N) as N2.
    assert (A : add_attr t (fst (attr_seen a)) (snd (attr_seen a)) =
                Tag (t_end t) (t_name t) (t_attrs t ++ [attr_seen a])).
    { unfold add_attr. rewrite attr_seen_name.
      destruct (bmem (map lower (x_name a)) (map fst (t_attrs t))) eqn:M.
      - exfalso. apply N2. apply in_app_iff. left. apply bmem_In. auto.
      - rewrite <- attr_seen_name. destruct (attr_seen a). reflexivity. }
    rewrite A in P1. destruct (IH _ _ P1) as (b2 & st2 & E2 & F2 & P2).
    { cbn [t_attrs]. rewrite map_app, <- app_assoc. cbn [map app]. rewrite attr_seen_name. exact N. }
    exists (b1 ++ b2), st2. cbn [map pages]. rewrite E1, E2. split; auto. split.
    + apply (feed_seq st b1 b2 [] st1 [] st2); auto.
    + cbn [t_end t_name t_attrs] in P2. rewrite <- app_assoc in P2. exact P2.
Qed.

(** ** Templates *)

Lemma tm_ind' (P : tm -> Prop) :
  (forall n ats ts, Forall P ts -> P (XElem n ats ts)) ->
  (forall n ats, P (XVoid n ats)) -> (forall vs, P (XText vs)) -> (forall v, P (XValue v)) ->
  (forall vs, P (XComment vs)) -> (forall n vs, P (XPI n vs)) -> (forall ts, Forall P ts -> P (XGroup ts)) ->
  forall t, P t.
Proof.
  intros H1 H2 H3 H4 H5 H6 H7. fix IH 1.
  intros [n ats ts|n ats|vs|v|vs|n vs|ts]; [apply H1|apply H2|apply H3|apply H4|apply H5|apply H6|apply H7].
  - induction ts as [|t ts IHts]; constructor; [apply IH|exact IHts].
  - induction ts as [|t ts IHts]; constructor; [apply IH|exact IHts].
Qed.

Lemma somes_some {A} (l : list A) : somes (map Some l) = l.
Proof. induction l as [|x l IH]; [reflexivity|]. cbn. f_equal. exact IH. Qed.
Lemma collection_some (ns : list (node U)) : Collection (map Some ns) = NCollection ns.
Proof. unfold Collection. rewrite somes_some. reflexivity. Qed.
Lemma build_shape u t :
  static_decls (build u t) = [] /\ (forall c, cond_decls c (build u t) = []) /\ is_attr (build u t) = false.
Proof.
  induction t as [n ats ts _|n ats|vs|v|vs|n vs|ts F] using tm_ind'; cbn [build];
    unfold NewElement, NewVoidElement, Text, Comment, PI.
  - destruct (contents_to_nodes _ u) as [ns u']. cbn [fst]. unfold mk_element.
    destruct (attributes_and_contents ns) as [[a c] cs]. destruct (add_attributes a). auto.
  - destruct (contents_to_nodes _ u) as [ns u']. cbn [fst]. unfold mk_void.
    destruct (attributes_and_contents ns) as [[a c] cs]. destruct (add_attributes a). auto.
  - destruct (new_values _ u). auto.
  - destruct (new_values _ u). auto.
  - destruct (new_values _ u). auto.
  - destruct (new_values _ u). auto.
  - rewrite collection_some. cbn [static_decls cond_decls is_attr]. rewrite flat_map_concat_map.
    split; [|split; [intro c|reflexivity]].
    + induction F as [|t ts (S & _) F IH]; [reflexivity|]. cbn [map concat]. rewrite S. exact IH.
    + rewrite flat_map_concat_map. induction F as [|t ts (_ & C & _) F IH]; [reflexivity|]. cbn [map concat]. rewrite C. exact IH.
Qed.

Lemma build_args u ats ts :
  contents_to_nodes (map (fun a => ANode (build_attr u a)) ats ++ map (fun t => as_arg t (build u t)) ts) u =
  (map NAttr (map mk_attr ats) ++ map (build u) ts, u).
Proof.
  induction ats as [|a ats IH].
  - cbn [map app]. induction ts as [|t ts IH]; [reflexivity|]. cbn [map contents_to_nodes].
    destruct t as [n ats' ts'|n ats'|vs|v|vs|n vs|ts']; cbn [as_arg content_to_node]; rewrite ?IH; auto.
    assert (content_to_node (scalar_arg v) u = (build u (XValue v), u)) as ->.
    { cbn [build]. change [scalar_arg v] with (scalar_args [v]).
      destruct v as [s|z|n|b]; cbn; auto; try (destruct b); reflexivity. }
    rewrite IH. reflexivity.
  - cbn [map app contents_to_nodes content_to_node]. rewrite IH, build_attr_eq. reflexivity.
Qed.

Lemma build_usable u t : usable (build u t).
Proof.
  induction t as [n ats ts F|n ats|vs|v|vs|n vs|ts F] using tm_ind'; cbn [build].
  - split.
    + apply api_element. intros x Hx. apply in_app_iff in Hx as [Hx|Hx]; apply in_map_iff in Hx as (y & E & Hy).
      * injection E as <-. destruct y; constructor.
      * rewrite Forall_forall in F. specialize (F y Hy). destruct y; cbn [as_arg] in E; try (injection E as <-; apply F).
        destruct v as [?|?|?|?]; discriminate E.
    + unfold NewElement. rewrite build_args. cbn [fst]. apply quiet_element. apply all_In. intros x Hx.
      apply in_app_iff in Hx as [Hx|Hx]; apply in_map_iff in Hx as (y & <- & Hy); [exact I|].
      rewrite Forall_forall in F. apply F. auto.
  - split.
    + apply api_void. intros x Hx. apply in_map_iff in Hx as (y & E & Hy). injection E as <-. destruct y; constructor.
    + unfold NewVoidElement. destruct (contents_to_nodes _ u). apply quiet_void.
  - split; [constructor|]. unfold Text. destruct (new_values _ u). exact I.
  - split; [constructor|]. unfold Text. destruct (new_values _ u). exact I.
  - split; [constructor|]. unfold Comment. destruct (new_values _ u). exact I.
  - split; [constructor|]. unfold PI. destruct (new_values _ u). exact I.
  - assert (H : forall n, In n (map (build u) ts) -> usable n).
    { intros n Hn. apply in_map_iff in Hn as (t & <- & Ht). rewrite Forall_forall in F. auto. }
    split.
    + constructor. intros n Hn. apply in_map_iff in Hn as (m & E & Hm). injection E as <-. apply H. auto.
    + rewrite collection_some. cbn [quiet]. apply all_In. intros n Hn. apply H. auto.
Qed.

(** Text, by its bytes. *)
Definition text_values (t : tm) : list scalar :=
  match t with XText vs => vs | XValue v => [v] | _ => [] end.
Lemma page_text_tm u t s : is_text t = true ->
  page o (build u t) fr s = (concat (map vbytes (text_values t)), s).
Proof.
  intro H. destruct t; try discriminate H; cbn [build text_values]; unfold Text.
  - rewrite scalar_values. cbn [fst]. rewrite page_text, vals_static. apply liftU_ret. intro. apply svals_static.
  - change [scalar_arg v] with (scalar_args [v]). rewrite scalar_values. cbn [fst].
    rewrite page_text, vals_static. apply liftU_ret. intro. apply svals_static.
Qed.
Lemma tokens_text t : is_text t = true ->
  tokens t = map TChar (texts (text_values t)) /\ raw_tokens t = map TChar (sources (text_values t)).
Proof.
  intro H. destruct t; try discriminate H; cbn [tokens raw_tokens text_values]; auto.
  unfold texts, sources. cbn [map concat]. rewrite !app_nil_r. auto.
Qed.

Lemma pages_texts u ts s : Forall (fun t => is_text t = true) ts ->
  exists b, pages o (map (build u) ts) fr s = (b, s) /\ inert b /\
    map TChar (decode b) = flat_map tokens ts /\ map TChar b = flat_map raw_tokens ts.
Proof.
  induction 1 as [|t ts H F (b & E & I & D & R)].
  - exists []. split; [reflexivity|]. split; [apply inert_nil|]. auto.
  - destruct (values_facts (text_values t)) as (It & Dt & St). destruct (tokens_text t H) as [T1 T2].
    exists (concat (map vbytes (text_values t)) ++ b). cbn [map pages]. rewrite page_text_tm, E by auto.
    split; auto. split; [apply inert_app; auto|]. cbn [flat_map].
    rewrite decode_app, !map_app, D, R, T1, T2, Dt, St by auto. auto.
Qed.

Lemma special_state n : ~ In n (rcdata_names ++ rawtext_names) -> n <> B "plaintext" -> content_state n = Data.
Proof.
  intros H N. unfold content_state. rewrite in_app_iff, <- !bmem_In in H.
  destruct (bmem n rcdata_names); [tauto|]. destruct (bmem n rawtext_names); [tauto|].
  destruct (beq_spec n (B "plaintext")); [contradiction|reflexivity].
Qed.

Lemma special_letters n : In (map lower n) (rcdata_names ++ rawtext_names) -> forallb is_letter n = true.
Proof.
  intro H. assert (A : forallb is_letter (map lower n) = true).
  { assert (G : forallb (forallb is_letter) (rcdata_names ++ rawtext_names) = true) by reflexivity.
    rewrite forallb_forall in G. apply G. auto. }
  rewrite forallb_forall in *. intros c Hc. rewrite <- lower_letter. apply A. apply in_map. auto.
Qed.

Lemma attrs_nodup ats : NoDup (map (fun a => map lower (x_name a)) ats) -> NoDup (names (map mk_attr ats)).
Proof.
  intro N. rewrite map_map. rewrite (map_ext _ x_name) by apply mk_attr_name.
  apply (NoDup_map_inv (map lower)). rewrite map_map. exact N.
Qed.

Lemma open_tag n ats s : valid_name n = true -> attrs_wf ats ->
  exists b, pages o (map NAttr (map mk_attr ats)) fr s = (b, s) /\
    feed Data (B "<" ++ n ++ b ++ B ">") =
    ([TStart (map lower n) (map attr_seen ats) false], content_state (map lower n)).
Proof.
  intros V [F N].
  destruct (feed_attrs ats (Tag false (map lower n) []) _ s F (pd_name _)) as (b & st & E & Fd & P).
  { exact N. }
  exists b. split; auto. rewrite app_assoc.
  apply (feed_seq Data (B "<" ++ n) _ [] (TagName (Tag false (map lower n) [])) _ _); [apply feed_open_name; auto|].
  apply (feed_seq _ b _ [] st [TStart (map lower n) (map attr_seen ats) false] _); auto.
  apply (pending_close _ _ P).
Qed.

Lemma build_void_args u ats :
  contents_to_nodes (map (fun a => ANode (build_attr u a)) ats) u = (map NAttr (map mk_attr ats), u).
Proof.
  pose proof (build_args u ats []) as H. cbn [map] in H. rewrite !app_nil_r in H. exact H.
Qed.

Lemma static_attrs (l : list (attr U)) : flat_map static_decls (map NAttr l) = l.
Proof. induction l as [|a l IH]; [reflexivity|]. cbn [map flat_map static_decls app]. rewrite IH. reflexivity. Qed.
Lemma no_conds_attrs (l : list (attr U)) : flat_map (cond_decls []) (map NAttr l) = [].
Proof. induction l as [|a l IH]; [reflexivity|]. cbn [map flat_map cond_decls app]. exact IH. Qed.
Lemma non_attrs_attrs (l : list (attr U)) ns : non_attrs (map NAttr l ++ ns) = non_attrs ns.
Proof. induction l as [|a l IH]; [reflexivity|]. exact IH. Qed.

Lemma build_decls u ts :
  flat_map static_decls (map (build u) ts) = [] /\ flat_map (cond_decls []) (map (build u) ts) = [] /\
  non_attrs (map (build u) ts) = map (build u) ts.
Proof.
  induction ts as [|t ts (H1 & H2 & H3)]; [auto|]. destruct (build_shape u t) as (S1 & S2 & S3).
  cbn [map flat_map]. rewrite S1, S2, H1, H2. split; auto. split; auto.
  unfold non_attrs in *. cbn [filter]. rewrite S3. cbn [negb]. rewrite H3. reflexivity.
Qed.

Lemma wf_kids void ts : fold_right (fun t P => wf void t /\ P) True ts <-> Forall (wf void) ts.
Proof.
  induction ts as [|t ts IH]; cbn; [split; auto|]. rewrite IH. split.
  - intros [H1 H2]. constructor; auto.
  - intro H. inversion H. auto.
Qed.

Lemma feed_bogus d b : (forall c, In c b -> is c ">" = false) ->
  feed (Bogus d) (b ++ [">"%char; "010"%char]) = ([declaration (d ++ b); TChar "010"], Data).
Proof.
  revert d; induction b as [|c b IH]; intros d H; cbn [app feed step].
  - rewrite app_nil_r. reflexivity.
  - rewrite (H c) by (left; reflexivity). rewrite IH by (intros; apply H; right; auto).
    rewrite <- app_assoc. reflexivity.
Qed.
Lemma feed_pi n b : valid_name n = true -> (forall c, In c b -> is c ">" = false) ->
  feed Data (B "<!" ++ n ++ B " " ++ b ++ [">"%char; "010"%char]) = ([declaration (n ++ B " " ++ b); TChar "010"], Data).
Proof.
  intros V H. destruct n as [|c n]; [discriminate|]. pose proof (valid_chars _ V) as A. cbn [forallb] in A.
  apply andb_true_iff in A as [Ac An].
  apply (feed_seq Data (B "<!") _ [] MarkupDecl _ Data); [reflexivity|].
  rewrite <- !app_comm_cons. cbn [feed step].
  assert (L : is c "-" = false /\ is c ">" = false).
  { cbn [valid_name] in V. apply andb_true_iff in V as [V _]. clear - V.
    destruct c as [[] [] [] [] [] [] [] []]; try discriminate V; auto. }
  destruct L as [-> ->]. rewrite !app_assoc, <- (app_assoc n), feed_bogus; [reflexivity|].
  intros x Hx. apply in_app_iff in Hx as [Hx|[<-|Hx]]; [|reflexivity|auto].
  rewrite forallb_forall in An. apply name_char_plain. auto.
Qed.
Lemma kids_roundtrip void u ts s :
  Forall (fun t => forall s, wf void t -> exists b, page o (build u t) fr s = (b, s) /\ feed Data b = (tokens t, Data)) ts ->
  Forall (wf void) ts ->
  exists b, pages o (map (build u) ts) fr s = (b, s) /\ feed Data b = (flat_map tokens ts, Data).
Proof.
  intros F K. induction F as [|t ts Ft F IH]; [exists []; auto|]. inversion K; subst.
  destruct (Ft s) as (b & E & D); auto. destruct IH as (b2 & E2 & D2); auto.
  exists (b ++ b2). cbn [map pages flat_map]. rewrite E, E2. split; auto.
  apply (feed_seq Data b b2 _ Data _ Data); auto.
Qed.

(** C06.  Rendering the template leaves the state alone, and the tokenizer reads
    back exactly its tokens. *)
Theorem C06_roundtrip void t u s :
  wf void t ->
  exists b, page o (build u t) fr s = (b, s) /\ tokenizes b (tokens t).
Proof.
  unfold tokenizes. revert s; induction t as [n ats ts F|n ats|vs|v|vs|n vs|ts F] using tm_ind'; intros s H.
  - cbn [wf] in H. destruct H as (V & _ & A & NP & Tx & K). rewrite wf_kids in K.
    destruct (open_tag n ats s V A) as (b1 & E1 & F1).
    destruct (build_decls u ts) as (D1 & D2 & D3).
    cbn [build]. unfold NewElement. rewrite build_args. cbn [fst].
    set (ns := map NAttr (map mk_attr ats) ++ map (build u) ts).
    assert (Us : all usable ns).
    { apply all_In. intros x Hx. subst ns. apply in_app_iff in Hx as [Hx|Hx].
      - rewrite map_map in Hx. apply in_map_iff in Hx as (y & <- & _). rewrite <- (build_attr_eq u y).
        split; [destruct y; constructor|]. rewrite build_attr_eq. exact I.
      - apply in_map_iff in Hx as (y & <- & _). apply build_usable. }
    destruct (usable_tables ns Us) as [T Q].
    destruct (page_plain_element n ns s T Q) as [-> _].
    { subst ns. rewrite flat_map_app, no_conds_attrs, D2. reflexivity. }
    { subst ns. rewrite flat_map_app, static_attrs, D1, app_nil_r. apply attrs_nodup. apply A. }
    subst ns. rewrite flat_map_app, static_attrs, D1, app_nil_r, E1, non_attrs_attrs, D3.
    assert (G : exists b2, pages o (map (build u) ts) fr s = (b2, s) /\
      exists st, feed (content_state (map lower n)) b2 =
        (if bmem (map lower n) rawtext_names then flat_map raw_tokens ts else flat_map tokens ts, st) /\
      feed st (B "</" ++ n ++ B ">") = ([TEnd (map lower n)], Data)).
    { destruct (in_dec bytes_dec (map lower n) (rcdata_names ++ rawtext_names)) as [Sp|Sp].
      - specialize (Tx Sp). destruct (pages_texts u ts s Tx) as (b2 & E2 & I2 & T2 & R2).
        exists b2. split; auto. pose proof (special_letters n Sp) as L. unfold content_state.
        apply in_app_iff in Sp. rewrite <- !bmem_In in Sp.
        destruct (bmem (map lower n) rcdata_names) eqn:R.
        + assert (bmem (map lower n) rawtext_names = false) as ->.
          { apply bmem_In in R. unfold rcdata_names in R. simpl in R.
            destruct R as [R|[R|[]]]; rewrite <- R; reflexivity. }
          exists (RawData true (map lower n)). split.
          * rewrite <- T2. apply feed_rcdata. apply inert_pieces. auto.
          * apply feed_raw_end; auto.
        + destruct Sp as [Sp|Sp]; [discriminate|]. rewrite Sp. exists (RawData false (map lower n)). split.
          * rewrite <- R2. apply feed_rawtext. intros c Hc. apply (not_markup c). apply (proj1 I2). auto.
          * apply feed_raw_end; auto.
      - rewrite special_state by auto.
        assert (bmem (map lower n) rawtext_names = false) as ->.
        { destruct (bmem (map lower n) rawtext_names) eqn:R; auto. exfalso. apply Sp. apply in_app_iff. right.
          apply bmem_In. auto. }
        assert (E2 : exists b2, pages o (map (build u) ts) fr s = (b2, s) /\ feed Data b2 = (flat_map tokens ts, Data))
          by (apply (kids_roundtrip void); auto).
        destruct E2 as (b2 & E2 & D). exists b2. split; auto. exists Data. split; auto. apply feed_end_tag. auto. }
    destruct G as (b2 & E2 & st & F2 & F3). rewrite E2. exists (wrap n b1 b2). split; auto.
    cbn [tokens]. cbn zeta.
    replace (wrap n b1 b2) with ((B "<" ++ n ++ b1 ++ B ">") ++ b2 ++ (B "</" ++ n ++ B ">"))
      by (unfold wrap; rewrite <- !app_assoc; reflexivity).
    apply (feed_seq Data _ _ [TStart (map lower n) (map attr_seen ats) false] (content_state (map lower n)) _ Data F1).
    apply (feed_seq _ b2 _ _ st [TEnd (map lower n)] Data); auto.
  - cbn [wf] in H. destruct H as (V & _ & A & NP).
    destruct (open_tag n ats s V A) as (b1 & E1 & F1).
    cbn [build]. unfold NewVoidElement. rewrite build_void_args. cbn [fst].
    destruct (page_plain_element n (map NAttr (map mk_attr ats)) s) as [_ ->].
    { apply all_In. intros x Hx. apply in_map_iff in Hx as (y & <- & _). exact I. }
    { apply all_In. intros x Hx. apply in_map_iff in Hx as (y & <- & _). exact I. }
    { apply no_conds_attrs. }
    { rewrite static_attrs. apply attrs_nodup. apply A. }
    rewrite static_attrs, E1. exists (B "<" ++ n ++ b1 ++ B ">"). split; auto.
    rewrite F1. cbn [tokens]. rewrite special_state; auto.
    + intro X. apply NP. right. exact X.
    + intro X. apply NP. left. auto.
  - rewrite page_text_tm by reflexivity. eexists. split; [reflexivity|]. cbn [text_values tokens].
    destruct (values_facts vs) as (I & D & _). rewrite feed_inert, D by auto. reflexivity.
  - rewrite page_text_tm by reflexivity. eexists. split; [reflexivity|]. cbn [text_values tokens map concat].
    rewrite app_nil_r. destruct (scalar_facts v) as (I & D & _). rewrite feed_inert, D by auto. reflexivity.
  - cbn [build tokens]. unfold Comment. rewrite scalar_values. cbn [fst]. rewrite page_comment, vals_static.
    rewrite (liftU_ret _ (concat (map vbytes vs))) by (intro; apply svals_static).
    eexists. split; [reflexivity|]. destruct (values_facts vs) as (I & _ & S). rewrite <- S.
    apply feed_whole_comment. intros c Hc. apply (not_markup c). apply (proj1 I). auto.
  - cbn [build tokens wf] in *. unfold PI. rewrite scalar_values. cbn [fst]. rewrite page_pi, vals_static.
    rewrite (liftU_ret _ (concat (map vbytes vs))) by (intro; apply svals_static).
    eexists. split; [reflexivity|]. destruct (values_facts vs) as (I & _ & S). rewrite <- S.
    apply feed_pi; auto. intros c Hc. apply (not_markup c). apply (proj1 I). auto.
  - cbn [build tokens wf] in *. rewrite wf_kids in H. rewrite collection_some.
    rewrite C17_collection by (auto; apply all_In; intros x Hx; apply in_map_iff in Hx as (y & <- & _); apply build_usable).
    rewrite (proj2 (proj2 (build_decls u ts))). apply (kids_roundtrip void); auto.
Qed.

(** A whole document: html.Document with a language and the parts of head and
    body.  A reader sees a doctype named html, a newline, and the elements. *)
Definition doc_args (u : U) (ats : list tattr) (ts : list tm) : list (arg U) :=
  map (fun a => ANode (build_attr u a)) ats ++ map (fun t => as_arg t (build u t)) ts.
Definition doc_part (n : bytes) (ats : list tattr) (ts : list tm) : list tm :=
  match ats, ts with [], [] => [] | _, _ => [XElem n ats ts] end.

Theorem C06_document void (lang : option scalar) hats hts bats bts u s :
  void (B "html") = false -> void (B "head") = false -> void (B "body") = false ->
  attrs_wf hats -> attrs_wf bats -> Forall (wf void) hts -> Forall (wf void) bts ->
  exists b d,
    page o (fst (Document (match lang with Some v => scalar_arg v | None => AData GNil end)
                   (doc_args u hats hts) (doc_args u bats bts) u)) fr s = (b, s) /\
    tokenizes b (TDoctype d :: TChar "010" ::
                 TStart (B "html") (match lang with Some v => [(B "lang", text_of v)] | None => [] end) false ::
                 flat_map tokens (doc_part (B "head") hats hts ++ [XElem (B "body") bats bts]) ++
                 [TEnd (B "html")]) /\
    doctype_name d = B "html".
Proof.
  intros V1 V2 V3 Ah Ab Kh Kb.
  assert (Us : forall ats ts, usable_args (doc_args u ats ts)).
  { intros ats ts x Hx. unfold doc_args in Hx. apply in_app_iff in Hx as [Hx|Hx].
    - apply in_map_iff in Hx as (y & E & _). injection E as <-.
      split; [destruct y; constructor|]. rewrite (build_attr_eq u y). exact I.
    - apply in_map_iff in Hx as (y & E & _).
      assert (D : (exists v, y = XValue v) \/ as_arg y (build u y) = ANode (build u y)) by (destruct y; eauto).
      destruct D as [[v ->]|D]; [destruct v as [?|?|?|?]; discriminate E|].
      rewrite D in E. injection E as <-. apply build_usable. }
  assert (P : forall n ats ts, valid_name n = true -> map lower n = n -> void n = false ->
     n <> B "plaintext" -> ~ In n (rcdata_names ++ rawtext_names) ->
     attrs_wf ats -> Forall (wf void) ts -> wf void (XElem n ats ts)).
  { intros n ats ts V L Vn Np Ni A K. cbn [wf]. rewrite L, wf_kids. repeat split; auto; try apply A. contradiction. }
  assert (NI : forall n l, bmem n l = false -> ~ In n l).
  { intros n l E X. apply bmem_In in X. congruence. }
  destruct (C06_roundtrip void (XElem (B "body") bats bts) u s) as (bb & Eb & Tb).
  { apply P; auto; try reflexivity; try (apply NI; reflexivity); discriminate. }
  destruct (C06_roundtrip void (XElem (B "head") hats hts) u s) as (bh & Eh & Th).
  { apply P; auto; try reflexivity; try (apply NI; reflexivity); discriminate. }
  assert (Wl : attrs_wf (match lang with Some v => [XAttr (B "lang") [v]] | None => [] end)).
  { destruct lang; split; repeat constructor; simpl; tauto. }
  destruct (open_tag (B "html") _ s eq_refl Wl) as (bl & El & Fl).
  exists (B "<!DOCTYPE html>" ++ ["010"%char] ++ (B "<" ++ B "html" ++ bl ++ B ">") ++
          (match doc_part (B "head") hats hts with [] => [] | _ => bh end) ++ bb ++ B "</html>"), (B " html").
  split; [|split; [|reflexivity]].
  - rewrite C45_document by auto.
    assert (EN : forall n ats ts, NewElement n (doc_args u ats ts) u = (build u (XElem n ats ts), u)).
    { intros n ats ts. cbn [build]. unfold NewElement, doc_args. rewrite build_args. reflexivity. }
    set (la := match lang with Some v => scalar_arg v | None => AData GNil end).
    assert (EL : (match la with
                  | AData GNil => ([], u)
                  | _ => let '(n, u') := NewAttribute (B "lang") [la] u in ([n], u')
                  end) = (map NAttr (map mk_attr (match lang with Some v => [XAttr (B "lang") [v]] | None => [] end)), u)).
    { subst la. destruct lang as [v|]; [|reflexivity].
      assert (NewAttribute (B "lang") [scalar_arg v] u = (NAttr (mk_attr (XAttr (B "lang") [v])), u)) as E.
      { unfold NewAttribute. change [scalar_arg v] with (scalar_args [v]). rewrite scalar_values. reflexivity. }
      cbn [map]. destruct v as [?|?|?|?]; cbn [scalar_arg] in *; rewrite E; reflexivity. }
    rewrite EL, El.
    assert (EH : (match doc_args u hats hts with
                  | [] => ([], u)
                  | _ => let '(n, u') := NewElement (B "head") (doc_args u hats hts) u in ([n], u')
                  end) = (map (build u) (doc_part (B "head") hats hts), u)).
    { pose proof (EN (B "head") hats hts) as E.
      destruct hats as [|a hats]; [destruct hts as [|t hts]|]; [reflexivity| |];
        unfold doc_args in *; cbn [map app doc_part] in *; rewrite E; reflexivity. }
    rewrite EH, EN. cbn [fst].
    assert (EP : pages o (map (build u) (doc_part (B "head") hats hts)) fr s =
                 (match doc_part (B "head") hats hts with [] => [] | _ => bh end, s)).
    { unfold doc_part. destruct hats; [destruct hts|]; cbn [map pages]; rewrite ?Eh, ?app_nil_r; reflexivity. }
    rewrite EP, Eb. rewrite <- !app_assoc. reflexivity.
  - unfold tokenizes in *.
    apply (feed_seq Data (B "<!DOCTYPE html>") _ [TDoctype (B " html")] Data (TChar "010" :: _) Data); [reflexivity|].
    apply (feed_seq Data ["010"%char] _ [TChar "010"] Data (TStart _ _ _ :: _) Data); [reflexivity|].
    assert (Fl' : feed Data (B "<" ++ B "html" ++ bl ++ B ">") =
      ([TStart (B "html") (match lang with Some v => [(B "lang", text_of v)] | None => [] end) false], Data)).
    { rewrite Fl. destruct lang as [v|]; cbn [map attr_seen]; [|reflexivity].
      unfold texts. cbn [map concat]. rewrite app_nil_r. reflexivity. }
    apply (feed_seq Data _ _ _ Data _ Data Fl').
    rewrite flat_map_app, <- app_assoc.
    apply (feed_seq Data _ _ _ Data _ Data).
    { unfold doc_part. destruct hats; [destruct hts|]; [reflexivity| |]; cbn [flat_map]; rewrite app_nil_r; exact Th. }
    apply (feed_seq Data bb _ _ Data [TEnd (B "html")] Data); [|reflexivity].
    cbn [flat_map]. rewrite app_nil_r. exact Tb.
Qed.

End Html.

(** The tokens of a template are properly nested. *)
Lemma well_nested_app void l1 l2 : well_nested void l1 -> well_nested void l2 -> well_nested void (l1 ++ l2).
Proof.
  intros H1 H2. induction H1 as [| | | | |n a s m1 m2 V H1 IH1 H3 IH3]; cbn [app].
  - exact H2.
  - apply wn_char. auto.
  - apply wn_comment. auto.
  - apply wn_doctype. auto.
  - apply wn_void; auto.
  - rewrite <- app_assoc. cbn [app]. apply wn_element; auto.
Qed.
Lemma well_nested_chars void b : well_nested void (map TChar b).
Proof. induction b; constructor; auto. Qed.
Lemma well_nested_flat {X} void (f : X -> list token) l :
  (forall x, In x l -> well_nested void (f x)) -> well_nested void (flat_map f l).
Proof.
  induction l as [|x l IH]; intro H; [constructor|]. cbn [flat_map]. apply well_nested_app.
  - apply H. left. auto.
  - apply IH. intros; apply H; right; auto.
Qed.

Theorem C06_nested void t : wf void t -> well_nested void (tokens t).
Proof.
  induction t as [n ats ts F|n ats|vs|v|vs|n vs|ts F] using tm_ind'; intro H; cbn [tokens wf] in *.
  - destruct H as (_ & V & _ & _ & _ & K). rewrite wf_kids in K. cbn zeta.
    apply wn_element; [auto| |constructor].
    destruct (bmem _ rawtext_names); apply well_nested_flat; intros x Hx.
    + destruct x; cbn; try constructor; apply well_nested_chars.
    + rewrite Forall_forall in F, K. auto.
  - destruct H as (_ & V & _). apply wn_void; [auto|constructor].
  - apply well_nested_chars.
  - apply well_nested_chars.
  - repeat constructor.
  - unfold declaration. destruct (beq _ _); repeat constructor.
  - rewrite wf_kids in H. apply well_nested_flat. intros x Hx. rewrite Forall_forall in F, H. auto.
Qed.

(** ** Example: hostile strings everywhere *)

Definition evil : bytes := B """><script>alert('x')</script>&amp;<!--".
Definition page_tm : tm :=
  XElem (B "div") [XAttr (B "Title") [SString evil; SInt (-7)]; XBool (B "hidden");
                   XDelim (B "class") (B " ") [SString (B "a"); SString evil; SString []]]
    [XValue (SString evil);
     XElem (B "title") [] [XText [SString evil; SBool true]];
     XVoid (B "br") [XAttr (B "id") [SUint 12]];
     XComment [SString (B "-->"); SString evil];
     XGroup [XPI (B "note") [SString evil]; XValue (SBool false)];
     XElem (B "style") [] [XValue (SString (B "a>b"))]].
Definition html_void (n : bytes) : bool := bmem n void_element_names.

Example C06_hypothesis : wf html_void page_tm.
Proof.
  assert (V : forall ats, forallb (fun a => valid_name (x_name a) && match a with XDelim _ d _ => forallb (fun c => negb (existsb (Ascii.eqb c) ["<"%char; ">"%char; "034"%char; "039"%char; Ascii.zero; "&"%char])) d | _ => true end) ats = true ->
     Forall attr_wf ats).
  { intros ats H. rewrite forallb_forall in H. apply Forall_forall. intros a Ha. specialize (H a Ha).
    apply andb_true_iff in H as [H1 H2]. split; auto. destruct a; auto. apply Forall_forall. intros c Hc.
    rewrite forallb_forall in H2. specialize (H2 c Hc). apply negb_true_iff in H2.
    assert (X : forall d, In d ["<"%char; ">"%char; "034"%char; "039"%char; Ascii.zero; "&"%char] -> c <> d).
    { intros d Hd ->. assert (existsb (Ascii.eqb d) ["<"%char; ">"%char; "034"%char; "039"%char; Ascii.zero; "&"%char] = true); [|congruence].
      apply existsb_exists. exists d. split; auto. apply Ascii.eqb_refl. }
    split.
    - intro M. unfold markup_char in M. apply (X c); auto. simpl in *. tauto.
    - apply X. simpl. auto 8. }
  assert (NI : forall n l, bmem n l = false -> ~ In n l).
  { intros n l E X. apply bmem_In in X. congruence. }
  assert (ND : forall l : list bytes, (fix go l := match l with [] => true | x :: l' => negb (bmem x l') && go l' end) l = true -> NoDup l).
  { induction l as [|x l IH]; intro E; constructor; apply andb_true_iff in E as [E1 E2]; auto.
    apply NI. apply negb_true_iff. exact E1. }
  cbn [wf page_tm fold_right]. unfold attrs_wf.
  repeat match goal with
  | |- _ /\ _ => split
  | |- True => exact I
  | |- Forall attr_wf _ => apply V; reflexivity
  | |- NoDup _ => apply ND; reflexivity
  | |- ~ In _ _ => apply NI; reflexivity
  | |- _ = _ => reflexivity
  | |- _ <> _ => discriminate
  | |- In _ _ -> _ => intros _; repeat constructor; fail
  | |- In _ _ -> _ => let H := fresh in intro H; exfalso; revert H; apply NI; reflexivity
  end.
Qed.
Example C06_example : exists b,
  page listed (build (st 0) page_tm) frn (st 0, 0) = (b, (st 0, 0)) /\
  tokenizes b (tokens page_tm) /\ well_nested html_void (tokens page_tm).
Proof.
  destruct (C06_roundtrip listed frn listed_ok html_void page_tm (st 0) (st 0, 0) C06_hypothesis) as (b & H1 & H2).
  exists b. split; auto. split; auto. apply C06_nested. apply C06_hypothesis.
Qed.

(** A document whose language and contents are hostile: still one doctype and
    three elements. *)
Example C06_document_hypotheses :
  attrs_wf [XAttr (B "class") [SString evil]] /\
  Forall (wf html_void) [XElem (B "title") [] [XValue (SString evil)]] /\ Forall (wf html_void) [page_tm].
Proof.
  split; [|split].
  - split.
    + constructor; [split; [reflexivity|exact I]|constructor].
    + constructor; [intros []|constructor].
  - constructor; [|constructor]. cbn [wf fold_right]. split; [reflexivity|]. split; [reflexivity|].
    split; [split; constructor|]. split; [discriminate|]. split; [intros _; repeat constructor|auto].
  - constructor; [exact C06_hypothesis|constructor].
Qed.
Example C06_document_example : exists b d,
  page listed (fst (Document (AData (GString evil)) [ANode (fst (NewElement (B "title") [AData (GString evil)] (st 0)))]
                      [ANode (build_attr (st 0) (XAttr (B "class") [SString evil])); ANode (build (st 0) page_tm)] (st 0)))
    frn (st 0, 0) = (b, (st 0, 0)) /\
  tokenizes b (TDoctype d :: TChar "010" :: TStart (B "html") [(B "lang", evil)] false ::
    TStart (B "head") [] false :: TStart (B "title") [] false :: map TChar evil ++
    TEnd (B "title") :: TEnd (B "head") :: TStart (B "body") [(B "class", evil)] false :: tokens page_tm ++
    [TEnd (B "body"); TEnd (B "html")]) /\
  doctype_name d = B "html".
Proof.
  destruct C06_document_hypotheses as (H1 & H2 & H3).
  destruct (C06_document listed frn listed_ok html_void (Some (SString evil)) [] [XElem (B "title") [] [XValue (SString evil)]]
    [XAttr (B "class") [SString evil]] [page_tm] (st 0) (st 0, 0) eq_refl eq_refl eq_refl) as (b & d & E & T & N); auto.
  { split; constructor. }
  exists b, d. split; [exact E|]. split; [|exact N].
  match goal with |- tokenizes b ?l => match type of T with tokenizes b ?l' => replace l with l'; [exact T|] end end.
  vm_compute. reflexivity.
Qed.
