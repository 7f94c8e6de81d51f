(** From runs against a healthy writer to the reference output. *)
From Verif Require Import Bytes IO IOFacts Escape Nodes NodeInd Values Render Build Api
  SpecOut SpecRun RenderFacts ApiFacts.

Section Facts.
Context {W : UserWorld}.
Variable o : order.

Lemma page_hrun n fr s :
  page o n fr s = let '(_, b, u', t') := hrun o (render n fr None) (fst s) (snd s) in (b, (u', t')).
Proof.
  unfold page. pose proof (run_hrun o (render n fr None) (World [] (fst s) (snd s))) as H.
  simpl in H. destruct (hrun o (render n fr None) (fst s) (snd s)) as [[[a b] u'] t'].
  destruct (run _ _ _) as [a' w']. destruct H as (_ & H1 & H2 & H3). simpl.
  rewrite H1, H2, H3. reflexivity.
Qed.

Lemma result_hrun n fr s :
  result o n fr s = fst (fst (fst (hrun o (render n fr None) (fst s) (snd s)))).
Proof.
  unfold result. pose proof (run_hrun o (render n fr None) (World [] (fst s) (snd s))) as H.
  simpl in H. destruct (hrun o (render n fr None) (fst s) (snd s)) as [[[a b] u'] t'].
  destruct (run _ _ _) as [a' w']. simpl. tauto.
Qed.

Lemma page_snode n fr s :
  ord_ok o -> tables_ok n -> quiet n -> page o n fr s = snode o n fr s.
Proof.
  intros O T Q. rewrite page_hrun. destruct s as [u t]. cbn [fst snd].
  rewrite (proj1 (render_good o O) n Q T fr u t). simpl.
  destruct (snode o n fr (u, t)) as [b [u' t']]. reflexivity.
Qed.

Lemma result_ok n fr s :
  ord_ok o -> tables_ok n -> quiet n -> result o n fr s = (None, None).
Proof.
  intros O T Q. rewrite result_hrun. destruct s as [u t]. cbn [fst snd].
  rewrite (proj1 (render_good o O) n Q T fr u t). simpl.
  destruct (snode o n fr (u, t)) as [b [u' t']]. reflexivity.
Qed.

Lemma pages_seqS ns fr s :
  ord_ok o -> all tables_ok ns -> all quiet ns ->
  pages o ns fr s = seqS (fun c s => snode o c fr s) ns s.
Proof.
  intros O. revert s; induction ns as [|n ns IH]; intros s T Q; [reflexivity|].
  destruct T as [T1 T2], Q as [Q1 Q2]. cbn [pages]. rewrite seqS_cons, page_snode by auto.
  destruct (snode o n fr s) as [b1 s1]. rewrite IH by auto. reflexivity.
Qed.

Lemma pages_app l1 l2 fr s :
  pages o (l1 ++ l2) fr s =
  let '(b1, s1) := pages o l1 fr s in
  let '(b2, s2) := pages o l2 fr s1 in (b1 ++ b2, s2).
Proof.
  revert s; induction l1 as [|n l1 IH]; intro s; cbn [pages app].
  - destruct (pages o l2 fr s). reflexivity.
  - destruct (page o n fr s) as [b s1]. rewrite IH.
    destruct (pages o l1 fr s1) as [b1 s2]. destruct (pages o l2 fr s2) as [b2 s3].
    rewrite app_assoc. reflexivity.
Qed.

Lemma pages_one n fr s : pages o [n] fr s = page o n fr s.
Proof. cbn [pages]. destruct (page o n fr s). rewrite app_nil_r. reflexivity. Qed.

(** Nodes without callbacks in their tables. *)
Lemma page_text vs fr s : page o (NText vs) fr s = liftU (svals fr vs) s.
Proof.
  rewrite page_hrun. cbn [render]. rewrite hrun_bind, h_values. unfold liftU.
  destruct (svals fr vs (fst s)). simpl. rewrite app_nil_r. reflexivity.
Qed.
Lemma page_fragment vs fr s : page o (NFragment vs) fr s = liftU (svals fr vs) s.
Proof. rewrite <- (page_text vs fr s). reflexivity. Qed.
Lemma page_comment vs fr s :
  page o (NComment vs) fr s =
  let '(b, s1) := liftU (svals fr vs) s in (B "<!--" ++ b ++ B "-->", s1).
Proof.
  rewrite page_hrun. cbn [render]. rewrite hrun_bind, h_ctx_write, hrun_bind, h_values. unfold liftU.
  destruct (svals fr vs (fst s)) as [b u1]. rewrite hrun_bind, h_ctx_write.
  cbn [hrun fst snd]. rewrite app_nil_r. reflexivity.
Qed.
Lemma page_pi name vs fr s :
  page o (NPI name vs) fr s =
  let '(b, s1) := liftU (svals fr vs) s in
  (B "<!" ++ name ++ B " " ++ b ++ [">"%char; "010"%char], s1).
Proof.
  rewrite page_hrun. cbn [render].
  rewrite hrun_bind, h_ctx_write, hrun_bind, h_ctx_write, hrun_bind, h_ctx_write, hrun_bind, h_values.
  unfold liftU. destruct (svals fr vs (fst s)) as [b u1]. rewrite hrun_bind, h_ctx_write.
  cbn [hrun fst snd]. rewrite app_nil_r. reflexivity.
Qed.
Lemma page_attr a fr s : page o (NAttr a) fr s = liftU (sattr fr a) s.
Proof.
  rewrite page_hrun. cbn [render]. rewrite hrun_bind, h_attr. unfold liftU.
  destruct (sattr fr a (fst s)). simpl. rewrite app_nil_r. reflexivity.
Qed.

(** Values of argument lists. *)
Lemma mapS_app {X Y S} (f : X -> S -> Y * S) l1 l2 s :
  mapS f (l1 ++ l2) s =
  let '(y1, s1) := mapS f l1 s in let '(y2, s2) := mapS f l2 s1 in (y1 ++ y2, s2).
Proof.
  revert s; induction l1 as [|x l1 IH]; intro s; simpl.
  - destruct (mapS f l2 s). reflexivity.
  - destruct (f x s) as [y s1]. rewrite IH. destruct (mapS f l1 s1) as [y1 s2].
    destruct (mapS f l2 s2). reflexivity.
Qed.

Lemma svals_app fr l1 l2 u :
  svals fr (l1 ++ l2) u =
  let '(b1, u1) := svals fr l1 u in let '(b2, u2) := svals fr l2 u1 in (b1 ++ b2, u2).
Proof.
  unfold svals. rewrite mapS_app. destruct (mapS (sval fr) l1 u) as [x u1].
  destruct (mapS (sval fr) l2 u1) as [y u2]. rewrite concat_app. reflexivity.
Qed.

Lemma svals_one fr v u : svals fr [v] u = sval fr v u.
Proof. unfold svals. simpl. destruct (sval fr v u). simpl. rewrite app_nil_r. reflexivity. Qed.

Lemma sval_group fr cs b u : cs <> [] -> sval fr (Val b None cs) u = svals fr cs u.
Proof.
  intro H. destruct cs as [|c cs]; [congruence|]. clear H.
  change (sgo fr (c :: cs) u = svals fr (c :: cs) u).
  generalize (c :: cs). intro l. revert u; induction l as [|x l IH]; intro u; [reflexivity|].
  cbn [sgo]. unfold svals. simpl. destruct (sval fr x u) as [b1 u1]. fold (sgo fr). rewrite IH.
  unfold svals. destruct (mapS (sval fr) l u1). reflexivity.
Qed.

Lemma new_values_app (l1 l2 : list (arg U)) u :
  new_values (l1 ++ l2) u =
  let '(v1, u1) := new_values l1 u in let '(v2, u2) := new_values l2 u1 in (v1 ++ v2, u2).
Proof.
  revert u; induction l1 as [|a l1 IH]; intro u; simpl.
  - destruct (new_values l2 u). reflexivity.
  - destruct (new_value a u) as [v u1]. rewrite IH. destruct (new_values l1 u1) as [v1 u2].
    destruct (new_values l2 u2). rewrite app_assoc. reflexivity.
Qed.

Lemma new_values_one (a : arg U) u : new_values [a] u = let '(v, u') := new_value a u in (v, u').
Proof. simpl. destruct (new_value a u). rewrite app_nil_r. reflexivity. Qed.

(** Values that are plain strings. *)
Lemma new_values_strings ss u :
  new_values (map str ss) u = (map (fun s => Val (html_escape_string s) None []) ss, u).
Proof. induction ss as [|s ss IH]; simpl; auto. rewrite IH. reflexivity. Qed.

Lemma mapS_static fr (bs : list bytes) u :
  mapS (sval fr) (map (fun b => Val b None []) bs) u = (bs, u).
Proof. induction bs as [|b bs IH]; simpl; auto. rewrite IH. reflexivity. Qed.

Lemma svals_static fr (bs : list bytes) u :
  svals fr (map (fun b => Val b None []) bs) u = (concat bs, u).
Proof. unfold svals. rewrite mapS_static. reflexivity. Qed.

End Facts.
