(** The functions of html, svg, css and htmx in the Go source are those of the
    tables (Tables.v, Library.v), and programs that call them do what Programs.v
    says. *)
From Coq Require Import ZArith Lia.
From Verif Require Import Bytes IO IOFacts Nodes NodeInd Values Render Build Packages SpecOut Slices Sharing Programs ProgramFacts Library
  GoSyntax SourceLib Source GoSem GoRun GoRep GoStep GoOwn RefineNode RefineUser RefineIter RefineStart RefineNew RefineMake GoShare RefineNewElement RefineVariadic RefineStyle RefineCalls RefineProgram.
From Verif Require Tables.
Local Open Scope nat_scope.
Local Notation "x <-- p ;; q" := (pbind p (fun x => q))
  (at level 100, p at next level, right associativity).

(** ** The shapes of the functions, read off the syntax *)

Definition all_funcs : list (string * fundecl) := the_funcs ++ lib_funcs.
Definition all_globals : list (string * expr) := the_globals ++ lib_globals.

Fixpoint ints_of (es : list expr) : option (list Z) :=
  match es with
  | [] => Some []
  | EInt z :: es' => option_map (cons z) (ints_of es')
  | _ => None
  end.
(** The bytes of a package variable: [[]byte("...")] or [[]byte{'a', 'b'}]. *)
Definition glob_bytes (g : string) : option bytes :=
  if String.eqb g "aitch.PanicOnInvalidName" then None else
  match assoc g all_globals with
  | Some (EConv t (EStr b)) => if String.eqb t "[]byte" then Some b else None
  | Some (ESliceLit t es) => if String.eqb t "[]byte" then option_map (map ascii_of_Z) (ints_of es) else None
  | _ => None
  end.

(** [return g(args)] *)
Definition returned_call (s : stmt) : option (string * list expr * bool) :=
  match s with SBlock [SReturn [ECall (EFun g) args sp]] => Some (g, args, sp) | _ => None end.
(** Package variables, then the variadic parameter [q]. *)
Fixpoint fixed_args (q : string) (args : list expr) : option (list bytes) :=
  match args with
  | [ELoc x] => if String.eqb x q then Some [] else None
  | EGlob g :: args' => match glob_bytes g, fixed_args q args' with Some b, Some bs => Some (b :: bs) | _, _ => None end
  | _ => None
  end.
(** [func f(q ...any) Node { return g(x1, x2, q...) }] *)
Definition passes (fd : fundecl) : option (string * list bytes) :=
  match fd with
  | Fun [q] true [] body =>
      match returned_call body with
      | Some (g, args, true) => match fixed_args q args with Some bs => Some (g, bs) | None => None end
      | _ => None
      end
  | _ => None
  end.
(** [func f() Node { return g(x) }] *)
Definition returns_one (fd : fundecl) : option (string * bytes) :=
  match fd with
  | Fun [] false [] body =>
      match returned_call body with
      | Some (g, [EGlob x], false) => match glob_bytes x with Some b => Some (g, b) | None => None end
      | _ => None
      end
  | _ => None
  end.
(** [func f(q ...any) Value { return g(append(q, x)...) }] *)
Definition appends (fd : fundecl) : option (string * bytes) :=
  match fd with
  | Fun [q] true [] body =>
      match returned_call body with
      | Some (g, [ECall (EExt a) [ELoc x; EGlob y] false], true) =>
          if String.eqb a "append" && String.eqb x q then match glob_bytes y with Some b => Some (g, b) | None => None end else None
      | _ => None
      end
  | _ => None
  end.

(** What the table says. *)
Definition target (k : Tables.fkind) : string * list bytes :=
  match k with
  | Tables.KElement t => ("aitch.NewElement"%string, [B t])
  | Tables.KVoid t => ("aitch.NewVoidElement"%string, [B t])
  | Tables.KPlain n => ("aitch.NewAttribute"%string, [B n])
  | Tables.KBool n => ("aitch.NewBooleanAttribute"%string, [B n])
  | Tables.KDelim n d => ("aitch.NewDelimitedAttribute"%string, [B n; B d])
  | Tables.KStyle p => ("css.styleAttribute"%string, [B p])
  | Tables.KUnit u => ("aitch.NewConcatValue"%string, [B u])
  end.
Definition one_of (r : option (string * bytes)) : option (string * list bytes) := option_map (fun '(g, b) => (g, [b])) r.
Definition shape (k : Tables.fkind) (fd : fundecl) : option (string * list bytes) :=
  match k with
  | Tables.KBool _ => one_of (returns_one fd)
  | Tables.KUnit _ => one_of (appends fd)
  | _ => passes fd
  end.
Fixpoint same_list (a b : list bytes) : bool :=
  match a, b with
  | [], [] => true
  | x :: a', y :: b' => beq x y && same_list a' b'
  | _, _ => false
  end.
Definition agrees (f : string) (k : Tables.fkind) : bool :=
  match assoc f all_funcs with
  | Some fd => match shape k fd with Some (g, bs) => String.eqb g (fst (target k)) && same_list bs (snd (target k)) | None => false end
  | None => false
  end.
Lemma tables_agree : forallb (fun '(f, k) => agrees f k) library = true.
Proof. vm_compute. reflexivity. Qed.
Lemma same_list_eq a : forall b, same_list a b = true -> a = b.
Proof.
  induction a as [|x a IH]; intros [|y b]; try discriminate; auto. cbn [same_list]. intro H. apply Bool.andb_true_iff in H. destruct H as [H1 H2].
  f_equal; [apply beq_eq, H1|auto].
Qed.
Lemma find_in f t k : find_function f t = Some k -> In (f, k) t.
Proof.
  induction t as [|[g k'] t IH]; [discriminate|]. cbn [find_function]. destruct (String.eqb_spec f g) as [->|].
  - intro X. injection X as ->. left. reflexivity.
  - intro X. right. auto.
Qed.
Lemma entry_shape f k : find_function f library = Some k -> exists fd, assoc f all_funcs = Some fd /\ shape k fd = Some (target k).
Proof.
  intro F. pose proof tables_agree as T. rewrite forallb_forall in T. specialize (T _ (find_in _ _ _ F)). cbn beta iota in T. unfold agrees in T.
  destruct (assoc f all_funcs) as [fd|]; [|discriminate]. exists fd. split; [reflexivity|]. destruct (shape k fd) as [[g bs]|]; [|discriminate].
  apply Bool.andb_true_iff in T. destruct T as [T1 T2]. apply String.eqb_eq in T1. apply same_list_eq in T2. rewrite T1, T2. destruct (target k); reflexivity.
Qed.

(** ** What a function of such a shape does *)
Section Semantics.
Context {W : UserWorld}.
Variable M : go_mode.
Hypothesis MO : mode_ok M.
Notation C := (go_config M).
Notation sim := (sim C).

Lemma evs_cons (ev : expr -> prog (list gv)) e es : evs_with ev (e :: es) = (vs <-- ev e ;; v <-- one vs ;; rest <-- evs_with ev es ;; PRet (v :: rest)).
Proof. reflexivity. Qed.
Lemma ints_eval es : forall zs (ev : expr -> prog (list gv)), (forall z, ev (EInt z) = PRet [VInt z]) -> ints_of es = Some zs ->
  evs_with ev es = PRet (map VInt zs).
Proof.
  induction es as [|e es IH]; intros zs ev Hev H; [injection H as <-; reflexivity|]. destruct e; try discriminate. cbn [ints_of] in H.
  destruct (ints_of es) as [ys|] eqn:Ey; [|discriminate]. injection H as <-. rewrite evs_cons, Hev. cbn [pbind one].
  rewrite (IH ys ev Hev eq_refl). reflexivity.
Qed.
Lemma ints_bytes zs : bytes_of_ints (map VInt zs) = Some (map ascii_of_Z zs).
Proof. induction zs as [|z zs IH]; [reflexivity|]. cbn [map bytes_of_ints]. rewrite IH. reflexivity. Qed.
Lemma glob_eval g b en : glob_bytes g = Some b -> eval C (EGlob g) en = PRet [VBytes b].
Proof.
  unfold glob_bytes, eval. cbn [eval_with]. destruct (String.eqb g _); [discriminate|]. unfold global, global_with at 1.
  cbn [c_prog go_config source p_globals]. change (the_globals ++ lib_globals) with all_globals. destruct (assoc g all_globals) as [e|]; [|discriminate].
  destruct e; try discriminate.
  - destruct e; try discriminate. destruct (String.eqb_spec t "[]byte") as [->|]; [|discriminate]. intro X. injection X as ->. reflexivity.
  - destruct (String.eqb_spec t "[]byte") as [->|]; [|discriminate]. intro X. destruct (ints_of elems) as [zs|] eqn:Ez; [|discriminate]. injection X as <-.
    cbn [eval_with]. rewrite (ints_eval elems zs) by (auto; reflexivity). cbn [pbind]. rewrite ints_bytes. reflexivity.
Qed.
Lemma fixed_eval q s args : forall bs, fixed_args q args = Some bs -> evs_with (fun e => eval C e [(q, s)]) args = PRet (map VBytes bs ++ [s]).
Proof.
  induction args as [|e args IH]; intros bs H; [discriminate|]. destruct e; try discriminate; cbn [fixed_args] in H.
  - destruct args; [|discriminate]. destruct (String.eqb_spec x q) as [->|]; [|discriminate]. injection H as <-.
    cbn [evs_with]. unfold eval. cbn [eval_with assoc]. rewrite String.eqb_refl. reflexivity.
  - destruct (glob_bytes g) as [b|] eqn:Eb; [|discriminate]. destruct (fixed_args q args) as [bs'|]; [|discriminate]. injection H as <-.
    rewrite evs_cons, (glob_eval _ _ _ Eb). cbn [pbind one]. rewrite (IH _ eq_refl). reflexivity.
Qed.
(** [return g(args)], once the arguments are there. *)
Lemma returned_call_is body g args sp : returned_call body = Some (g, args, sp) -> body = SBlock [SReturn [ECall (EFun g) args sp]].
Proof.
  unfold returned_call. intro R. repeat match type of R with (match ?x with _ => _ end) = _ => destruct x; try discriminate R end.
  injection R as -> -> ->. reflexivity.
Qed.
Lemma eval1_call g args sp en vals : evs_with (fun e => eval C e en) args = PRet vals -> eval1 C (ECall (EFun g) args sp) en = PCall (CFun g) vals sp one.
Proof.
  intro H. unfold eval1, eval. cbn [eval_with]. change (evs_with (fun e => eval_with C (global C) e en) args) with (evs_with (fun e => eval C e en) args). rewrite H. reflexivity.
Qed.
Lemma hands_on body g args sp en vals : returned_call body = Some (g, args, sp) -> evs_with (fun e => eval C e en) args = PRet vals ->
  exists k : list gv -> prog (list gv),
    pbind (exec C body en) (fun '(fl, _) => match fl with FReturn vs => PRet vs | FNext => PRet [] | _ => PPanic end) = PCall (CFun g) vals sp k /\
    (forall v, k [v] = PRet [v]).
Proof.
  intros R H. apply returned_call_is in R. subst body.
  eexists. split.
  - cbn [exec block_with length rhs]. rewrite (eval1_call _ _ _ _ _ H). reflexivity.
  - reflexivity.
Qed.
Lemma passes_forwards f fd g bs : assoc f all_funcs = Some fd -> passes fd = Some (g, bs) -> takes M g (length bs) ->
  forwards M f [] g (map VBytes bs).
Proof.
  intros F H T. destruct fd as [ps va named body]. unfold passes in H. destruct ps as [|q [|? ?]]; try discriminate. destruct va; [|discriminate]. destruct named; [|discriminate].
  destruct (returned_call body) as [[[g' args] sp]|] eqn:Eb; [|discriminate]. destruct sp; [|discriminate]. destruct (fixed_args q args) as [bs'|] eqn:Ef; [|discriminate].
  injection H as -> ->. split; [eexists _, _, _; split; [exact F|reflexivity]|]. split; [rewrite map_length; exact T|].
  intro s. cbn [body_of app]. unfold lookup_fun. cbn [c_prog go_config source p_funcs]. change (the_funcs ++ lib_funcs) with all_funcs. rewrite F.
  cbn [call_fun bind_params pbind map app]. eapply hands_on; [exact Eb|]. apply fixed_eval, Ef.
Qed.
Lemma one_hands f fd g b : assoc f all_funcs = Some fd -> returns_one fd = Some (g, b) ->
  exists k : list gv -> prog (list gv), body_of C (CFun f) [] false = PCall (CFun g) [VBytes b] false k /\ (forall v, k [v] = PRet [v]).
Proof.
  intros F H. destruct fd as [ps va named body]. unfold returns_one in H. destruct ps; try discriminate. destruct va; [discriminate|]. destruct named; [|discriminate].
  destruct (returned_call body) as [[[g' args] sp]|] eqn:Eb; [|discriminate]. repeat match type of H with (match ?x with _ => _ end) = _ => destruct x eqn:?; try discriminate H end.
  injection H as -> ->. 
  cbn [body_of]. unfold lookup_fun. cbn [c_prog go_config source p_funcs]. change (the_funcs ++ lib_funcs) with all_funcs. rewrite F.
  eapply hands_on; [exact Eb|]. rewrite evs_cons. erewrite glob_eval by eassumption. reflexivity.
Qed.

(** Units: css/units.go. *)
Lemma appends_spec f fd b h0 h cv xs args : assoc f all_funcs = Some fd -> appends fd = Some ("aitch.NewConcatValue"%string, b) ->
  slice_is h cv xs -> all2 (arg_rep M h0) xs args -> own (length h0) cv -> grown h0 h ->
  sim (PCall (CFun f) [cv] true PRet) h (cb (NewConcatValue (args ++ [AData (GBytes b)])))
    (fun vs h' x => exists v, vs = [v] /\ val_rep M h' v x /\ grown h0 h').
Proof.
  intros F H SL A O G0. destruct fd as [ps va named body]. unfold appends in H. destruct ps as [|q [|? ?]]; try discriminate. destruct va; [|discriminate]. destruct named; [|discriminate].
  destruct (returned_call body) as [[[g' es] sp]|] eqn:Eb; [|discriminate].
  repeat match type of H with (match ?x with _ => _ end) = _ => destruct x eqn:?; try discriminate H end.
  injection H as -> ->. apply returned_call_is in Eb. subst body.
  apply Bool.andb_true_iff in Heqb2. destruct Heqb2 as [E1 E2]. apply String.eqb_eq in E1, E2. subst f0 x.
  apply sim_call. eapply simb_body; [exact F|]. cbn [call_fun bind_params pbind map app].
  assert (E0 : eval C (ECall (EExt "append") [ELoc q; EGlob g] false) [(q, cv)] = external C "append" [cv; VBytes b] false).
  { unfold eval. cbn [eval_with]. rewrite !evs_cons. change (eval_with C (global C) (EGlob g) [(q, cv)]) with (eval C (EGlob g) [(q, cv)]). rewrite (glob_eval _ _ _ Heqo).
    cbn [eval_with assoc]. rewrite String.eqb_refl. reflexivity. }
  cbn [exec block_with length rhs Nat.eqb]. unfold eval1, eval. cbn [eval_with]. rewrite evs_cons.
  change (eval_with C (global C) (ECall (EExt "append") [ELoc q; EGlob g] false) [(q, cv)]) with (eval C (ECall (EExt "append") [ELoc q; EGlob g] false) [(q, cv)]). rewrite E0.
  steps. eapply simb_append with (b := length h0); [exact SL|exact O|apply grown_length, G0|].
  intros h2 s2 S2 O2 A2 _. assert (G2 : grown h0 h2) by (eapply appended_grown; [exact O|exact G0|exact A2]).
  assert (A2' : all2 (arg_rep M h2) (xs ++ [VBytes b]) (args ++ [AData (GBytes b)])).
  { apply RefineProgram.all2_snoc; [|right; reflexivity]. eapply all2_mono; [|exact A]. intros v a. apply arg_grown, G2. }
  steps. eapply simb_last; [apply (NewConcatValue_spec M MO s2); eexists; split; [exact S2|exact A2']|].
  intros vs h3 v (vv & -> & V3 & G3). steps. apply sim_ret. exists vv. split; [reflexivity|]. split; [exact V3|eapply grown_trans; eauto].
Qed.

(** ** Steps of a program *)
Definition go_lcmd (c : lcmd) (s : gstate) : prog gstate :=
  let '(vs, ys, rs) := s in
  let items := map (item_gv vs ys) in
  let to_value f args := r <-- PCall (CFun f) args false PRet ;; v <-- one r ;; PRet (vs, ys ++ [v], rs) in
  let to_node f args := r <-- PCall (CFun f) args false PRet ;; v <-- one r ;; PRet (vs ++ [v], ys, rs) in
  match c with
  | LCore c => go_cmd c s
  | LCall f xs => if is_unit f then to_value f (items xs) else to_node f (items xs)
  | LNamed f name xs => to_node f (VStr name :: items xs)
  | LVar name x => to_value "htmx.Var"%string [VStr name; item_gv vs ys x]
  end.
Fixpoint go_lprog (cs : list lcmd) (s : gstate) : prog gstate :=
  match cs with
  | [] => PRet s
  | c :: cs' => s' <-- go_lcmd c s ;; go_lprog cs' s'
  end.

Lemma builds_run ls p q h r n : 
  (forall E w fuel x, (forall vs h' w', x = ROk vs h' w' -> exists v, vs = [v]) -> go_run C fuel E p h w = Some x -> go_run C (n + fuel) E q h w = Some x) ->
  builds M ls p h r -> builds M ls q h r.
Proof.
  intros H B0 E w O. specialize (B0 E w O). destruct (r (w_u w)) as [[[sh' nd] u']|].
  - destruct B0 as (fuel & v & h' & x & RR & K). exists (n + fuel), v, h', x. split; [|exact K]. apply H; [|exact RR].
    intros vs h1 w1 X. injection X as <- _ _. eauto.
  - destruct B0 as (fuel & w' & RR). exists (n + fuel), w'. apply H; [discriminate|exact RR].
Qed.
Lemma builds_forwards ls h f given g fixed xs r : forwards M f given g fixed ->
  builds M ls (PCall (CFun g) (fixed ++ xs) false PRet) h r -> builds M ls (PCall (CFun f) (given ++ xs) false PRet) h r.
Proof. intro F. apply builds_run with (n := 2). intros E w fuel x One RR. eapply run_forwards; eauto. Qed.

Lemma makes_node k p ls h s vs ys E w : krep M ls h s vs ys -> ord_ok (e_ord E) ->
  builds M ls p h (kmake (m_panics M) k (k_heap s) (k_nodes s) (k_vals s)) ->
  does_cmd M (r <-- p ;; v <-- one r ;; PRet (vs ++ [v], ys, k_out s)) h E w (kcmd (m_panics M) E (Make k) s w).
Proof.
  intros K O H. specialize (H E w O). pose proof (krep_changes M ls) as KC. destruct s as [sh ns vals out]. cbn [kcmd k_heap k_nodes k_vals k_out] in *.
  destruct (kmake (m_panics M) k sh ns vals (w_u w)) as [[[sh' n] u']|]; cbn [does_cmd k_out].
  - destruct H as (fuel & v & h' & x & RR & H1 & H2 & H3 & H4). destruct (KC x h h' _ vs ys sh' K H1 H3) as [N V]. cbn [k_nodes k_vals] in *.
    exists (fuel + 1), (ls ++ x), h', (vs ++ [v]), ys. split; [eapply run_then; [exact RR|reflexivity]|].
    constructor; cbn [k_heap k_nodes k_vals]; auto. apply RefineProgram.all2_snoc; auto.
  - destruct H as (fuel & w' & RR). exists fuel, w'. apply run_panic, RR.
Qed.
Lemma makes_value p args ls h s vs ys xs E w : krep M ls h s vs ys -> ord_ok (e_ord E) ->
  args = map (item_arg (k_heap s) (k_nodes s) (k_vals s)) xs ->
  sim p h (cb (NewConcatValue args)) (fun vs h' x => exists v, vs = [v] /\ val_rep M h' v x /\ grown h h') ->
  does_cmd M (r <-- p ;; v <-- one r ;; PRet (vs, ys ++ [v], k_out s)) h E w (kcmd (m_panics M) E (MakeConcat xs) s w).
Proof.
  intros K O -> H. pose proof (krep_grown M ls h) as KG. destruct s as [sh ns vals out]. cbn [kcmd k_heap k_nodes k_vals k_out] in *.
  destruct (sim_never _ _ _ _ _ H E w O) as (n & a & h' & RR & v & -> & H1 & H2). unfold cb in *. cbn [run] in *.
  destruct (NewConcatValue _ (w_u w)) as [y u']. cbn [run fst snd] in *. cbn [does_cmd k_out].
  pose proof (KG h' _ vs ys K H2) as K'. exists (n + 1), ls, h', vs, (ys ++ [v]). split; [eapply run_then; [exact RR|reflexivity]|].
  constructor; cbn [k_heap k_nodes k_vals]; try apply K'. apply RefineProgram.all2_snoc; [apply K'|exact H1].
Qed.

Ltac takes_it := eexists _, _, _; split; [reflexivity|reflexivity].
Lemma entry_forwards f k : find_function f library = Some k -> match k with Tables.KBool _ | Tables.KUnit _ => False | _ => True end ->
  forwards M f [] (fst (target k)) (map VBytes (snd (target k))).
Proof.
  intros F N. destruct (entry_shape f k F) as (fd & Hf & Hs). destruct k; try contradiction; cbn [shape target fst snd] in *; eapply passes_forwards; eauto; takes_it.
Qed.
Lemma entry_node f k c xs ls h s vs ys : find_function f library = Some k -> entry_means k xs = Some (Make c) -> krep M ls h s vs ys ->
  builds M ls (PCall (CFun f) (map (item_gv vs ys) xs) false PRet) h (kmake (m_panics M) c (k_heap s) (k_nodes s) (k_vals s)).
Proof.
  intros F H K. pose proof (fun c => go_make_builds M MO c ls h s vs ys K) as GM.
  assert (FW : match k with Tables.KBool _ | Tables.KUnit _ => False | _ => True end ->
    builds M ls (PCall (CFun (fst (target k))) (map VBytes (snd (target k)) ++ map (item_gv vs ys) xs) false PRet) h (kmake (m_panics M) c (k_heap s) (k_nodes s) (k_vals s)) ->
    builds M ls (PCall (CFun f) (map (item_gv vs ys) xs) false PRet) h (kmake (m_panics M) c (k_heap s) (k_nodes s) (k_vals s))).
  { intros N B0. exact (builds_forwards ls h f [] _ _ _ _ (entry_forwards f k F N) B0). }
  destruct k; cbn [entry_means] in H; try (injection H as <-; exact (FW I (GM _))); [|discriminate].
  destruct xs; [|discriminate]. injection H as <-. cbn [map]. destruct (entry_shape _ _ F) as (fd & Hf & Hs). cbn [shape target] in Hs.
  destruct (returns_one fd) as [[g b]|] eqn:Er; [|discriminate]. injection Hs as -> ->. destruct (one_hands f fd _ _ Hf Er) as (k & K1 & K2).
  eapply builds_run with (n := 1); [|exact (GM (KNewBoolean (B name)))]. intros E w fuel x One RR. eapply run_hands; eauto.
Qed.
Lemma pack_own h xs : own (length h) (pack h xs).
Proof. destruct xs; cbn [pack own]; auto. Qed.
Lemma items_are ls h s vs ys xs : krep M ls h s vs ys -> all2 (arg_rep M h) (map (item_gv vs ys) xs) (map (item_arg (k_heap s) (k_nodes s) (k_vals s)) xs).
Proof. intro K. apply all2_maps. intro x. eapply item_rep; eauto. Qed.

Lemma named_forwards name :
  forwards M "html.PI" [VStr name] "aitch.PI" [VStr name] /\
  forwards M "html.Aria" [VStr name] "aitch.NewAttribute" [VBytes (B "aria-" ++ name)] /\
  forwards M "html.Data" [VStr name] "aitch.NewAttribute" [VBytes (B "data-" ++ name)] /\
  forwards M "htmx.On" [VStr name] "aitch.NewAttribute" [VBytes (B "hx-on:" ++ name)].
Proof. split; [|split; [|split]]; (split; [takes_it|split; [takes_it|]]); intro s; eexists; (split; [reflexivity|reflexivity]). Qed.
Lemma other_forwards :
  forwards M "html.Text" [] "aitch.Text" [] /\ forwards M "svg.Text" [] "aitch.Text" [] /\
  forwards M "html.Comment" [] "aitch.Comment" [] /\ forwards M "svg.Comment" [] "aitch.Comment" [].
Proof. split; [|split; [|split]]; (split; [takes_it|split; [takes_it|]]); intro s; eexists; (split; [reflexivity|reflexivity]). Qed.

Lemma Var_spec name v h x : arg_rep M h v x ->
  sim (PCall (CFun "htmx.Var") [VStr name; v] false PRet) h (cb (NewConcatValue [AData (GString name); AData (GBytes (B ": ")); x]))
    (fun vs h' x => exists v, vs = [v] /\ val_rep M h' v x /\ grown h h').
Proof.
  intro A. enter. steps. apply (simb_eq M) with (X' := PRet (VBytes (B ": "))); [reflexivity|]. steps.
  eapply simb_last; [apply (sim_variadic M _ [] [VStr name; VBytes (B ": "); v]); [takes_it|]; apply (NewConcatValue_spec M MO); apply (arg_list_new M h [VStr name; VBytes (B ": "); v])|].
  { cbn [all2]. eexists _, _. split; [reflexivity|]. split; [right; reflexivity|]. eexists _, _. split; [reflexivity|]. split; [right; reflexivity|]. eexists _, _. split; [reflexivity|]. auto. }
  intros vs h' y (vv & -> & V & G). steps. apply sim_ret. exists vv. split; [reflexivity|]. split; [exact V|]. eapply grown_trans; [|exact G]. apply grown_app.
Qed.

Theorem go_lcmd_does c k ls h s vs ys E w : means c = Some k -> krep M ls h s vs ys -> sound_state s -> ord_ok (e_ord E) ->
  does_cmd M (go_lcmd c (vs, ys, k_out s)) h E w (kcmd (m_panics M) E k s w).
Proof.
  intros H K SO O. destruct c as [c|f xs|f name xs|name x]; cbn [means go_lcmd] in *.
  - injection H as <-. apply (go_cmd_does M MO c ls); auto.
  - unfold is_unit. destruct (find_function f library) as [e|] eqn:F.
    + assert (ND : forall c, k = Make c -> entry_means e xs = Some (Make c) ->
        does_cmd M (r <-- PCall (CFun f) (map (item_gv vs ys) xs) false PRet ;; v <-- one r ;; PRet (vs ++ [v], ys, k_out s)) h E w (kcmd (m_panics M) E k s w)).
      { intros c -> He. eapply makes_node; eauto. eapply entry_node; eauto. }
      pose proof H as H'. destruct e; cbn [entry_means] in H; try (injection H as <-; exact (ND _ eq_refl H')).
      * destruct xs; [|discriminate]. injection H as <-. exact (ND _ eq_refl H').
      * injection H as <-. destruct (entry_shape _ _ F) as (fd & Hf & Hs). cbn [shape target] in Hs.
        destruct (appends fd) as [[g b]|] eqn:Ea; [|discriminate]. injection Hs as -> ->.
        eapply makes_value; [exact K|exact O|reflexivity|]. rewrite map_app. cbn [map item_arg].
        apply (sim_variadic M f [] (map (item_gv vs ys) xs)).
        { destruct fd as [ps va nm bd]. unfold appends in Ea. destruct ps as [|q [|? ?]]; try discriminate. destruct va; [|discriminate]. eexists _, _, _. split; [exact Hf|reflexivity]. }
        eapply appends_spec; [exact Hf|exact Ea|apply pack_slice|eapply items_are; eauto|apply pack_own|apply packed_grown].
    + unfold other_means in H. destruct other_forwards as (F1 & F2 & F3 & F4).
      repeat match type of H with (if String.eqb f ?g then _ else _) = _ => destruct (String.eqb_spec f g) as [->|] end; try discriminate H;
        injection H as <-; (eapply makes_node; [exact K|exact O|]);
        (eapply (builds_forwards ls h _ [] _ []); [first [exact F1|exact F2|exact F3|exact F4]|]).
      * exact (go_make_builds M MO (KText xs) ls h s vs ys K).
      * exact (go_make_builds M MO (KText xs) ls h s vs ys K).
      * exact (go_make_builds M MO (KComment xs) ls h s vs ys K).
      * exact (go_make_builds M MO (KComment xs) ls h s vs ys K).
  - unfold named_means in H. destruct (named_forwards name) as (F1 & F2 & F3 & F4).
    repeat match type of H with (if String.eqb f ?g then _ else _) = _ => destruct (String.eqb_spec f g) as [->|] end; try discriminate H;
      injection H as <-; (eapply makes_node; [exact K|exact O|]);
      (eapply (builds_forwards ls h _ [VStr name]); [first [exact F1|exact F2|exact F3|exact F4]|]).
    + exact (go_make_builds M MO (KPI name xs) ls h s vs ys K).
    + exact (go_make_builds M MO (KNewAttribute (B "aria-" ++ name) xs) ls h s vs ys K).
    + exact (go_make_builds M MO (KNewAttribute (B "data-" ++ name) xs) ls h s vs ys K).
    + exact (go_make_builds M MO (KNewAttribute (B "hx-on:" ++ name) xs) ls h s vs ys K).
  - injection H as <-. eapply makes_value; [exact K|exact O|reflexivity|]. cbn [map item_arg]. apply Var_spec. eapply item_rep; eauto.
Qed.

Theorem go_lprog_does cs : forall ks, program_means cs = Some ks -> Forall cmd_ok ks -> forall ls h s vs ys E w, krep M ls h s vs ys -> sound_state s -> ord_ok (e_ord E) ->
  does_cmd M (go_lprog cs (vs, ys, k_out s)) h E w (kprog (m_panics M) E ks s w).
Proof.
  induction cs as [|c cs IH]; intros ks HM OK ls h s vs ys E w K SO O; cbn [program_means go_lprog] in *.
  - injection HM as <-. exists 1, ls, h, vs, ys. split; [reflexivity|exact K].
  - destruct (means c) as [k|] eqn:Hc; [|discriminate]. destruct (program_means cs) as [ks'|]; [|discriminate]. injection HM as <-. inversion OK as [|k0 ks0 OK1 OK2]; subst.
    pose proof (go_lcmd_does c k ls h s vs ys E w Hc K SO O) as H. pose proof (kcmd_sound (m_panics M) E k s w) as SS. cbn [kprog].
    destruct (kcmd (m_panics M) E k s w) as [[s1 w1]|]; cbn [does_cmd] in H.
    + destruct H as (f1 & ls1 & h1 & vs1 & ys1 & R1 & K1). specialize (IH ks' eq_refl OK2 ls1 h1 s1 vs1 ys1 E w1 K1 (SS _ _ OK1 SO eq_refl) O).
      destruct (kprog (m_panics M) E ks' s1 w1) as [[s2 w2]|]; cbn [does_cmd] in *.
      * destruct IH as (f2 & ls2 & h2 & vs2 & ys2 & R2 & K2). exists (f1 + f2), ls2, h2, vs2, ys2. split; [eapply run_bind; eauto|exact K2].
      * destruct IH as (f2 & w' & R2). exists (f1 + f2), w'. eapply run_bind; eauto.
    + destruct H as (f & w' & RR). exists f, w'. apply run_panic, RR.
Qed.
End Semantics.
