(** Objects that a Go function has created itself and changes later: appending
    to slices, storing into maps, fields of local structs; and rules for maps,
    type tests and counting loops. *)
From Coq Require Import ZArith Lia Permutation.
From Verif Require Import Bytes IO IOFacts Nodes Values Build Slices GoSyntax Source GoSem GoRun GoRep GoStep.
Local Open Scope nat_scope.

Section Own.
Context {W : UserWorld}.
Context {FL : floor} {P : panics}.
Variable M : go_mode.
Notation C := (go_config M).
Notation sim := (sim C).

(** ** Heaps that agree on the old objects *)

Definition same_below (b : nat) (h h' : heap) : Prop :=
  length h <= length h' /\ forall l o, l < b -> nth_error h l = Some o -> nth_error h' l = Some o.
Lemma same_refl b h : same_below b h h.
Proof. split; auto. Qed.
Lemma same_trans b h h1 h2 : same_below b h h1 -> same_below b h1 h2 -> same_below b h h2.
Proof. intros [L1 H1] [L2 H2]. split; [lia|]. auto. Qed.
Lemma same_alloc b h o : same_below b h (h ++ [o]).
Proof. split; [rewrite app_length; lia|]. intros. apply nth_app_old. auto. Qed.
Lemma same_update b h l o : b <= l -> same_below b h (set_nth h l o).
Proof. intro H. split; [rewrite length_set_nth; auto|]. intros. rewrite nth_set_other by lia. auto. Qed.
Lemma same_grown b h h' : grown h h' -> same_below b h h'.
Proof. intros [x ->]. split; [rewrite app_length; lia|]. intros. apply nth_app_old. auto. Qed.

Lemma kept_length lc (h h' : heap) : kept lc h h' -> length h <= length h'.
Proof.
  intros (_ & (fs0 & fs & H0 & H1 & _) & K). destruct (length h) as [|n] eqn:L; [lia|].
  destruct (nth_error h n) as [o|] eqn:N; [|apply nth_error_None in N; lia].
  destruct (Nat.eq_dec n lc) as [->|Hn]; [apply nth_lt in H1; lia|].
  pose proof (nth_lt _ _ _ (K n o Hn N)). lia.
Qed.
Lemma kept_lt lc (h h' : heap) : kept lc h h' -> lc < length h.
Proof. intros ((fs & H) & _). eapply nth_lt; eauto. Qed.
Lemma ctx_bounds h lc fr e : ctx_at h lc fr e -> base <= lc < length h.
Proof. intros (pv & H1 & _ & H2). split; [exact H2|]. eapply nth_lt; eauto. Qed.
Lemma kept_bounds lc (h h' : heap) : kept lc h h' -> lc < length h <= length h'.
Proof. intro K. split; [eapply kept_lt|eapply kept_length]; eauto. Qed.
Lemma kept_same lc h0 h h' : kept lc h0 h -> same_below (length h0) h h' -> kept lc h0 h'.
Proof.
  intros K [_ S0]. pose proof (kept_lt _ _ _ K) as L. destruct K as (H1 & (fs & fs' & H2 & H2' & H2'') & H3). split; [auto|]. split.
  - exists fs, fs'. auto.
  - intros l o Hn Ho. apply S0; [eapply nth_lt; eauto|auto].
Qed.
Lemma parent_same b h h' b' v p : parent_rep h b' v p -> b' <= b -> same_below b h h' -> parent_rep h' b' v p.
Proof.
  intros H Hb [L S0]. revert Hb. induction H as [b'|b' l e d g pv p Hl Ho Hp IH]; intro Hb; [constructor|].
  econstructor; eauto; [apply S0; [lia|exact Ho]|]. apply IH. lia.
Qed.
Lemma ctx_same b h h' lc fr e : ctx_at h lc fr e -> lc < b -> same_below b h h' -> ctx_at h' lc fr e.
Proof.
  intros (pv & H1 & H2) Hb S0. exists pv. split; [apply S0; auto|]. split; [|apply H2]. eapply parent_same; [exact (proj1 H2)| |exact S0]. lia.
Qed.

(** ** Slices with an array of their own *)

Definition own (b : nat) (s : gv) : Prop :=
  match s with VNil => True | VSlice l _ => b <= l | _ => False end.
Definition not_at (l : loc) (s : gv) : Prop :=
  match s with VSlice l' _ => l' <> l | _ => True end.
Lemma own_not_at b s l : own b s -> l < b -> not_at l s.
Proof. destruct s; cbn [own not_at]; auto. lia. Qed.
Lemma slice_unique h s xs ys : slice_is h s xs -> slice_is h s ys -> xs = ys.
Proof.
  destruct s; cbn [slice_is]; try contradiction; [congruence|]. intros (cs & H1 & _ & ->) (cs' & H2 & _ & ->). congruence.
Qed.
Lemma slice_same h h' s xs : slice_is h s xs ->
  (forall l o, (exists n, s = VSlice l n) -> nth_error h l = Some o -> nth_error h' l = Some o) -> slice_is h' s xs.
Proof. destruct s; cbn [slice_is]; auto. intros (cs & H1 & H2) K. exists cs. split; [|auto]. apply K; eauto. Qed.
Lemma slice_update h l o s xs : slice_is h s xs -> not_at l s -> slice_is (set_nth h l o) s xs.
Proof. intros Hs Hn. eapply slice_same; [exact Hs|]. intros l' o' (n & ->) Ho. cbn [not_at] in Hn. rewrite nth_set_other; auto. Qed.
Lemma slice_alloc h o s xs : slice_is h s xs -> slice_is (h ++ [o]) s xs.
Proof. intro Hs. eapply slice_same; [exact Hs|]. intros. apply nth_app_old. auto. Qed.

Lemma write_firstn (cs : list (@gv W)) n vs : n + length vs <= length cs ->
  firstn (n + length vs) (write_cells cs n vs) = firstn n cs ++ vs /\ length (write_cells cs n vs) = length cs.
Proof.
  revert cs n. induction vs as [|v vs IH]; intros cs n H; cbn [length write_cells] in *.
  - rewrite Nat.add_0_r, app_nil_r. auto.
  - destruct (IH (set_nth cs n v) (S n)) as [E1 E2]; [rewrite length_set_nth; lia|].
    rewrite length_set_nth in E2. split; [|exact E2].
    replace (n + S (length vs)) with (S n + length vs) by lia. rewrite E1.
    replace (v :: vs) with ([v] ++ vs) by reflexivity. rewrite app_assoc. f_equal.
    clear IH E1 E2. revert n H. induction cs as [|c cs IH]; intros n H; cbn [length] in H; [lia|].
    destruct n as [|n]; cbn [set_nth firstn app]; [reflexivity|]. f_equal. apply IH. lia.
Qed.

(** The cells behind the end of a slice have never been written. *)
Definition spare (h : heap) (s : gv) : Prop :=
  match s with
  | VSlice l n => exists cs, nth_error h l = Some (OArr cs) /\ forall i v, n <= i -> nth_error cs i = Some v -> v = VNil
  | _ => True
  end.
Lemma nth_write_cells vs : forall (cs : list (@gv W)) n i, n + length vs <= i -> nth_error (write_cells cs n vs) i = nth_error cs i.
Proof.
  induction vs as [|v vs IH]; intros cs n i H; cbn [write_cells length] in *; [reflexivity|].
  rewrite IH by lia. apply nth_set_other. lia.
Qed.
Lemma nth_repeat_nil (n i : nat) (v : @gv W) : nth_error (repeat VNil n) i = Some v -> v = VNil.
Proof. revert i. induction n as [|n IH]; intros [|i]; cbn [repeat nth_error]; try discriminate; [congruence|apply IH]. Qed.

(** What [append] may have done to the heap. *)
Definition appended (s : gv) (h : heap) (s' : gv) (h' : heap) : Prop :=
  length h <= length h' /\
  (forall l o, not_at l s -> nth_error h l = Some o -> nth_error h' l = Some o) /\
  (forall l n, s' = VSlice l n -> (exists n', s = VSlice l n') \/ length h <= l) /\
  (spare h s -> spare h' s') /\
  (forall l n cs, s = VSlice l n -> nth_error h l = Some (OArr cs) ->
     exists cs', nth_error h' l = Some (OArr cs') /\ length cs' = length cs /\ forall i, i < n -> nth_error cs' i = nth_error cs i).
Lemma nth_write_before vs : forall (cs : list (@gv W)) n i, i < n -> nth_error (write_cells cs n vs) i = nth_error cs i.
Proof.
  induction vs as [|v vs IH]; intros cs n i H; cbn [write_cells] in *; [reflexivity|].
  rewrite IH by lia. apply nth_set_other. lia.
Qed.
Lemma appended_same b s h s' h' : own b s -> appended s h s' h' -> same_below b h h'.
Proof. intros H (L & K & _). split; [exact L|]. intros l o Hl. apply K. eapply own_not_at; eauto. Qed.

Lemma simb_append_slice_f {A' B} s vs xs h b (f : gv -> prog A') (m : io U B) Q :
  slice_is h s xs -> own b s -> base <= b -> b <= length h ->
  (forall h' s', slice_is h' s' (xs ++ vs) -> own b s' -> appended s h s' h' -> (vs <> [] -> s' <> VNil) ->
     sim (f s') h' m Q) ->
  sim (pbind (append_slice s vs) f) h m Q.
Proof.
  intros Hs Ho HF Hb K. destruct vs as [|v vs].
  - apply K; auto; [rewrite app_nil_r; auto|]. split; [auto|]. split; [auto|]. split; [intros l n ->; left; eauto|]. split; [auto|].
    intros l n cs -> H. exists cs. auto.
  - destruct s; try contradiction.
    + cbn [slice_is] in Hs. subst xs. cbn [append_slice]. unfold new_slice. apply sim_assoc. apply simb_alloc.
      apply K; [|cbn [own]; lia| |discriminate].
      * cbn [slice_is]. exists (v :: vs). split; [apply nth_app_new|]. split; [auto|]. rewrite firstn_all. reflexivity.
      * split; [rewrite app_length; lia|]. split.
        { intros. apply nth_app_old. auto. } split; [intros l n H; inversion H; subst; right; lia|]. split; [|discriminate]. intros _. cbn [spare].
        exists (v :: vs). split; [apply nth_app_new|]. intros i w Hi Hw. apply nth_lt in Hw. lia.
    + destruct Hs as (cs & H1 & H2 & ->). cbn [own] in Ho. cbn [append_slice]. apply sim_assoc. eapply simb_load; [exact H1|].
      cbn beta iota zeta. destruct (n + length (v :: vs) <=? length cs) eqn:L.
      * apply Nat.leb_le in L. destruct (write_firstn cs n (v :: vs) L) as [E1 E2].
        apply sim_assoc. apply simb_update; [lia|]. apply K; [|exact Ho| |discriminate].
        { cbn [slice_is]. exists (write_cells cs n (v :: vs)). split; [apply nth_set_same; eapply nth_lt; eauto|].
          split; [lia|]. auto. }
        { split; [rewrite length_set_nth; auto|]. split.
          - intros l' o Hn Ho'. cbn [not_at] in Hn. rewrite nth_set_other; auto.
          - split; [intros l' n' H; inversion H; subst; left; eauto|]. split; [|intros l' n' cs' E' H'; injection E' as <- <-; rewrite H1 in H'; injection H' as <-;
              exists (write_cells cs n (v :: vs)); split; [apply nth_set_same; eapply nth_lt; eauto|]; split; [exact E2|]; intros; apply nth_write_before; auto].
            intros (cs' & E' & Hsp). rewrite H1 in E'. injection E' as <-. exists (write_cells cs n (v :: vs)). split; [apply nth_set_same; eapply nth_lt; eauto|].
            intros i w Hi. rewrite nth_write_cells by exact Hi. apply Hsp. lia. }
      * apply Nat.leb_gt in L. apply sim_assoc. apply simb_alloc.
        apply K; [|cbn [own]; lia| |discriminate].
        { cbn [slice_is]. eexists. split; [apply nth_app_new|].
          assert (N : length (firstn n cs) = n) by (apply firstn_length_le; auto). split.
          - rewrite !app_length, N. lia.
          - clear K. generalize dependent (firstn n cs). intros ys N. rewrite app_assoc. rewrite firstn_app. rewrite app_length, N. rewrite Nat.sub_diag. cbn [firstn].
            rewrite app_nil_r. rewrite firstn_all2; [reflexivity|]. rewrite app_length, N. lia. }
        { split; [rewrite app_length; lia|]. split.
          - intros. apply nth_app_old. auto.
          - split; [intros l' n' H; inversion H; subst; right; lia|]. split; [|intros l' n' cs' E' H'; exists cs'; split; [apply nth_app_old; exact H'|auto]].
            intros _. eexists. split; [apply nth_app_new|].
            intros i w Hi. assert (N : length (firstn n cs) = n) by (apply firstn_length_le; auto).
            clear K. generalize dependent (firstn n cs). intros ys N. rewrite app_assoc, nth_error_app2 by (rewrite app_length, N; exact Hi).
            apply nth_repeat_nil. }
Qed.
Lemma simb_cells {A' B} s xs h (f : list gv -> prog A') (m : io U B) Q :
  slice_is h s xs -> sim (f xs) h m Q -> sim (pbind (cells s) f) h m Q.
Proof.
  intros Hs K. destruct s; try contradiction.
  - cbn [slice_is] in Hs. subst. exact K.
  - destruct Hs as (cs & H1 & H2 & ->). cbn [cells]. apply sim_assoc. eapply simb_load; [exact H1|]. exact K.
Qed.
Lemma simb_append_f {A' B} s v xs h b (f : list gv -> prog A') (m : io U B) Q :
  slice_is h s xs -> own b s -> base <= b -> b <= length h ->
  (forall h' s', slice_is h' s' (xs ++ [v]) -> own b s' -> appended s h s' h' -> s' <> VNil ->
     sim (f [s']) h' m Q) ->
  sim (pbind (external C "append" [s; v] false) f) h m Q.
Proof.
  intros Hs Ho HF Hb K. unfold external. lazy [String.eqb Ascii.eqb Bool.eqb]. unfold append_builtin. apply sim_assoc.
  assert (E : match s with VBytes a => pbind (lift (bytes_of_ints [v])) (fun b => PRet (VBytes (a ++ b))) | _ => append_slice s [v] end = append_slice s [v])
    by (destruct s; try contradiction; reflexivity).
  eapply simb_eq; [exact E|]. eapply simb_append_slice_f; eauto. intros. apply K; auto. apply H2. discriminate.
Qed.
Lemma simb_append_spread_f {A' B} s t ts xs h b (f : list gv -> prog A') (m : io U B) Q :
  slice_is h s xs -> own b s -> base <= b -> b <= length h -> slice_is h t ts ->
  (forall h' s', slice_is h' s' (xs ++ ts) -> own b s' -> appended s h s' h' ->
     sim (f [s']) h' m Q) ->
  sim (pbind (external C "append" [s; t] true) f) h m Q.
Proof.
  intros Hs Ho HF Hb Ht K. unfold external. lazy [String.eqb Ascii.eqb Bool.eqb]. unfold append_builtin. apply sim_assoc.
  assert (E : match s, t with VBytes a, VBytes b | VBytes a, VStr b => PRet (VBytes (a ++ b)) | VNil, VBytes b => PRet (VBytes b)
              | _, _ => pbind (cells t) (append_slice s) end = pbind (cells t) (append_slice s)).
  { destruct s; try contradiction; destruct t; try contradiction; reflexivity. }
  eapply simb_eq; [exact E|]. apply sim_assoc. eapply simb_cells; [exact Ht|].
  eapply simb_append_slice_f; eauto.
Qed.

(** ** Fields of a struct *)

Lemma simb_set_field_f {A' B} l t fs x v (en : venv) w (f : venv -> prog A') h (m : io U B) Q : base <= l ->
  nth_error h l = Some (OStruct t fs) -> assoc x fs = Some w ->
  sim (f en) (set_nth h l (OStruct t (set_assoc x v fs))) m Q ->
  sim (pbind (store (RField (VPtr l) x) v en) f) h m Q.
Proof.
  intros HF Ho Ha K. cbn [store]. apply sim_assoc. eapply simb_load; [exact Ho|]. cbn beta iota. rewrite Ha.
  apply sim_assoc. apply simb_update; [exact HF|]. exact K.
Qed.

(** ** Maps *)

Definition map_item (l : loc) (k : bytes) : prog (gv * gv) :=
  pbind (load l) (fun o => match o with
                           | OMap es => match bassoc k es with Some x => PRet (VStr k, x) | None => PPanic end
                           | _ => PPanic
                           end).
Section Maps.
Context {A' B : Type}.
Implicit Types (h : heap) (m : io U B) (Q : A' -> heap -> B -> Prop).
Lemma simb_map_range h l es (f : list (prog (gv * gv)) -> prog A') (k' : list bytes -> io U B) Q :
  nth_error h l = Some (OMap es) ->
  (forall o, Permutation (map fst es) o -> sim (f (map (map_item l) o)) h (k' o) Q) ->
  sim (pbind (range_items (VMap l)) f) h (Pick (map fst es) k') Q.
Proof.
  intros Ho K. cbn [range_items]. apply sim_assoc. eapply simb_load; [exact Ho|]. cbn beta iota. cbn [pbind].
  apply sim_pick. intros o PM. apply (K o PM).
Qed.
Lemma simb_map_item h l es k x (f : gv * gv -> prog A') m Q :
  nth_error h l = Some (OMap es) -> bassoc k es = Some x ->
  sim (f (VStr k, x)) h m Q -> sim (pbind (map_item l k) f) h m Q.
Proof.
  intros Ho Hk K. unfold map_item. apply sim_assoc. eapply simb_load; [exact Ho|]. cbn beta iota. rewrite Hk. exact K.
Qed.
Lemma simb_index_map h l es k (f : gv * bool -> prog A') m Q :
  nth_error h l = Some (OMap es) ->
  sim (f (match bassoc k es with Some x => (x, true) | None => (VNil, false) end)) h m Q ->
  sim (pbind (index (VMap l) (VStr k)) f) h m Q.
Proof. intros Ho K. cbn [index]. apply sim_assoc. eapply simb_load; [exact Ho|]. exact K. Qed.
Lemma simb_index_slice h s xs z x (f : gv * bool -> prog A') m Q :
  slice_is h s xs -> (0 <= z)%Z -> nth_error xs (Z.to_nat z) = Some x ->
  sim (f (x, true)) h m Q -> sim (pbind (index s (VInt z)) f) h m Q.
Proof.
  intros Hs Hz Hx K. pose proof (slice_length _ _ _ Hs) as L. destruct s; try contradiction.
  - cbn [slice_is] in Hs. subst. destruct (Z.to_nat z); discriminate.
  - cbn [index]. pose proof (nth_lt _ _ _ Hx). rewrite (proj2 (Z.leb_le 0 z) Hz). rewrite (proj2 (Z.ltb_lt z (Z.of_nat n))) by lia.
    cbn [andb]. apply sim_assoc. eapply simb_cells; [exact Hs|]. rewrite Hx. exact K.
Qed.
Lemma simb_len_map h l es sp (f : list gv -> prog A') m Q :
  nth_error h l = Some (OMap es) -> sim (f [VInt (Z.of_nat (length es))]) h m Q ->
  sim (pbind (external C "len" [VMap l] sp) f) h m Q.
Proof.
  intros Ho K. unfold external. lazy [String.eqb Ascii.eqb Bool.eqb]. cbn [length_of]. apply sim_assoc. apply sim_assoc.
  eapply simb_load; [exact Ho|]. exact K.
Qed.
Lemma simb_store_map_f h l es k v (en : venv) (f : venv -> prog A') m Q : base <= l ->
  nth_error h l = Some (OMap es) ->
  sim (f en) (set_nth h l (OMap (bstore k v es))) m Q ->
  sim (pbind (store (RIndex (VMap l) (VStr k)) v en) f) h m Q.
Proof.
  intros HF Ho K. cbn [store]. apply sim_assoc. eapply simb_load; [exact Ho|]. cbn beta iota. apply sim_assoc. apply simb_update; [exact HF|]. exact K.
Qed.
Lemma simb_make_map t args h (f : gv -> prog A') m Q :
  String.eqb (substring 0 4 t) "map[" = true ->
  sim (f (VMap (length h))) (h ++ [OMap []]) m Q ->
  sim (pbind (make t args) f) h m Q.
Proof. intros E K. unfold make. rewrite E. apply sim_assoc. apply simb_alloc. exact K. Qed.

(** Counting loops. *)
Lemma simb_loop {A} (b : venv -> prog (venv + flow * venv)) s (k : flow * venv -> prog A) (f : A -> prog A') h m Q :
  sim (pbind (b s) (fun r => match r with inl s' => pbind (PLoop b s' k) f | inr x => pbind (k x) f end)) h m Q ->
  sim (pbind (PLoop b s k) f) h m Q.
Proof.
  intro K. cbn [pbind]. apply sim_loop. exact K.
Qed.
End Maps.

(** One turn of a range loop over a slice, with something left to do. *)
Lemma simb_range_cons {A' B} body v h sv pre x xs en (f : flow * venv -> prog A') (m : io U B) Q :
  slice_is h sv (pre ++ x :: xs) ->
  sim (pbind (body (if String.eqb v "_" then en else (v, x) :: en))
         (fun r => pbind (let '(fl, en2) := r in
            match fl with
            | FNext | FContinue => range_with body "_" v (slice_items sv (length (pre ++ [x])) (length xs)) (leave en en2)
            | FBreak => PRet (FNext, leave en en2)
            | FReturn vs => PRet (FReturn vs, leave en en2)
            end) f)) h m Q ->
  sim (pbind (range_with body "_" v (slice_items sv (length pre) (S (length xs))) en) f) h m Q.
Proof.
  intros Hs H. rewrite app_length, Nat.add_1_r in H. unfold slice_items in *. cbn [seq map range_with].
  apply sim_assoc. eapply simb_slice_item; [exact Hs| |].
  - rewrite nth_error_app2, Nat.sub_diag by lia. reflexivity.
  - cbn beta iota. cbn [push pbind String.eqb Ascii.eqb Bool.eqb]. apply sim_assoc. exact H.
Qed.

(** One turn of a range loop over a map. *)
Lemma sim_range_map_cons {B} body kx v h l es k x ks en (m : io U B) Q :
  nth_error h l = Some (OMap es) -> bassoc k es = Some x -> String.eqb kx "_" = false -> String.eqb v "_" = false ->
  sim (pbind (body ((v, x) :: (kx, VStr k) :: en))
         (fun '(f, en2) =>
            match f with
            | FNext | FContinue => range_with body kx v (map (map_item l) ks) (leave en en2)
            | FBreak => PRet (FNext, leave en en2)
            | FReturn vs => PRet (FReturn vs, leave en en2)
            end)) h m Q ->
  sim (range_with body kx v (map (map_item l) (k :: ks)) en) h m Q.
Proof.
  intros Ho Hk E1 E2 K. cbn [map range_with]. eapply simb_map_item; [exact Ho|exact Hk|].
  cbn beta iota. cbn [push pbind]. rewrite E1, E2. exact K.
Qed.

(** ** Type tests *)

Lemma has_type_ptr h l tag fs t : nth_error h l = Some (OStruct tag fs) -> assoc t the_ifaces = None ->
  has_type C h (VPtr l) t = if String.eqb t (String "*" tag) then Some (VPtr l) else None.
Proof. intros Ho Ht. unfold has_type. cbn [c_prog go_config source p_ifaces]. rewrite Ht. cbn [tag_of]. rewrite Ho. reflexivity. Qed.
Lemma has_iface_ptr h l tag fs t ms : nth_error h l = Some (OStruct tag fs) -> assoc t the_ifaces = Some ms ->
  has_type C h (VPtr l) t = if forallb (fun m => has_fun C (dot tag m)) ms then Some (VPtr l) else None.
Proof. intros Ho Ht. unfold has_type. cbn [c_prog go_config source p_ifaces]. rewrite Ht. cbn [tag_of]. rewrite Ho. reflexivity. Qed.

Lemma simb_assert_ok {A' B} v t r h (f : list gv -> prog A') (m : io U B) Q :
  has_type C h v t = r ->
  sim (f (match r with Some r => [r; VBool true] | None => [VNil; VBool false] end)) h m Q ->
  sim (pbind (assert_ok C v t) f) h m Q.
Proof. intros H K. unfold assert_ok. eapply simb_heap; [reflexivity|apply stays_same|]. rewrite H. destruct r; exact K. Qed.
Lemma simb_tswitch {A' B} ex en x h v d cs (f : flow * venv -> prog A') (m : io U B) Q :
  sim (pbind (tswitch_with C ex en x h v d cs) f) h m Q ->
  sim (pbind (PHeap (fun h => Some (tswitch_with C ex en x h v d cs, h))) f) h m Q.
Proof. intro K. eapply simb_heap; [reflexivity|apply stays_same|]. exact K. Qed.
Lemma simb_sub0 {A' B} s xs h b (f : gv -> prog A') (m : io U B) Q :
  slice_is h s xs -> own b s ->
  (forall s', slice_is h s' [] -> own b s' -> sim (f s') h m Q) ->
  sim (pbind (sub_slice s None (Some (VInt 0))) f) h m Q.
Proof.
  intros Hs Ho K. destruct s; try contradiction.
  - apply K; [reflexivity|exact I].
  - destruct Hs as (cs & H1 & H2 & ->). cbn [sub_slice]. apply sim_assoc. eapply simb_load; [exact H1|]. cbn beta iota.
    apply K; [|exact Ho]. exists cs. split; [auto|]. split; [cbn; lia|reflexivity].
Qed.

End Own.
(** What the code allocates lies above the floor, as the context does. *)
Ltac floored :=
  repeat match goal with
  | H : ctx_at _ _ _ _ |- _ => apply ctx_bounds in H
  | H : kept _ _ _ |- _ => apply kept_bounds in H
  end; lia.


(** The same where there is no floor. *)
Section Ground.
Context {W : UserWorld}.
Context {P : panics}.
Variable M : go_mode.
Notation C := (go_config M).
Notation sim := (sim C).
Lemma simb_append_slice {A' B} s vs xs h b (f : gv -> prog A') (m : io U B) Q :
  slice_is h s xs -> own b s -> b <= length h ->
  (forall h' s', slice_is h' s' (xs ++ vs) -> own b s' -> appended s h s' h' -> (vs <> [] -> s' <> VNil) ->
     sim (f s') h' m Q) ->
  sim (pbind (append_slice s vs) f) h m Q.
Proof. intros Hs Ho. exact (simb_append_slice_f _ _ _ _ _ _ _ _ _ Hs Ho (Nat.le_0_l _)). Qed.
Lemma simb_append {A' B} s v xs h b (f : list gv -> prog A') (m : io U B) Q :
  slice_is h s xs -> own b s -> b <= length h ->
  (forall h' s', slice_is h' s' (xs ++ [v]) -> own b s' -> appended s h s' h' -> s' <> VNil ->
     sim (f [s']) h' m Q) ->
  sim (pbind (external C "append" [s; v] false) f) h m Q.
Proof. intros Hs Ho. exact (simb_append_f _ _ _ _ _ _ _ _ _ Hs Ho (Nat.le_0_l _)). Qed.
Lemma simb_append_spread {A' B} s t ts xs h b (f : list gv -> prog A') (m : io U B) Q :
  slice_is h s xs -> own b s -> b <= length h -> slice_is h t ts ->
  (forall h' s', slice_is h' s' (xs ++ ts) -> own b s' -> appended s h s' h' ->
     sim (f [s']) h' m Q) ->
  sim (pbind (external C "append" [s; t] true) f) h m Q.
Proof. intros Hs Ho. exact (simb_append_spread_f _ _ _ _ _ _ _ _ _ _ Hs Ho (Nat.le_0_l _)). Qed.
Lemma simb_set_field {A' B} l t fs x v (en : venv) w (f : venv -> prog A') h (m : io U B) Q :
  nth_error h l = Some (OStruct t fs) -> assoc x fs = Some w ->
  sim (f en) (set_nth h l (OStruct t (set_assoc x v fs))) m Q ->
  sim (pbind (store (RField (VPtr l) x) v en) f) h m Q.
Proof. apply simb_set_field_f, Nat.le_0_l. Qed.
Lemma simb_store_map {A' B} h l es k v (en : venv) (f : venv -> prog A') (m : io U B) Q :
  nth_error h l = Some (OMap es) ->
  sim (f en) (set_nth h l (OMap (bstore k v es))) m Q ->
  sim (pbind (store (RIndex (VMap l) (VStr k)) v en) f) h m Q.
Proof. apply simb_store_map_f, Nat.le_0_l. Qed.
End Ground.
