(** Building reads and changes only what it can reach. *)
From Coq Require Import Strings.String Strings.Ascii NArith ZArith List Bool Lia.
From Verif Require Import GoStr GoNum Syntax Value Util Model Sqlf Sqlb Spec_syntax Spec_eval Fuel_proofs Spec_query Deps_proofs Query_proofs Rel_proofs Use_proofs Spec_frame.
Import ListNotations.
Open Scope string_scope.

Lemma nth_error_upd : forall A (l : list A) i j x, nth_error (upd i x l) j = if (j =? i)%nat && (j <? List.length l)%nat then Some x else nth_error l j.
Proof.
  intros A. induction l as [|y l IH]; intros i j x.
  - destruct i, j; cbn; try reflexivity. destruct (_ =? _)%nat; reflexivity.
  - destruct i, j; cbn; try reflexivity. rewrite IH. reflexivity.
Qed.

Lemma inside_builtins : forall R, inside_env R [builtins].
Proof. intros R. apply Forall_cons; [|apply Forall_nil]. repeat (apply Forall_cons; [constructor|]). apply Forall_nil. Qed.

Section Frame.
Variable R : nat -> Prop.
Variables h1 h2 : list qb.

Record Q (s t : store) : Prop := {
  Qdollar : st_dollar s = st_dollar t;
  Qargs : st_args s = st_args t;
  Qdict : st_dict s = st_dict t;
  Qagree : agree R (st_heap s) (st_heap t);
  Qclosed : closed R (st_heap s);
  Qleft : untouched R h1 (st_heap s);
  Qright : untouched R h2 (st_heap t) }.

Lemma Qcommit : forall v s t, Q s t -> rel Q (commit v s) (commit v t).
Proof.
  intros v s t H. pose proof H as [H1 H2 H3 H4 H5 H6 H7]. unfold commit. rewrite H1, H2, H3. destruct (st_dollar t) eqn:D.
  - destruct (hashable v); [|split; [reflexivity|exact H]]. destruct (dict_find v (st_dict t)); [split; [reflexivity|exact H]|].
    split; [reflexivity|]. constructor; cbn; auto.
  - split; [reflexivity|]. constructor; cbn; auto.
Qed.
Lemma Qfresh : forall z s t, Q s t -> Q (new_store z (st_heap s)) (new_store z (st_heap t)).
Proof. intros z s t [H1 H2 H3 H4 H5 H6 H7]. constructor; cbn; auto. Qed.
Lemma Qback : forall s t s' t', Q s t -> Q s' t' -> Q (set_heap s (st_heap s')) (set_heap t (st_heap t')).
Proof. intros s t s' t' [H1 H2 H3 H4 H5 H6 H7] [K1 K2 K3 K4 K5 K6 K7]. constructor; cbn; auto. Qed.
Lemma inside_new : inside_qb R new_qb.
Proof. constructor; try apply Forall_nil; cbn; apply Forall_nil. Qed.
Lemma Qget : forall s t id, R id -> Q s t -> get_q s id = get_q t id /\ inside_qb R (get_q s id).
Proof.
  intros s t id Hi H. pose proof (Qagree s t H id Hi) as E. pose proof (Qclosed s t H id) as C. unfold get_q.
  destruct (nth_error (st_heap s) id) as [q|] eqn:G; symmetry in E.
  - rewrite (nth_error_nth _ _ new_qb G), (nth_error_nth _ _ new_qb E). split; [reflexivity|]. apply C; [exact Hi|reflexivity].
  - apply nth_error_None in G, E. rewrite !nth_overflow by assumption. split; [reflexivity|exact inside_new].
Qed.
Lemma Qset : forall s t id q, R id -> inside_qb R q -> Q s t -> Q (set_q s id q) (set_q t id q).
Proof.
  assert (L : forall h (h' : list qb) id (q : qb), R id -> untouched R h h' -> untouched R h (upd id q h')).
  { intros h h' id q Hi [L U]. split; [rewrite upd_len; exact L|]. intros j Hj. rewrite (U j Hj), nth_error_upd.
    destruct (Nat.eqb_spec j id) as [->|]; [contradiction|reflexivity]. }
  intros s t id q Hi Hq [H1 H2 H3 H4 H5 H6 H7]. unfold set_q. constructor; cbn [st_dollar st_args st_dict st_heap set_heap]; auto.
  - intros j Hj. rewrite !nth_error_upd. pose proof (H4 j Hj) as E. destruct (Nat.eqb_spec j id) as [->|]; [|exact E]. cbn [andb].
    destruct (Nat.ltb_spec id (List.length (st_heap s))) as [A|A], (Nat.ltb_spec id (List.length (st_heap t))) as [B|B]; try reflexivity; try exact E; exfalso.
    + apply nth_error_None in B. rewrite B in E. apply nth_error_None in E. lia.
    + apply nth_error_None in A. rewrite A in E. symmetry in E. apply nth_error_None in E. lia.
  - intros j p Hj. rewrite nth_error_upd. destruct (_ && _); [intros [= <-]; exact Hq|apply H5; exact Hj].
Qed.

Notation iin := (inside R).
Notation ienv := (inside_env R).

Definition QF (X Y : fstate) : Prop := Q (fs_st X) (fs_st Y) /\ fs_ua X = fs_ua Y /\ fs_uf X = fs_uf Y.
Definition iframe (fc : frame) : Prop := Forall iin (fr_frags fc).
Lemma nth1_in : forall A (l : list A) i x, nth1 l i = Some x -> In x l.
Proof. intros A l i x H. unfold nth1 in H. destruct (_ && _) in H; [|discriminate]. apply nth_error_In in H. exact H. Qed.
Lemma lookup_in : forall e name f, ienv e -> lookup_fn e name = Some f -> inside_func R f.
Proof.
  assert (A : forall l name f, Forall (fun x => inside_func R (snd x)) l -> assoc name l = Some f -> inside_func R f).
  { induction l as [|[n g] l IH]; cbn; intros name f H E; [discriminate|]. inversion H as [|? ? H1 H2]; subst.
    destruct (String.eqb _ _); [injection E as <-; exact H1|]. eapply IH; eassumption. }
  induction e as [|l e IH]; intros name f H E; cbn in E; [discriminate|]. inversion H as [|? ? H1 H2]; subst.
  destruct (assoc name l) eqn:G; [injection E as <-; eapply A; eassumption|]. eapply IH; eassumption.
Qed.

Section Rec.
Variable rb : env -> builder -> store -> outcome string * store.
Hypothesis Hrb : forall e b s t, ienv e -> iin b -> Q s t -> rel Q (rb e b s) (rb e b t).

Lemma fr_prog : forall p e s t, ienv e -> inside_prog R p -> Q s t -> rel Q (run_prog rb e p s) (run_prog rb e p t).
Proof.
  fix IH 1. intros p e s t He Hp H. destruct p as [r [er|]|er|v k|k|fs b k|p k|z p k]; cbn [run_prog]; try (split; [reflexivity|exact H]).
  - inversion Hp as [| |? ? Hk| | | |]; subst. destruct (Qcommit v s t H) as [E1 E2]. destruct (commit v s) as [o s'], (commit v t) as [o' t']. cbn [fst snd] in *. subst o'.
    destruct o as [x|er|er|]; try (split; [reflexivity|exact E2]). apply IH; [exact He|apply Hk|exact E2].
  - inversion Hp as [| | |? Hk| | |]; subst. rewrite (Qargs s t H). apply IH; [exact He|apply Hk|exact H].
  - inversion Hp as [| | | |? ? ? Hf Hb Hk| |]; subst. destruct (check_funcs fs); [apply IH; [exact He|apply Hk|exact H]|].
    assert (He' : ienv (match fs with [] => e | _ => fs :: e end)) by (destruct fs; [exact He|apply Forall_cons; assumption]).
    destruct (Hrb _ b s t He' Hb H) as [E1 E2].
    destruct (rb _ b s) as [o s'], (rb _ b t) as [o' t']. cbn [fst snd] in *. subst o'.
    destruct o as [x|er|er|]; try (apply IH; [exact He|apply Hk|exact E2]). split; [reflexivity|exact E2].
  - inversion Hp as [| | | | |? ? Hq Hk|]; subst. destruct (IH p e s t He Hq H) as [E1 E2]. destruct (run_prog rb e p s) as [o s'], (run_prog rb e p t) as [o' t']. cbn [fst snd] in *. subst o'.
    destruct o as [x|er|er|]; try (apply IH; [exact He|apply Hk|exact E2]). split; [reflexivity|exact E2].
  - inversion Hp as [| | | | | |? ? ? Hq Hk]; subst. destruct (IH p [builtins] _ _ (inside_builtins R) Hq (Qfresh z s t H)) as [E1 E2].
    destruct (run_prog rb _ p (new_store z (st_heap s))) as [o s'], (run_prog rb _ p (new_store z (st_heap t))) as [o' t']. cbn [fst snd] in *. subst o'.
    pose proof (Qback s t s' t' H E2) as K. rewrite (Qargs s' t' E2). destruct o as [x|er|er|]; try (apply IH; [exact He|apply Hk|exact K]). split; [reflexivity|exact K].
Qed.

Variable rc : env -> frame -> list expr -> fstate -> outcome string * fstate.
Hypothesis Hrc : forall e fc es X Y, ienv e -> iframe fc -> QF X Y -> rel QF (rc e fc es X) (rc e fc es Y).
Variable jf : nat.

Lemma fr_arg : forall fc i X Y, QF X Y -> rel QF (func_arg fc i X) (func_arg fc i Y).
Proof.
  intros fc i X Y H. unfold func_arg. destruct (nth1 _ _) as [v|]; [|split; [reflexivity|exact H]].
  destruct H as (H1 & H2 & H3). destruct (Qcommit v _ _ H1) as [E1 E2].
  destruct (commit v (fs_st X)) as [o s'], (commit v (fs_st Y)) as [o' t']. cbn [fst snd] in *. subst o'.
  split; [reflexivity|]. cbn. rewrite H2, H3. split; [exact E2|split; reflexivity].
Qed.
Lemma fr_fragment : forall e fc i X Y, ienv e -> iframe fc -> QF X Y -> rel QF (func_fragment rb e fc i X) (func_fragment rb e fc i Y).
Proof.
  intros e fc i X Y He Hc H. unfold func_fragment. destruct (nth1 _ _) as [b|] eqn:N; [|split; [reflexivity|exact H]].
  apply nth1_in in N. pose proof (proj1 (Forall_forall _ _) Hc b N) as Hb.
  destruct H as (H1 & H2 & H3). destruct (Hrb e b _ _ He Hb H1) as [E1 E2].
  destruct (rb e b (fs_st X)) as [o s'], (rb e b (fs_st Y)) as [o' t']. cbn [fst snd] in *. subst o'.
  split; [reflexivity|]. cbn. rewrite H2, H3. split; [exact E2|split; reflexivity].
Qed.
Lemma fr_compat : forall name f s t, inside_func R f -> Q s t ->
  fst (join_compat rb name f s) = fst (join_compat rb name f t) /\ Q (snd (join_compat rb name f s)) (snd (join_compat rb name f t)).
Proof.
  intros name f s t Hf H. unfold join_compat. destruct (negb _); [split; [reflexivity|exact H]|].
  destruct f as [| | |sg body]; try (split; [reflexivity|exact H]). inversion Hf as [| | |? ? Hb]; subst.
  assert (He : ienv [[]]) by (apply Forall_cons; apply Forall_nil).
  destruct (fr_prog (body [LInt 0]) [[]] _ _ He (Hb _) (Qfresh style_question s t H)) as [E1 E2].
  destruct (run_prog rb _ _ (new_store _ (st_heap s))) as [o s'], (run_prog rb _ _ (new_store _ (st_heap t))) as [o' t']. cbn [fst snd] in E1, E2. subst o'.
  pose proof (Qback s t s' t' H E2) as K. destruct (fst (safe _ _)); (split; [reflexivity|exact K]).
Qed.
Lemma fr_prep : forall e es s t, ienv e -> Q s t -> rel Q (join_prep rb e es s) (join_prep rb e es t).
Proof.
  intros e es s t He. revert s t. induction es as [|x es IH]; intros s t H; [split; [reflexivity|exact H]|].
  destruct x as [r p|a i p|name args p|name p]; cbn [join_prep]; try (apply IH; exact H).
  destruct (lookup_fn e name) as [f|] eqn:L; [|split; [reflexivity|exact H]].
  destruct (fr_compat name f s t (lookup_in _ _ _ He L) H) as [E1 E2]. destruct (join_compat rb name f s) as [[c z] s'], (join_compat rb name f t) as [[c' z'] t'].
  cbn [fst snd] in *. injection E1 as <- <-. destruct c; [|destruct z; (split; [reflexivity|exact E2])].
  destruct (IH s' t' E2) as [F1 F2]. destruct (join_prep rb e es s') as [o s2], (join_prep rb e es t') as [o' t2]. cbn [fst snd] in *. subst o'.
  destruct o; (split; [reflexivity|exact F2]).
Qed.
Lemma fr_loop : forall n e fc es sep from to i acc X Y, ienv e -> iframe fc -> QF X Y ->
  rel QF (join_loop rc n e fc es sep from to i acc X) (join_loop rc n e fc es sep from to i acc Y).
Proof.
  induction n as [|n IH]; intros e fc es sep from to i acc X Y He Hc H; [split; [reflexivity|exact H]|]. cbn [join_loop].
  destruct (Hrc e fc (set_index i es) X Y He Hc H) as [E1 E2]. destruct (rc e fc (set_index i es) X) as [o X'], (rc e fc (set_index i es) Y) as [o' Y']. cbn [fst snd] in *. subst o'.
  destruct o as [r|er|er|]; try (split; [reflexivity|exact E2]).
  - destruct (_ && _); [split; [reflexivity|exact E2]|]. apply IH; assumption.
  - destruct (is_invalid_index er); [destruct (_ || _)|]; (split; [reflexivity|exact E2]).
Qed.
Lemma fr_join : forall e fc tmpl sep idx X Y, ienv e -> iframe fc -> QF X Y -> rel QF (func_join rb rc jf e fc tmpl sep idx X) (func_join rb rc jf e fc tmpl sep idx Y).
Proof.
  intros e fc tmpl sep idx X Y He Hc H. unfold func_join.
  destruct idx as [|a [|b [|c idx]]]; try (split; [reflexivity|exact H]).
  all: destruct (_ && _); [split; [reflexivity|exact H]|]; destruct (parse tmpl) as [es|p m| |]; try (split; [reflexivity|exact H]);
    destruct H as (H1 & H2 & H3); destruct (fr_prep e es _ _ He H1) as [E1 E2];
    destruct (join_prep rb e es (fs_st X)) as [o s'], (join_prep rb e es (fs_st Y)) as [o' t']; cbn [fst snd] in E1, E2; subst o';
    assert (K : QF (mkFS s' (fs_ua X) (fs_uf X)) (mkFS t' (fs_ua Y) (fs_uf Y))) by (split; [exact E2|split; assumption]);
    destruct o as [[|k]|er|er|]; try (split; [reflexivity|exact K]); apply fr_loop; assumption.
Qed.
Lemma fr_call : forall e fc f args X Y, ienv e -> iframe fc -> inside_func R f -> QF X Y -> rel QF (call_fn rb rc jf e fc f args X) (call_fn rb rc jf e fc f args Y).
Proof.
  intros e fc f args X Y He Hc Hf H. destruct f as [| | |sg body]; cbn [call_fn].
  - apply fr_arg. exact H.
  - apply fr_fragment; assumption.
  - destruct args as [|[] [|[] idx]]; try (split; [reflexivity|exact H]). apply fr_join; assumption.
  - inversion Hf as [| | |? ? Hb]; subst. destruct H as (H1 & H2 & H3). destruct (fr_prog (body args) e _ _ He (Hb _) H1) as [E1 E2].
    destruct (run_prog rb e _ (fs_st X)) as [o s'], (run_prog rb e _ (fs_st Y)) as [o' t']. cbn [fst snd] in *. subst o'.
    split; [reflexivity|]. split; [exact E2|split; assumption].
Qed.
Lemma fr_expr : forall e fc x X Y, ienv e -> iframe fc -> QF X Y -> rel QF (eval_expr rb rc jf e fc x X) (eval_expr rb rc jf e fc x Y).
Proof.
  intros e fc x X Y He Hc H. destruct x as [t p|a i p|name args p|name p]; cbn [eval_expr]; try (split; [reflexivity|exact H]).
  - destruct (nth1 _ _); [apply fr_arg; exact H|split; [reflexivity|exact H]].
  - unfold eval_function. destruct (lookup_fn e name) as [f|] eqn:L; [|split; [reflexivity|exact H]]. unfold eval_call.
    destruct (arity_ok _ _); [|split; [reflexivity|exact H]]. destruct (eval_args _ _); try (split; [reflexivity|exact H]).
    destruct (any_rejected _ _); apply rel_safe; [split; [reflexivity|exact H]|]. apply fr_call; try assumption. eapply lookup_in; eassumption.
Qed.
Lemma fr_clause : forall e fc es X Y, ienv e -> iframe fc -> QF X Y -> rel QF (clause rb rc jf e fc es X) (clause rb rc jf e fc es Y).
Proof.
  intros e fc es X Y He Hc. revert X Y. induction es as [|x es IH]; intros X Y H; cbn [clause]; [split; [reflexivity|exact H]|].
  destruct (fr_expr e fc x X Y He Hc H) as [E1 E2]. destruct (eval_expr rb rc jf e fc x X) as [o X'], (eval_expr rb rc jf e fc x Y) as [o' Y']. cbn [fst snd] in *. subst o'.
  destruct o as [r|er|er|]; try (split; [reflexivity|exact E2]).
  destruct (IH X' Y' E2) as [F1 F2]. destruct (clause rb rc jf e fc es X') as [o X2], (clause rb rc jf e fc es Y') as [o' Y2]. cbn [fst snd] in *. subst o'.
  destruct o; (split; [reflexivity|exact F2]).
Qed.
End Rec.

Lemma fr_clause_n : forall rb, (forall e b s t, ienv e -> iin b -> Q s t -> rel Q (rb e b s) (rb e b t)) ->
  forall n e fc es X Y, ienv e -> iframe fc -> QF X Y -> rel QF (clause_n n rb e fc es X) (clause_n n rb e fc es Y).
Proof.
  intros rb Hrb. induction n as [|n IH]; intros e fc es X Y He Hc H; [split; [reflexivity|exact H]|]. cbn [clause_n].
  apply fr_clause; assumption.
Qed.
Lemma fr_frag : forall rb, (forall e b s t, ienv e -> iin b -> Q s t -> rel Q (rb e b s) (rb e b t)) ->
  forall n e f s t, ienv e -> inside_frag R f -> Q s t -> rel Q (build_frag n rb e f s) (build_frag n rb e f t).
Proof.
  intros rb Hrb n e f s t He Hf H. unfold build_frag. destruct (parse (f_raw f)) as [es|p m| |]; try (split; [reflexivity|exact H]).
  match goal with |- context [clause_n n rb e ?fc es (mkFS s ?u ?v)] =>
    destruct (fr_clause_n rb Hrb n e fc es (mkFS s u v) (mkFS t u v) He Hf) as [E1 (E2 & E3 & E4)]; [split; [exact H|split; reflexivity]|];
    destruct (clause_n n rb e fc es (mkFS s u v)) as [o X'], (clause_n n rb e fc es (mkFS t u v)) as [o' Y'] end.
  cbn [fst snd] in *. subst o'. destruct o as [r|er|er|]; try (split; [reflexivity|exact E2]).
  rewrite E3, E4. destruct (_ && _); [|split; [reflexivity|exact E2]]. cbn zeta. destruct (is_empty _); (split; [reflexivity|exact E2]).
Qed.

Section Parts.
Variable rb : builder -> store -> outcome string * store.
Hypothesis Hrb : forall b s t, iin b -> Q s t -> rel Q (rb b s) (rb b t).

Lemma fr_ctes : forall cs d s t, Forall (fun c => iin (c_builder c)) cs -> Q s t -> rel Q (build_ctes rb cs d s) (build_ctes rb cs d t).
Proof.
  assert (L : forall cs d s t, Forall (fun c => iin (c_builder c)) cs -> Q s t -> rel Q (build_ctes_loop rb cs d s) (build_ctes_loop rb cs d t)).
  { induction cs as [|c cs IH]; intros d s t Hl H; cbn [build_ctes_loop]; [split; [reflexivity|exact H]|].
    inversion Hl as [|? ? Hc Hl']; subst.
    destruct (dep_mem _ _); [|apply IH; assumption]. destruct (Hrb (c_builder c) s t Hc H) as [E1 E2].
    destruct (rb (c_builder c) s) as [o s'], (rb (c_builder c) t) as [o' t']. cbn [fst snd] in *. subst o'.
    destruct o as [r|er|er|]; try (split; [reflexivity|exact E2]). destruct (IH d s' t' Hl' E2) as [F1 F2].
    destruct (build_ctes_loop rb cs d s') as [o s2], (build_ctes_loop rb cs d t') as [o' t2]. cbn [fst snd] in *. subst o'.
    destruct o; (split; [reflexivity|exact F2]). }
  intros cs d s t Hl H. unfold build_ctes. destruct (L cs d s t Hl H) as [E1 E2].
  destruct (build_ctes_loop rb cs d s) as [o s'], (build_ctes_loop rb cs d t) as [o' t']. cbn [fst snd] in *. subst o'.
  destruct o as [[|]|er|er|]; (split; [reflexivity|exact E2]).
Qed.
Lemma fr_from_loop : forall di fts d s t, Forall (fun x => match ft_frag x with Some f => inside_frag R f | None => True end) fts ->
  Q s t -> rel Q (build_from_loop rb di fts d s) (build_from_loop rb di fts d t).
Proof.
  intros di. induction fts as [|ft fts IH]; intros d s t Hl H; cbn [build_from_loop]; [split; [reflexivity|exact H]|].
  inversion Hl as [|? ? Hc Hl']; subst.
  destruct (_ && _); [apply IH; assumption|].
  assert (rel Q (build_ofrag rb (ft_frag ft) s) (build_ofrag rb (ft_frag ft) t)) as [E1 E2].
  { unfold build_ofrag. destruct (ft_frag ft); apply Hrb; try exact H; constructor. exact Hc. }
  destruct (build_ofrag rb (ft_frag ft) s) as [o s'], (build_ofrag rb (ft_frag ft) t) as [o' t']. cbn [fst snd] in *. subst o'.
  destruct o as [r|er|er|]; try (split; [reflexivity|exact E2]). destruct (IH d s' t' Hl' E2) as [F1 F2].
  destruct (build_from_loop rb di fts d s') as [o s2], (build_from_loop rb di fts d t') as [o' t2]. cbn [fst snd] in *. subst o'.
  destruct o; (split; [reflexivity|exact F2]).
Qed.
Lemma fr_union : forall bs s t, Forall iin bs -> Q s t -> rel Q (build_union rb bs s) (build_union rb bs t).
Proof.
  assert (L : forall bs s t, Forall iin bs -> Q s t -> rel Q (build_union_loop rb bs s) (build_union_loop rb bs t)).
  { induction bs as [|b bs IH]; intros s t Hl H; cbn [build_union_loop]; [split; [reflexivity|exact H]|].
    inversion Hl as [|? ? Hc Hl']; subst. destruct (Hrb b s t Hc H) as [E1 E2].
    destruct (rb b s) as [o s'], (rb b t) as [o' t']. cbn [fst snd] in *. subst o'.
    destruct o as [r|er|er|]; try (split; [reflexivity|exact E2]). destruct (IH s' t' Hl' E2) as [F1 F2].
    destruct (build_union_loop rb bs s') as [o s2], (build_union_loop rb bs t') as [o' t2]. cbn [fst snd] in *. subst o'.
    destruct o; (split; [reflexivity|exact F2]). }
  intros bs s t Hl H. unfold build_union. destruct (L bs s t Hl H) as [E1 E2].
  destruct (build_union_loop rb bs s) as [o s'], (build_union_loop rb bs t) as [o' t']. cbn [fst snd] in *. subst o'.
  destruct o; (split; [reflexivity|exact E2]).
Qed.
Lemma valid_in : forall os i x, In x (valid_orders i os) -> exists o, In o os /\ fst o = snd (fst x).
Proof.
  induction os as [|[b o] os IH]; intros i x H; cbn in H; [contradiction|].
  destruct (order_word o).
  - destruct H as [<-|H]; [exists (b, o); split; [left; reflexivity|reflexivity]|]. destruct (IH _ _ H) as [y [Y1 Y2]]. exists y. split; [right; exact Y1|exact Y2].
  - destruct (IH _ _ H) as [y [Y1 Y2]]. exists y. split; [right; exact Y1|exact Y2].
Qed.
Lemma inside_orders : forall q, inside_qb R q -> inside_qb R (with_orders q) /\ Forall iin (order_items q).
Proof.
  intros q [C1 C2 C3 C4 C5 C6 C7 C8].
  assert (V : forall x, In x (valid_orders 1 (q_orders q)) -> iin (snd (fst x))).
  { intros x Hx. destruct (valid_in _ _ _ Hx) as [o [O1 <-]]. rewrite Forall_forall in C7. apply C7. exact O1. }
  split.
  - constructor; try assumption. unfold with_orders. cbn [set_errors set_touches q_touches]. unfold inside_frag, append_frags, with_frags. cbn [f_frags].
    apply Forall_app. split; [exact C4|]. unfold hidden_columns. destruct (q_distinct q); [|apply Forall_nil].
    apply Forall_forall. intros b Hb. apply in_map_iff in Hb as [[[i c] w] [<- Hx]]. apply in_frag. cbn. apply Forall_cons; [exact (V _ Hx)|apply Forall_nil].
  - unfold order_items. apply Forall_forall. intros b Hb. apply in_map_iff in Hb as [[[i c] w] [<- Hx]].
    destruct (q_distinct q); apply in_frag; cbn; [apply Forall_nil|apply Forall_cons; [exact (V _ Hx)|apply Forall_nil]].
Qed.
Lemma fr_orders : forall id s t, R id -> Q s t -> rel Q (build_orders rb id s) (build_orders rb id t).
Proof.
  intros id s t Hi H. destruct (Qget s t id Hi H) as [G C]. unfold build_orders. rewrite <- G, orders_spec.
  destruct (inside_orders _ C) as [C1 C2]. apply Hrb; [apply in_frag; exact C2|]. apply Qset; assumption.
Qed.
Lemma fr_selects : forall id s t, R id -> Q s t -> rel Q (build_selects rb id s) (build_selects rb id t).
Proof.
  intros id s t Hi H. destruct (Qget s t id Hi H) as [G C]. unfold build_selects. rewrite <- G.
  set (sel := with_prefix _ _). assert (K : Q (set_q s id (set_selects (get_q s id) sel)) (set_q t id (set_selects (get_q s id) sel))).
  { apply Qset; try assumption. destruct C as [C1 C2 C3 C4 C5 C6 C7 C8]. constructor; assumption. }
  assert (Hs : iin (BFrag sel)) by (apply in_frag; exact (iq_selects _ _ C)).
  destruct (Hrb (BFrag sel) _ _ Hs K) as [E1 E2]. destruct (rb _ (set_q s id _)) as [o s6], (rb _ (set_q t id _)) as [o' t6]. cbn [fst snd] in *. subst o'.
  destruct o as [r|er|er|]; try (split; [reflexivity|exact E2]).
  destruct (Qget s6 t6 id Hi E2) as [G6 C6]. rewrite <- G6.
  assert (Ht : iin (BFrag (q_touches (get_q s6 id)))) by (apply in_frag; exact (iq_touches _ _ C6)).
  destruct (Hrb (BFrag (q_touches (get_q s6 id))) _ _ Ht E2) as [D1 D2].
  destruct (rb _ s6) as [o s7], (rb _ t6) as [o' t7]. cbn [fst snd] in *. subst o'. destruct o as [r2|er|er|]; try (split; [reflexivity|exact D2]).
  destruct (is_empty r); [split; [reflexivity|exact D2]|]. destruct (is_empty r2); (split; [reflexivity|exact D2]).
Qed.
Lemma fr_internal : forall id s t, R id -> Q s t -> rel Q (build_internal rb id s) (build_internal rb id t).
Proof.
  intros id s t Hi H. unfold build_internal. destruct (Qget s t id Hi H) as [G C]. rewrite <- G.
  destruct (q_errors (get_q s id)); [|split; [reflexivity|exact H]]. destruct (collect_deps (get_q s id)) as [d|er|er|]; try (split; [reflexivity|exact H]).
  apply rel_bind; [apply fr_ctes; [exact (iq_ctes _ _ C)|exact H]|]. clear H G C s t. intros sq s t H. destruct (Qget s t id Hi H) as [G C]. rewrite <- G.
  apply rel_bind.
  { unfold build_from. assert (Hl : Forall (fun x => match ft_frag x with Some f => inside_frag R f | None => True end) (from_tables (get_q s id))).
    { apply Forall_forall. intros ft Hin. unfold from_tables in Hin. apply in_map_iff in Hin as [j [<- _]].
      destruct (nth_in_or_default j (q_tobjs (get_q s id)) (mkFT ("", "") None false)) as [Hj| ->]; [|exact Logic.I].
      pose proof (iq_tables _ _ C) as T. rewrite Forall_forall in T. apply T. exact Hj. }
    destruct (fr_from_loop (q_distinct (get_q s id)) _ d s t Hl H) as [E1 E2].
    destruct (build_from_loop rb _ _ d s) as [o s2], (build_from_loop rb _ _ d t) as [o' t2]. cbn [fst snd] in *. subst o'. destruct o; (split; [reflexivity|exact E2]). }
  clear H G C s t. intros fr s t H. destruct (Qget s t id Hi H) as [G C]. rewrite <- G.
  apply rel_bind; [apply Hrb; [apply in_frag; exact (iq_conds _ _ C)|exact H]|]. clear H G C s t. intros wh s t H. destruct (Qget s t id Hi H) as [G C]. rewrite <- G.
  apply rel_bind; [apply Hrb; [apply in_frag; exact (iq_groups _ _ C)|exact H]|]. clear H G C s t. intros gr s t H.
  apply rel_bind; [apply fr_orders; assumption|]. clear H s t. intros ord s t H. cbn zeta. destruct (Qget s t id Hi H) as [G C]. rewrite <- G.
  generalize (get_q s id). clear G C. intros q0.
  apply rel_bind; [apply fr_selects; assumption|]. clear H s t. intros sel s t H. destruct (Qget s t id Hi H) as [G C]. rewrite <- G.
  apply rel_bind.
  { pose proof (iq_unions _ _ C) as U. destruct (q_unions (get_q s id)); [split; [reflexivity|exact H]|]. apply rel_bind; [apply fr_union; assumption|].
    intros r s8 t8 K. split; [reflexivity|exact K]. }
  clear H G C s t. intros r s t H. destruct (Qget s t id Hi H) as [G C]. rewrite <- G, (Qargs s t H). destruct (q_debug (get_q s id)); [|split; [reflexivity|exact H]].
  destruct (interpolate _ _ _); (split; [reflexivity|exact H]).
Qed.
End Parts.

Theorem fr_build : forall n e b s t, ienv e -> iin b -> Q s t -> rel Q (build n e b s) (build n e b t).
Proof.
  induction n as [|n IH]; intros e b s t He Hb H; [split; [reflexivity|exact H]|].
  destruct b as [| |f| |[f|] tb|tb|x a|[id|]|p]; cbn [build]; try (split; [reflexivity|exact H]); inversion Hb; subst.
  - apply fr_frag; assumption.
  - apply fr_frag; assumption.
  - apply fr_internal; [intros; apply IH; assumption|assumption|exact H].
  - apply fr_prog; [exact IH|assumption|assumption|exact H].
Qed.
End Frame.

Lemma untouched_refl : forall R h, untouched R h h.
Proof. intros R h. split; [reflexivity|]. intros id _. reflexivity. Qed.
Theorem frame : forall R n style h h' b, closed R h -> agree R h h' -> inside R b ->
  fst (build_query n style h b) = fst (build_query n style h' b) /\
  untouched R h (snd (build_query n style h b)) /\ closed R (snd (build_query n style h b)) /\
  agree R (snd (build_query n style h b)) (snd (build_query n style h' b)).
Proof.
  intros R n style h h' b Hc Ha Hb. unfold build_query.
  assert (K : Q R h h' (new_store style h) (new_store style h')).
  { constructor; try reflexivity; cbn; try assumption; apply untouched_refl. }
  destruct (fr_build R h h' n [builtins] b _ _ (inside_builtins R) Hb K) as [E1 E2].
  destruct (build n [builtins] b (new_store style h)) as [o s], (build n [builtins] b (new_store style h')) as [o' t]. cbn [fst snd] in *. subst o'.
  destruct E2 as [K1 K2 K3 K4 K5 K6 K7]. rewrite K2. exact (conj eq_refl (conj K6 (conj K5 K4))).
Qed.
Lemma nth_error_ext : forall A (l l' : list A), (forall i, nth_error l i = nth_error l' i) -> l = l'.
Proof.
  intros A. induction l as [|x l IH]; intros [|y l'] H; [reflexivity|discriminate (H 0)|discriminate (H 0)|].
  pose proof (H 0) as E. injection E as <-. f_equal. apply IH. intros i. exact (H (S i)).
Qed.
Lemma untouched_agree : forall (R R' : nat -> Prop) h h', (forall id, R id -> R' id -> False) -> untouched R h h' -> agree R' h h'.
Proof. intros R R' h h' D [_ U] id Hi. apply U. intros Hj. exact (D id Hj Hi). Qed.
Lemma agree_closed : forall R h h', agree R h h' -> closed R h -> closed R h'.
Proof. intros R h h' A C id q Hi Hq. apply (C id q Hi). rewrite (A id Hi). exact Hq. Qed.
Lemma agree_sym : forall R h h', agree R h h' -> agree R h' h.
Proof. intros R h h' A id Hi. symmetry. apply A. exact Hi. Qed.
Lemma untouched_trans : forall R h h' h'', untouched R h h' -> untouched R h' h'' -> untouched R h h''.
Proof. intros R h h' h'' [L1 U1] [L2 U2]. split; [congruence|]. intros id Hi. rewrite (U1 id Hi). apply U2. exact Hi. Qed.
Theorem after_untouched : forall R n l h, closed R h -> Forall (fun x => inside R (snd x)) l -> untouched R h (after n h l) /\ closed R (after n h l).
Proof.
  intros R n. unfold after. induction l as [|[z b] l IH]; intros h C Hl; cbn [fold_left]; [split; [apply untouched_refl|exact C]|].
  inversion Hl as [|? ? Hb Hl']; subst. cbn [fst snd] in *.
  destruct (frame R n z h h b C (fun _ _ => eq_refl) Hb) as (_ & U & C' & _). destruct (IH _ C' Hl') as [U' C''].
  split; [|exact C'']. eapply untouched_trans; eassumption.
Qed.
Theorem others : forall (R R' : nat -> Prop) n m style h b l, (forall id, R id -> R' id -> False) -> closed R h -> closed R' h ->
  inside R b -> Forall (fun x => inside R' (snd x)) l ->
  fst (build_query n style (after m h l) b) = fst (build_query n style h b).
Proof.
  intros R R' n m style h b l D C C' Hb Hl. destruct (after_untouched R' m l h C' Hl) as [U _].
  assert (A : agree R h (after m h l)) by (apply (untouched_agree R' R); [intros id X Y; exact (D id Y X)|exact U]).
  symmetry. exact (proj1 (frame R n style h (after m h l) b C A Hb)).
Qed.
Theorem order_free : forall (R R' : nat -> Prop) n m z z' h b b', (forall id, R id \/ ~ R id) -> (forall id, R' id \/ ~ R' id) ->
  (forall id, R id -> R' id -> False) -> closed R h -> closed R' h -> inside R b -> inside R' b' ->
  snd (build_query m z' (snd (build_query n z h b)) b') = snd (build_query n z (snd (build_query m z' h b')) b).
Proof.
  intros R R' n m z z' h b b' DR DR' D C C' Hb Hb'.
  destruct (frame R n z h h b C (fun _ _ => eq_refl) Hb) as (_ & U1 & C1 & _).
  destruct (frame R' m z' h h b' C' (fun _ _ => eq_refl) Hb') as (_ & U2 & C2 & _).
  assert (A1 : agree R' h (snd (build_query n z h b))) by (apply (untouched_agree R R'); assumption).
  assert (A2 : agree R h (snd (build_query m z' h b'))) by (apply (untouched_agree R' R); [intros id X Y; exact (D id Y X)|assumption]).
  destruct (frame R n z h (snd (build_query m z' h b')) b C A2 Hb) as (_ & _ & _ & F1).
  destruct (frame R' m z' h (snd (build_query n z h b)) b' C' A1 Hb') as (_ & _ & _ & F2).
  pose proof (agree_closed _ _ _ A1 C') as C3. pose proof (agree_closed _ _ _ A2 C) as C4.
  destruct (frame R' m z' _ _ b' C3 (fun _ _ => eq_refl) Hb') as (_ & U3 & _).
  destruct (frame R n z _ _ b C4 (fun _ _ => eq_refl) Hb) as (_ & U4 & _).
  apply nth_error_ext. intros i. destruct (DR i) as [Hi|Hi].
  - assert (N : ~ R' i) by (intros Hj; exact (D i Hi Hj)). rewrite <- (proj2 U3 i N). exact (F1 i Hi).
  - rewrite <- (proj2 U4 i Hi). destruct (DR' i) as [Hj|Hj]; [symmetry; exact (F2 i Hj)|].
    rewrite <- (proj2 U3 i Hj), <- (proj2 U1 i Hi). exact (proj2 U2 i Hj).
Qed.
Lemma closed_none : forall h, closed none h.
Proof. intros h id q []. Qed.
Lemma agree_none : forall h h', agree none h h'.
Proof. intros h h' id []. Qed.
Theorem no_queries : forall n style h b, inside none b ->
  snd (build_query n style h b) = h /\ forall h', fst (build_query n style h' b) = fst (build_query n style h b).
Proof.
  intros n style h b Hb. split.
  - destruct (frame none n style h h b (closed_none h) (agree_none h h) Hb) as (_ & U & _). apply nth_error_ext. intros i. symmetry. apply (proj2 U). intros [].
  - intros h'. exact (proj1 (frame none n style h' h b (closed_none h') (agree_none h' h) Hb)).
Qed.
Theorem cached : forall n name f st st', inside_func none f ->
  snd (join_compat (build n) name f st) = st /\ fst (join_compat (build n) name f st) = fst (join_compat (build n) name f st').
Proof.
  intros n name f st st' Hf.
  assert (V : forall s, snd (join_compat (build n) name f s) = s).
  { intros s. assert (K : Q none (st_heap s) (st_heap s) s s) by (constructor; try reflexivity; [intros ? []|intros ? ? []| |]; apply untouched_refl).
    destruct (fr_compat none (st_heap s) (st_heap s) (build n) (fr_build _ _ _ n) name f s s Hf K) as [_ E].
    unfold join_compat in *. destruct (negb _); [reflexivity|]. destruct f as [| | |sg body]; try reflexivity.
    destruct (run_prog _ _ _ _) as [r s']. cbn zeta in *.
    assert (H : st_heap s' = st_heap s).
    { destruct (fst (safe _ _)); cbn [snd] in E; destruct E as [_ _ _ _ _ U _]; cbn [st_heap set_heap] in U; apply nth_error_ext; intros i; symmetry; apply (proj2 U); intros []. }
    rewrite H. destruct s. destruct (fst (safe _ _)); reflexivity. }
  split; [apply V|].
  assert (K : Q none (st_heap st) (st_heap st') st (set_heap st (st_heap st'))) by (constructor; try reflexivity; [intros ? []|intros ? ? []| |]; apply untouched_refl).
  destruct (fr_compat none _ _ (build n) (fr_build _ _ _ n) name f _ _ Hf K) as [E _]. rewrite E.
  apply compat_fresh. reflexivity.
Qed.

(** Builders made by calls whose arguments stay in the set. *)
Lemma Forall_upd : forall A (P : A -> Prop) l i x, Forall P l -> P x -> Forall P (upd i x l).
Proof.
  intros A P. induction l as [|y l IH]; intros [|i] x Hl Hx; cbn; try exact Hl; inversion Hl; subst; apply Forall_cons; auto.
Qed.
Lemma inside_calls_one : forall R o q q', inside_op R o -> inside_qb R q -> apply_op o q = ROk q' -> inside_qb R q'.
Proof.
  assert (A : forall R q f, inside_qb R q -> inside_frag R f -> inside_qb R (add_cond q f)).
  { intros R q f [C1 C2 C3 C4 C5 C6 C7 C8] Hf. constructor; try assumption. unfold add_cond, inside_frag, append_frags, with_frags. cbn [set_conds q_conds f_frags].
    apply Forall_app. split; [exact C5|]. apply Forall_cons; [apply in_frag; exact Hf|apply Forall_nil]. }
  assert (T : forall R q objs ts d, inside_qb R q -> Forall (fun t => match ft_frag t with Some f => inside_frag R f | None => True end) objs -> inside_qb R (set_tables q objs ts d)).
  { intros R q objs ts d [C1 C2 C3 C4 C5 C6 C7 C8] Ho. constructor; assumption. }
  intros R o q q' Ho Hq E. pose proof Hq as [C1 C2 C3 C4 C5 C6 C7 C8].
  destruct o as [|cols|n|n|cols|bs|t|kind t on opt|[f|]|col op v|col l|col l|col o|name b ds|]; cbn [apply_op inside_op] in *.
  - injection E as <-. constructor; assumption.
  - destruct cols as [|c cols]; injection E as <-; [exact Hq|]. constructor; assumption.
  - injection E as <-. destruct (0 <? n)%Z; [constructor; assumption|exact Hq].
  - injection E as <-. destruct (0 <? n)%Z; [constructor; assumption|exact Hq].
  - injection E as <-. constructor; try assumption. unfold inside_frag, append_frags, with_frags. cbn [set_groups q_groups f_frags]. apply Forall_app. split; assumption.
  - injection E as <-. constructor; try assumption. cbn [set_unions q_unions]. apply Forall_app. split; assumption.
  - injection E as <-. unfold qb_from. destruct (is_empty _); [constructor; assumption|]. cbn zeta. apply T; [exact Hq|].
    apply Forall_app. split; [exact C2|]. apply Forall_cons; [|apply Forall_nil]. cbn. apply Forall_nil.
  - unfold qb_join in E. destruct (is_empty _); [injection E as <-; constructor; assumption|]. cbn zeta in E.
    set (q1 := match q_tables q with [] => _ | _ => q end) in E.
    assert (H1 : inside_qb R q1).
    { unfold q1. destruct (q_tables q); [|exact Hq]. apply T; [exact Hq|]. apply Forall_app. split; [exact C2|]. apply Forall_cons; [exact Logic.I|apply Forall_nil]. }
    pose proof (iq_tables _ _ H1) as C2'.
    destruct on as [on|]; [|discriminate E].
    assert (Hf : inside_frag R (Ff (join_raw kind t) [BFrag (with_prefix on "ON")])).
    { apply Forall_cons; [|apply Forall_nil]. apply in_frag. exact Ho. }
    destruct (assoc _ _); injection E as <-; (apply T; [exact H1|]).
    + apply Forall_upd; [exact C2'|exact Hf].
    + apply Forall_app. split; [exact C2'|]. apply Forall_cons; [exact Hf|apply Forall_nil].
  - injection E as <-. apply A; assumption.
  - injection E as <-. exact Hq.
  - injection E as <-. apply A; [exact Hq|]. apply Forall_cons; [exact Ho|apply Forall_nil].
  - unfold where_in in E. destruct (args_flatted _); try discriminate E. injection E as <-. apply A; [exact Hq|]. apply Forall_cons; [exact Ho|apply Forall_nil].
  - unfold where_in in E. destruct (args_flatted _); try discriminate E. injection E as <-. apply A; [exact Hq|]. apply Forall_cons; [exact Ho|apply Forall_nil].
  - injection E as <-. constructor; try assumption. cbn [set_orders q_orders]. apply Forall_app. split; [assumption|]. apply Forall_cons; [exact Ho|apply Forall_nil].
  - injection E as <-. constructor; try assumption. cbn [set_ctes q_ctes]. apply Forall_app. split; [assumption|]. apply Forall_cons; [exact Ho|apply Forall_nil].
  - injection E as <-. constructor; assumption.
Qed.
Theorem inside_calls : forall R os q, Forall (inside_op R) os -> apply_ops os new_qb = ROk q -> inside_qb R q.
Proof.
  intros R os. assert (G : forall p q, inside_qb R p -> Forall (inside_op R) os -> apply_ops os p = ROk q -> inside_qb R q).
  { induction os as [|o os IH]; intros p q Hp Hl E; cbn [apply_ops] in E; [injection E as <-; exact Hp|]. inversion Hl as [|? ? Ho Hl']; subst.
    destruct (apply_op o p) as [p'|er|er|] eqn:K; try discriminate E. apply (IH p'); try assumption. eapply inside_calls_one; eassumption. }
  intros q. apply G. apply inside_new.
Qed.
