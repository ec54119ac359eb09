(** The texts of errors. *)
From Coq Require Import Strings.String Strings.Ascii NArith ZArith List Bool Lia.
From Verif Require Quote_proofs.
From Verif Require Import GoStr GoNum Syntax Value Util Model Sqlf Sqlb Spec_syntax Spec_base Spec_eval Spec_query Spec_fault Fault4_proofs Spec_blame
  Fuel_proofs Deps_proofs Query_proofs Lex_proofs Grammar_proofs Pos_proofs Eval_proofs Use_proofs Base_proofs.
Import ListNotations.
Open Scope string_scope.

(* ------------------------------------------------------------------ *)
(** * Marks stay *)

Definition kept (S S' : fstate) : Prop :=
  (forall i, nth_error (fs_ua S) i = Some true -> nth_error (fs_ua S') i = Some true) /\
  (forall i, nth_error (fs_uf S) i = Some true -> nth_error (fs_uf S') i = Some true).
Lemma mark_keeps : forall l k i, nth_error l i = Some true -> nth_error (mark k l) i = Some true.
Proof. induction l as [|b l IH]; intros [|k] [|i] H; cbn [mark nth_error] in *; try assumption; try discriminate H; [reflexivity|apply IH; exact H]. Qed.
Lemma mark_sets : forall l k, k < List.length l -> nth_error (mark k l) k = Some true.
Proof. induction l as [|b l IH]; intros [|k] H; cbn in *; try lia; [reflexivity|apply IH; lia]. Qed.
Lemma kept_refl : forall S, kept S S.
Proof. split; auto. Qed.
Lemma kept_trans : forall A B C, kept A B -> kept B C -> kept A C.
Proof. intros A B C [H1 H2] [K1 K2]. split; auto. Qed.
Section Kept.
Variable rb : env -> builder -> store -> outcome string * store.
Variable rc : env -> frame -> list expr -> fstate -> outcome string * fstate.
Hypothesis Hrc : forall e fc es S, kept S (snd (rc e fc es S)).
Hypothesis Hlen : forall e fc es S, samelen S (snd (rc e fc es S)).
Variable jf : nat.
Lemma kept_loop : forall n e fc es sep from to i acc S, kept S (snd (join_loop rc n e fc es sep from to i acc S)).
Proof.
  induction n as [|n IH]; intros e fc es sep from to i acc S; [apply kept_refl|]. cbn [join_loop].
  pose proof (Hrc e fc (set_index i es) S) as H. destruct (rc e fc (set_index i es) S) as [[s|er|er|] S']; try exact H.
  - destruct (_ && _); [exact H|]. eapply kept_trans; [exact H|apply IH].
  - destruct (is_invalid_index er); [destruct (_ || _)|]; exact H.
Qed.
Lemma kept_expr : forall e fc x S, kept S (snd (eval_expr rb rc jf e fc x S)).
Proof.
  assert (A : forall fc i S, kept S (snd (func_arg fc i S))).
  { intros fc i S. unfold func_arg. destruct (nth1 _ _); [|apply kept_refl]. destruct (commit _ _).
    split; cbn; auto using mark_keeps. }
  intros e fc x S. destruct x as [t p|a i p|name args p|name p]; cbn [eval_expr]; try apply kept_refl.
  - destruct (nth1 _ _); [apply A|apply kept_refl].
  - unfold eval_function. destruct (lookup_fn e name) as [f|]; [|apply kept_refl]. unfold eval_call.
    destruct (arity_ok _ _); [|apply kept_refl]. destruct (eval_args _ _); try apply kept_refl.
    assert (Sf : forall r, kept S (snd r) -> kept S (snd (safe name r))) by (intros [[] S'] H; exact H).
    destruct (any_rejected _ _); apply Sf; [apply kept_refl|].
    destruct f as [| | |sg body]; cbn [call_fn].
    + apply A.
    + unfold func_fragment. destruct (nth1 _ _); [|apply kept_refl]. destruct (rb _ _ _).
      split; cbn; auto using mark_keeps.
    + destruct args as [|[] [|[] idx]]; try apply kept_refl. unfold func_join.
      destruct (map lit_int idx) as [|k1 [|k2 [|k3 ks]]]; try apply kept_refl.
      all: destruct (_ && _); [apply kept_refl|]; destruct (parse s) as [es|o m| |]; try apply kept_refl;
        destruct (join_prep rb e es (fs_st S)) as [[[|k]|er|er|] st']; try (split; cbn; auto; fail).
      all: eapply kept_trans; [|apply kept_loop]; split; cbn; auto.
    + destruct (run_prog _ _ _ _). split; cbn; auto.
Qed.
Lemma kept_clause : forall e fc es S, kept S (snd (clause rb rc jf e fc es S)).
Proof.
  intros e fc. induction es as [|x es IH]; intros S; [apply kept_refl|]. rewrite clause_cons.
  pose proof (kept_expr e fc x S) as H. destruct (eval_expr rb rc jf e fc x S) as [[s|er|er|] S1]; cbn [andthen]; try exact H.
  pose proof (IH S1) as K. destruct (clause rb rc jf e fc es S1) as [[t|er|er|] S2]; (eapply kept_trans; [exact H|exact K]).
Qed.
(** A part that succeeds leaves its mark. *)
Lemma clause_ok_in : forall e fc es S s S', clause rb rc jf e fc es S = (ROk s, S') -> forall x, In x es ->
  exists S1 t S2, eval_expr rb rc jf e fc x S1 = (ROk t, S2) /\ samelen S S1 /\ kept S2 S'.
Proof.
  intros e fc es. pose proof (fun S x => len_expr rb rc Hlen jf e fc x S) as L.
  induction es as [|y es IH]; intros S s S' H x Hx; [destruct Hx|].
  rewrite clause_cons in H. pose proof (L S y : samelen S (snd (eval_expr rb rc jf e fc y S))) as Ly. destruct (eval_expr rb rc jf e fc y S) as [[t|er|er|] S1] eqn:Ey; try discriminate.
  cbn [andthen] in H. destruct (clause rb rc jf e fc es S1) as [[u|er|er|] S2] eqn:Ec; try discriminate. injection H as <- <-.
  destruct Hx as [<-|Hx].
  - exists S, t, S1. split; [exact Ey|]. split; [apply len_refl|]. pose proof (kept_clause e fc es S1) as K. rewrite Ec in K. exact K.
  - destruct (IH S1 u S2 Ec x Hx) as (A & v & B & H1 & H2 & H3). exists A, v, B. split; [exact H1|]. split; [|exact H3].
    eapply len_trans; [exact Ly|exact H2].
Qed.
End Kept.

Lemma kept_clause_n : forall rb n e fc es S, kept S (snd (clause_n n rb e fc es S)).
Proof. intros rb. induction n as [|n IH]; intros; [apply kept_refl|]. apply kept_clause. exact IH. Qed.

(* ------------------------------------------------------------------ *)
(** * Parts other than texts *)

Definition solid (x : aexpr) : Prop := match x with APlain _ => False | _ => True end.
Lemma norm_in : forall l x, solid x -> (In x (norm l) <-> In x l).
Proof.
  assert (C : forall t l x, solid x -> (In x (cons_text t l) <-> In x l)).
  { intros t l x Hx. unfold cons_text. destruct l as [|[u| | |] l]; try (destruct (is_empty t); [tauto|]);
      cbn [In]; split; intro K; repeat (destruct K as [K|K]; [subst; try (destruct Hx; fail)|]); auto. }
  intros l x Hx. induction l as [|y l IH]; [tauto|]. destruct y as [t|s i|n a|n]; cbn [norm].
  - rewrite C by exact Hx. rewrite IH. cbn [In]. split; [auto|]. intros [<-|K]; [destruct Hx|exact K].
  - cbn [In]. rewrite IH. tauto.
  - cbn [In]. rewrite IH. tauto.
  - cbn [In]. rewrite IH. tauto.
Qed.
Definition covers (l l' : list aexpr) : Prop := forall x, solid x -> In x l -> In x l'.
Lemma complaint_covers : forall e st0 args frags l l' m, covers l l' -> complaint e st0 args frags l m -> complaint e st0 args frags l' m.
Proof.
  intros e st0 args frags l l' m C H.
  destruct H; [eapply cp_bind|eapply cp_value|eapply cp_unknown|eapply cp_number|eapply cp_type|eapply cp_call]; try eassumption; (apply C; [exact Logic.I|eassumption]).
Qed.
Lemma crash_covers : forall e st0 args l l' m, covers l l' -> crash e st0 args l m -> crash e st0 args l' m.
Proof.
  intros e st0 args l l' m C H. destruct H; [eapply cr_value|eapply cr_number]; try eassumption; (apply C; [exact Logic.I|eassumption]).
Qed.
Lemma covers_norm : forall l, covers l (norm l).
Proof. intros l x Hx H. apply norm_in; assumption. Qed.
Lemma covers_index : forall i es, covers (map strip (set_index i es)) (at_index i (norm (map strip es))).
Proof.
  intros i es x Hx H. unfold at_index. apply in_map_iff in H as (y & <- & H). unfold set_index in H. apply in_map_iff in H as (z & <- & H).
  apply in_map_iff. exists (strip z). split; [destruct z; reflexivity|]. apply norm_in; [destruct z; try exact Logic.I; destruct Hx|]. apply in_map. exact H.
Qed.
Lemma hidden_text : forall f ts a, List.length (fs_ins (sig_of f)) - List.length (user_ins (sig_of f)) + bad_arg ts a = hidden f + bad_arg ts a.
Proof. intros f ts a. rewrite user_ins_params. destruct f; reflexivity. Qed.

(* ------------------------------------------------------------------ *)
(** * Arguments of calls *)

Lemma eval_args_text : forall ts args, List.length ts = List.length args ->
  match eval_args ts args with
  | ROk _ => forall i a, nth_error args i = Some a -> exists t, nth_error ts i = Some t /\ fits t a
  | RErr er => exists i a t, nth_error args i = Some a /\ nth_error ts i = Some t /\ ~ fits t a /\ bad_arg ts args = i /\
      (forall j b, j < i -> nth_error args j = Some b -> exists u, nth_error ts j = Some u /\ fits u b) /\
      er = EMsg ("can't assign " ++ lit_name a ++ " to " ++ type_label t)
  | RPanic er => exists i a t, nth_error args i = Some a /\ nth_error ts i = Some t /\ ~ fits t a /\ number a /\
      (forall j b, j < i -> nth_error args j = Some b -> exists u, nth_error ts j = Some u /\ fits u b) /\
      er = EMsg "reflect.Value.Convert: value of type float64 cannot be converted"
  | RFuel => False
  end.
Proof.
  induction ts as [|t ts IH]; intros [|a args] Hl; try discriminate Hl; cbn [eval_args bad_arg].
  - intros [|i] b H; discriminate H.
  - injection Hl as Hl. destruct (fits_dec t a) as [F|F].
    + apply eval_arg_fits in F as F'. destruct F' as [x ->]. specialize (IH args Hl).
      assert (Z : forall i, (forall j b, j < i -> nth_error args j = Some b -> exists u, nth_error ts j = Some u /\ fits u b) ->
        forall j b, j < S i -> nth_error (a :: args) j = Some b -> exists u, nth_error (t :: ts) j = Some u /\ fits u b).
      { intros i K [|j] b Lj Hb; [injection Hb as <-; exists t; auto|]. apply K; [lia|exact Hb]. }
      destruct (eval_args ts args) as [u|er|er|].
      * intros [|i] b Hb; [injection Hb as <-; exists t; auto|apply IH; exact Hb].
      * destruct IH as (i & b & v & H1 & H2 & H3 & H4 & H5 & H6). exists (S i), b, v. rewrite H4. pose proof (Z i H5). repeat split; assumption.
      * destruct IH as (i & b & v & H1 & H2 & H3 & H4 & H5 & H6). exists (S i), b, v. pose proof (Z i H5). repeat split; assumption.
      * exact IH.
    + assert (Z : forall j b, j < 0 -> nth_error (a :: args) j = Some b -> exists u, nth_error (t :: ts) j = Some u /\ fits u b) by (intros j b Lj; lia).
      destruct a, t; cbn [eval_arg];
        first [exfalso; apply F; constructor; fail|eexists 0, _, _; split; [reflexivity|]; split; [reflexivity|]; split; [exact F|]; split; [first [reflexivity|exact Logic.I]|]; split; [exact Z|reflexivity]].
Qed.

(* ------------------------------------------------------------------ *)
(** * Evaluation *)

Lemma nth1_none : forall A (l : list A) i, nth1 l i = None -> outside i (List.length l).
Proof.
  intros A l i H. unfold nth1 in H. unfold outside.
  destruct (1 <=? i)%Z eqn:E1; [|apply Z.leb_gt in E1; lia]. destruct (i <=? Z.of_nat (List.length l))%Z eqn:E2; [|apply Z.leb_gt in E2; lia].
  cbn [andb] in H. apply Z.leb_le in E1, E2. apply nth_error_None in H. lia.
Qed.
Lemma commit_fails : forall v st o st', commit v st = (o, st') ->
  match o with ROk _ => True | RPanic er => hashable v = false /\ er = EMsg "runtime error: hash of unhashable type" | _ => False end.
Proof.
  intros v st o st' H. unfold commit in H. destruct (st_dollar st); [|injection H as <- _; exact Logic.I].
  destruct (hashable v); [destruct (dict_find _ _)|]; injection H as <- _; auto.
Qed.

Lemma said : forall (P : string -> Prop) m m', P m -> m = m' -> P m'.
Proof. intros P m m' H <-. exact H. Qed.
Ltac text := cbn [err_text]; rewrite ?append_assoc; reflexivity.

(** What happens to the query builders. *)
Definition grows (st st' : store) : Prop := forall id, grown (get_q st id) (get_q st' id).
Lemma grown_trans : forall a b c, grown a b -> grown b c -> grown a c.
Proof. intros a b c H K. induction K as [|q' K IH|q' K IH]; [exact H|apply gr_orders; exact IH|apply gr_select; exact IH]. Qed.
Lemma grows_refl : forall st, grows st st. Proof. intros st id. apply gr_same. Qed.
Lemma grows_trans : forall a b c, grows a b -> grows b c -> grows a c.
Proof. intros a b c H K id. eapply grown_trans; [apply H|apply K]. Qed.
Lemma grows_set : forall st id q, grown (get_q st id) q -> grows st (set_q st id q).
Proof.
  intros st id q H j. rewrite get_set_q. destruct (_ && _) eqn:E; [|apply gr_same].
  apply andb_prop in E. destruct E as [E _]. apply Nat.eqb_eq in E. subst j. exact H.
Qed.
Lemma grows_commit : forall v st, grows st (snd (commit v st)).
Proof. intros v st id. unfold get_q. rewrite commit_heap. apply gr_same. Qed.
Lemma grows_selects : forall st id, grows st (set_q st id (selects_prefixed (get_q st id))).
Proof. intros st id. apply grows_set. apply gr_select. apply gr_same. Qed.
Lemma grows_orders : forall st id, grows st (set_q st id (orders_done (get_q st id))).
Proof. intros st id. apply grows_set. unfold orders_done. rewrite orders_spec. apply gr_orders. apply gr_same. Qed.
Lemma grows_fresh : forall z st st', grows (new_store z (st_heap st)) st' -> grows st (set_heap st (st_heap st')).
Proof. intros z st st' H id. exact (H id). Qed.
Lemma grows_build : forall n e b st, grows st (snd (build n e b st)).
Proof. apply (step_build grows grows_refl grows_trans grows_commit grows_selects grows_orders grows_fresh). Qed.

Section Blame.
Variable e : env.
Variable st0 : store.
Hypothesis He : proper_env e.
Variable args : list value.
Variable frags : list builder.
Notation fc := (mkFrame args frags).
Variable rb : env -> builder -> store -> outcome string * store.
Hypothesis Hgr : forall e b st, grows st (snd (rb e b st)).
Definition blamed (b : builder) (o : outcome string) : Prop :=
  match o with RErr er => fails e st0 b (err_text er) | RPanic er => panics e st0 b (err_text er) | _ => True end.
Hypothesis Hrb : forall b st, grows st0 st -> blamed b (fst (rb e b st)).
Variable rc : env -> frame -> list expr -> fstate -> outcome string * fstate.
Hypothesis Hgc : forall e fc es S, grows (fs_st S) (fs_st (snd (rc e fc es S))).
Definition told (l : list aexpr) (o : outcome string) : Prop :=
  match o with RErr er => complaint e st0 args frags l (err_text er) | RPanic er => crash e st0 args l (err_text er) | _ => True end.
Hypothesis Hrc : forall es S, grows st0 (fs_st S) -> told (map strip es) (fst (rc e fc es S)).
Variable jf : nat.

Definition erred (f : func) (a : list lit) (o : outcome string) : Prop :=
  match o with RErr er | RPanic er => blunder e st0 args frags f a (err_text er) | _ => True end.
Lemma blame_arg : forall a S, erred FnArg a (fst (func_arg fc (call_index a) S)).
Proof.
  intros a S. unfold func_arg. cbn [fr_args]. destruct (nth1 args (call_index a)) as [v|] eqn:E.
  - destruct (commit v (fs_st S)) as [o st'] eqn:Ec. pose proof (commit_fails _ _ _ _ Ec) as K. cbn [fst].
    destruct o as [s|er|er|]; cbn [erred]; try exact Logic.I; [destruct K|]. destruct K as [K ->]. cbn [err_text].
    eapply bl_value; [exact E|]. apply hashable_iff. exact K.
  - cbn [fst erred err_text]. apply bl_arg. apply nth1_none. exact E.
Qed.
Lemma blame_fragment : forall a S, grows st0 (fs_st S) -> erred FnFragment a (fst (func_fragment rb e fc (call_index a) S)).
Proof.
  intros a S HS. unfold func_fragment. cbn [fr_frags]. destruct (nth1 frags (call_index a)) as [b|] eqn:E.
  - pose proof (Hrb b (fs_st S) HS) as K. destruct (rb e b (fs_st S)) as [o st']. cbn [fst] in *. destruct o as [s|er|er|]; cbn [erred blamed] in *; try exact Logic.I.
    + eapply bl_child; [exact E|]. left. exact K.
    + eapply bl_child; [exact E|]. right. exact K.
  - cbn [fst erred err_text]. apply bl_frag. apply nth1_none. exact E.
Qed.
Lemma join_sig_indexed : forall f, join_sig (sig_of f) = true <-> indexed f.
Proof.
  intros f. unfold join_sig, indexed. destruct (fs_outs (sig_of f)) as [|t [|[] [|]]]; cbn [andb];
    try (split; [discriminate|intros [[u K] _]; discriminate K]).
  destruct (fs_ins (sig_of f)) as [|[] [|[] [|]]]; (split; [first [discriminate|intros _; split; [eexists; reflexivity|auto]]|intros [_ [K|K]]; first [discriminate K|reflexivity]]).
Qed.
Lemma blame_prep : forall es st, match fst (join_prep rb e es st) with
  | ROk O => forall nm, ~ In (AFunc nm) (map strip es)
  | ROk _ => True
  | RErr er => forall tmpl sep nums l, parsed tmpl = Some l -> covers (map strip es) l -> blunder e st0 args frags FnJoin (LStr tmpl :: LStr sep :: nums) (err_text er)
  | RPanic _ => False
  | RFuel => True
  end.
Proof.
  induction es as [|x es IH]; intros st; [intros nm []|].
  assert (Cv : forall l, covers (map strip (x :: es)) l -> covers (map strip es) l) by (intros l C y Hy H; apply C; [exact Hy|right; exact H]).
  destruct x as [t p|a i p|nm a p|nm p]; cbn [join_prep].
  1-3: specialize (IH st); destruct (fst (join_prep rb e es st)) as [[|k]|er|er|]; try exact IH;
       [intros nm' [K|K]; [discriminate K|exact (IH nm' K)]|intros tmpl sep nums l Hl C; apply (IH tmpl sep nums l Hl (Cv l C))].
  destruct (lookup_fn e nm) as [f|] eqn:El.
  - destruct (join_compat rb nm f st) as [[c z] st'] eqn:Ec. destruct c.
    + specialize (IH st'). destruct (join_prep rb e es st') as [[k|er|er|] st2]; cbn [fst] in *; try exact IH; [exact Logic.I|].
      intros tmpl sep nums l Hl C. apply (IH tmpl sep nums l Hl (Cv l C)).
    + destruct z; [exact Logic.I|]. cbn [fst]. intros tmpl sep nums l Hl C.
      assert (Hin : In (AFunc nm) l) by (apply C; [exact Logic.I|left; reflexivity]).
      unfold incompatible. cbn [err_text]. destruct (join_sig (sig_of f)) eqn:Ej.
      * destruct f as [| | |s b]; try (unfold join_compat in Ec; rewrite Ej in Ec; discriminate Ec).
        eapply said; [eapply bl_probe; [exact Hl|exact Hin|exact El|apply join_sig_indexed; exact Ej]|text].
      * eapply said; [eapply bl_shape; [exact Hl|exact Hin|exact El|]|text]. intro K. apply join_sig_indexed in K. congruence.
  - cbn [fst]. intros tmpl sep nums l Hl C. eapply bl_unknown; [exact Hl| |exact El]. apply C; [exact Logic.I|left; reflexivity].
Qed.
Lemma blame_loop : forall n es tmpl sep nums l from to i acc S, grows st0 (fs_st S) -> parsed tmpl = Some l -> l = norm (map strip es) -> (1 <= i)%Z ->
  erred FnJoin (LStr tmpl :: LStr sep :: nums) (fst (join_loop rc n e fc es sep from to i acc S)).
Proof.
  induction n as [|n IH]; intros es tmpl sep nums l from to i acc S HS Hl El Hi; [exact Logic.I|]. cbn [join_loop].
  pose proof (Hrc (set_index i es) S HS) as K. pose proof (Hgc e fc (set_index i es) S) as Gc. destruct (rc e fc (set_index i es) S) as [[s|er|er|] S']; cbn [fst snd told] in K, Gc.
  - destruct (_ && _); [exact Logic.I|]. eapply IH; [eapply grows_trans; [exact HS|exact Gc]|exact Hl|exact El|lia].
  - assert (B : blunder e st0 args frags FnJoin (LStr tmpl :: LStr sep :: nums) (err_text er)).
    { eapply bl_item; [exact Hl|exact Hi|]. eapply complaint_covers; [|exact K]. rewrite El. apply covers_index. }
    destruct (is_invalid_index er); [destruct (_ || _); [exact B|exact Logic.I]|exact B].
  - cbn [fst erred]. eapply bl_crash; [exact Hl|exact Hi|]. eapply crash_covers; [|exact K]. rewrite El. apply covers_index.
  - exact Logic.I.
Qed.
Lemma syntax_said : forall off m, syntax_text off m = itoa_nat off ++ ": syntax error: " ++ m.
Proof. reflexivity. Qed.
Lemma blame_join : forall tmpl sep nums S, grows st0 (fs_st S) -> erred FnJoin (LStr tmpl :: LStr sep :: nums) (fst (func_join rb rc jf e fc tmpl sep (map lit_int nums) S)).
Proof.
  intros tmpl sep nums S HS. unfold func_join.
  assert (G : forall from to, ((0 <? to)%Z && (to <? from)%Z = true -> exists x y, nums = [x; y] /\ from = lit_int x /\ to = lit_int y) ->
    erred FnJoin (LStr tmpl :: LStr sep :: nums) (fst (if (0 <? to)%Z && (to <? from)%Z then (RErr (bad_range from to), S) else
    match parse tmpl with
    | PErr o m => (RErr (bad_template tmpl o m), S)
    | PPanic => (RPanic index_range, S)
    | PFuel => (RFuel, S)
    | POk es =>
      let '(r, st') := join_prep rb e es (fs_st S) in
      let S' := mkFS st' (fs_ua S) (fs_uf S) in
      match r with
      | ROk O => (RErr (no_function tmpl), S')
      | ROk _ => join_loop rc jf e fc es sep from to (if (from <=? 0)%Z then 1%Z else from) "" S'
      | RErr er => (RErr er, S')
      | RPanic er => (RPanic er, S')
      | RFuel => (RFuel, S')
      end
    end))).
  { intros from to Hr. destruct ((0 <? to)%Z && (to <? from)%Z) eqn:Er.
    - destruct (Hr eq_refl) as (x & y & -> & -> & ->). cbn [fst erred]. unfold bad_range. cbn [err_text].
      apply bl_range. apply andb_prop in Er as [E1 E2]. apply Z.ltb_lt in E1, E2. lia.
    - destruct (parse_total tmpl) as [[es Ep]|(o & m & Ep)]; rewrite Ep.
      + assert (Hl : parsed tmpl = Some (norm (map strip es))) by (unfold parsed; rewrite Ep; reflexivity).
        pose proof (blame_prep es (fs_st S)) as K. pose proof (step_prep grows grows_refl grows_trans grows_commit grows_fresh rb Hgr e es (fs_st S)) as Gp.
        destruct (join_prep rb e es (fs_st S)) as [[[|k]|er|er|] st']; cbn [fst snd] in K, Gp.
        * cbn [fst erred]. unfold no_function. cbn [err_text]. eapply bl_none; [exact Hl|]. intros nm Hn. exact (K nm (proj1 (norm_in _ (AFunc nm) Logic.I) Hn)).
        * eapply blame_loop; [cbn [fs_st]; eapply grows_trans; [exact HS|exact Gp]|exact Hl|reflexivity|]. destruct (Z.leb_spec from 0); lia.
        * cbn [fst erred]. eapply K; [exact Hl|apply covers_norm].
        * destruct K.
        * exact Logic.I.
      + cbn [fst erred]. unfold bad_template. cbn [err_text]. eapply said; [apply (bl_syntax e st0 args frags tmpl sep nums o m)|unfold syntax_text; text]; apply parse_fault; exact Ep. }
  destruct nums as [|x [|y [|z nums]]]; cbn [map]; try (apply G).
  - intro K. discriminate K.
  - intro K. discriminate K.
  - intros _. exists x, y. auto.
  - cbn [fst erred]. unfold too_many. cbn [err_text]. eapply said; [apply (bl_many e st0 args frags tmpl sep (x :: y :: z :: nums)); cbn; lia|]. cbn [List.length]. rewrite map_length. reflexivity.
Qed.

Lemma blame_call : forall nm f a S, grows st0 (fs_st S) -> lookup_fn e nm = Some f ->
  forall l, In (ACall nm a) l -> told l (fst (eval_call rb rc jf e fc nm f a S)).
Proof.
  intros nm f a S HS Hf l Hin. pose proof (He nm f Hf) as Hp. unfold eval_call. pose proof (arity_takes f (List.length a)) as At.
  destruct (arity_ok (sig_of f) (List.length a)).
  - assert (Ht : takes f (List.length a)) by (apply At; reflexivity). pose proof (arg_types_len f _ Ht) as Hl. pose proof (fun i => arg_types_param f (List.length a) i Hp Ht) as Hty.
    set (ts := arg_types (sig_of f) (List.length a)) in *.
    assert (Hlt : forall i b, nth_error a i = Some b -> i < List.length a) by (intros i b K; apply nth_error_Some; congruence).
    pose proof (eval_args_text ts a Hl) as K. destruct (eval_args ts a) as [u|er|er|]; [|..|destruct K].
    + assert (Hfit : all_fit f a) by (intros i b Hb; rewrite <- Hty by (eapply Hlt; exact Hb); apply K; exact Hb).
      destruct (any_rejected ts a) eqn:R.
      * apply rejected_iff in R; [|exact Hl|exact K]. destruct R as (i & t & Hi & D). cbn [safe fst told err_text].
        eapply said; [eapply cp_call; [exact Hin|exact Hf|exact Hfit|apply bl_defined]|text]. exists i, t.
        assert (i < List.length a) as L by (rewrite <- Hl; apply nth_error_Some; congruence). rewrite <- Hty by exact L. auto.
      * assert (E : erred f a (fst (call_fn rb rc jf e fc f a S))).
        { destruct f as [| | |sg body]; cbn [call_fn].
          - apply blame_arg.
          - apply blame_fragment; exact HS.
          - destruct (Hfit 0) with (a := nth 0 a LNil) as (t & E1 & E2).
            { unfold takes in Ht. cbn in Ht. destruct a; [cbn in Ht; lia|reflexivity]. }
            destruct (Hfit 1) with (a := nth 1 a LNil) as (t' & E1' & E2').
            { unfold takes in Ht. cbn in Ht. destruct a as [|x [|y a]]; [cbn in Ht; lia..|reflexivity]. }
            cbn in E1, E1'. injection E1 as <-. injection E1' as <-.
            destruct a as [|x [|y a]]; [inversion E2|inversion E2'|]. cbn [nth] in E2, E2'. inversion E2; subst. inversion E2'; subst. apply blame_join. exact HS.
          - destruct (run_prog rb e (body a) (fs_st S)) as [r st']. cbn [fst]. destruct (norm_outs (fs_outs sg) r); cbn [erred]; try exact Logic.I; apply bl_custom. }
        destruct (call_fn rb rc jf e fc f a S) as [[s|er|er|] S']; cbn [safe fst told erred] in *; try exact Logic.I;
          (eapply said; [eapply cp_call; [exact Hin|exact Hf|exact Hfit|exact E]|text]).
    + destruct K as (i & b & t & Ha & Hti & Nf & Eb & Hbefore & ->). cbn [fst told]. unfold wrong_type. rewrite hidden_text. fold ts. rewrite Eb.
      assert (FM : first_misfit f a i).
      { split; [exists b, t; rewrite <- Hty by (eapply Hlt; exact Ha); auto|].
        intros j c Lj Hc. destruct (Hbefore j c Lj Hc) as (u & Hu & Fu). exists u. rewrite <- Hty by (eapply Hlt; exact Hc). auto. }
      eapply said; [eapply cp_type; [exact Hin|exact Hf|exact FM|exact Ha|rewrite <- Hty by (eapply Hlt; exact Ha); exact Hti]|text].
    + destruct K as (i & b & t & Ha & Hti & Nf & Nb & Hbefore & ->). cbn [fst told err_text].
      eapply cr_number; [exact Hin|exact Hf| |exact Ha|exact Nb].
      split; [exists b, t; rewrite <- Hty by (eapply Hlt; exact Ha); auto|].
      intros j c Lj Hc. destruct (Hbefore j c Lj Hc) as (u & Hu & Fu). exists u. rewrite <- Hty by (eapply Hlt; exact Hc). auto.
  - cbn [fst told]. unfold wrong_number. rewrite user_ins_params, variadic_open.
    eapply said; [eapply cp_number; [exact Hin|exact Hf|]|destruct (open_ended f); text]. intro K. apply At in K. discriminate.
Qed.
Lemma blame_expr : forall x S l, grows st0 (fs_st S) -> In (strip x) l -> told l (fst (eval_expr rb rc jf e fc x S)).
Proof.
  intros x S l HS Hin. destruct x as [t p|st i p|nm a p|nm p]; cbn [eval_expr strip] in *.
  - exact Logic.I.
  - cbn [fr_args]. destruct (nth1 args i) as [v|] eqn:E.
    + unfold func_arg. cbn [fr_args]. rewrite E. destruct (commit v (fs_st S)) as [o st'] eqn:Ec. pose proof (commit_fails _ _ _ _ Ec) as K. cbn [fst].
      destruct o as [s|er|er|]; cbn [told]; try exact Logic.I; [destruct K|]. destruct K as [K ->]. cbn [err_text].
      eapply cr_value; [exact Hin|exact E|apply hashable_iff; exact K].
    + cbn [fst told]. unfold bad_bind. cbn [err_text]. eapply cp_bind; [exact Hin|apply nth1_none; exact E].
  - unfold eval_function. destruct (lookup_fn e nm) as [f|] eqn:El; [apply blame_call; assumption|].
    cbn [fst told]. unfold not_defined. cbn [err_text]. eapply cp_unknown; [eassumption|eassumption|apply Quote_proofs.quote_quoted; reflexivity].
  - cbn [fst told]. unfold stray. cbn [err_text]. eapply cp_value; exact Hin.
Qed.
Lemma told_more : forall l l' o, covers l l' -> told l o -> told l' o.
Proof. intros l l' [s|er|er|] C H; cbn [told] in *; try exact Logic.I; [eapply complaint_covers|eapply crash_covers]; eassumption. Qed.
Lemma blame_clause : forall es S, grows st0 (fs_st S) -> told (map strip es) (fst (clause rb rc jf e fc es S)).
Proof.
  induction es as [|x es IH]; intros S HS; [exact Logic.I|]. rewrite clause_cons.
  pose proof (blame_expr x S (map strip (x :: es)) HS (or_introl eq_refl)) as K.
  pose proof (step_expr grows grows_refl grows_trans grows_commit grows_fresh rb Hgr rc Hgc jf e fc x S) as Gx.
  destruct (eval_expr rb rc jf e fc x S) as [[s|er|er|] S1]; cbn [andthen fst snd] in *; try exact K.
  specialize (IH S1 (grows_trans _ _ _ HS Gx)). destruct (clause rb rc jf e fc es S1) as [[t|er|er|] S2]; cbn [fst] in *; try exact Logic.I;
    (eapply told_more; [|exact IH]; intros y Hy Hin; right; exact Hin).
Qed.
End Blame.
Lemma blame_clause_n : forall e st0, proper_env e -> forall args frags rb, (forall e b st, grows st (snd (rb e b st))) ->
  (forall b st, grows st0 st -> blamed e st0 b (fst (rb e b st))) ->
  forall n es S, grows st0 (fs_st S) -> told e st0 args frags (map strip es) (fst (clause_n n rb e (mkFrame args frags) es S)).
Proof.
  intros e st0 He args frags rb Hgr Hrb. induction n as [|n IH]; intros es S HS; [exact Logic.I|]. cbn [clause_n]. apply blame_clause; try assumption.
  apply (step_clause_n grows grows_refl grows_trans grows_commit grows_fresh); exact Hgr.
Qed.

(* ------------------------------------------------------------------ *)
(** * What is not used *)

Lemma unused_spec : forall l, all_used l = false ->
  exists k, first_unused l = S k /\ nth_error l k = Some false /\ forall j, j < k -> nth_error l j = Some true.
Proof.
  induction l as [|b l IH]; intros H; [discriminate H|]. destruct b.
  - cbn [all_used forallb andb] in H. destruct (IH H) as (k & E1 & E2 & E3). exists (S k). cbn [first_unused nth_error]. rewrite E1. split; [reflexivity|]. split; [exact E2|].
    intros [|j] Hj; [reflexivity|]. apply E3. lia.
  - exists 0. split; [reflexivity|]. split; [reflexivity|]. intros j Hj. lia.
Qed.
Lemma in_or_not : forall (P : aexpr -> Prop) l, (forall x, P x \/ ~ P x) -> (exists x, In x l /\ P x) \/ forall x, In x l -> ~ P x.
Proof.
  intros P l D. induction l as [|y l [(x & H1 & H2)|IH]]; [right; intros x []|left; exists x; split; [right|]; assumption|].
  destruct (D y) as [K|K]; [left; exists y; split; [left; reflexivity|exact K]|]. right. intros x [<-|H]; [exact K|apply IH; exact H].
Qed.
Lemma reaches_arg_dec : forall e i x, reaches_arg e i x \/ ~ reaches_arg e i x.
Proof.
  intros e i [t|s k|nm a|nm]; cbn [reaches_arg]; try (right; tauto).
  - destruct (Z.eq_dec k i); tauto.
  - destruct (lookup_fn e nm) as [[| | |s b]|]; try (right; intros [K|[K _]]; discriminate K).
    + destruct (Z.eq_dec (call_index a) i); [left; auto|right; intros [K|[_ K]]; [discriminate K|contradiction]].
    + left. left. reflexivity.
Qed.
Lemma reaches_frag_dec : forall e i x, reaches_frag e i x \/ ~ reaches_frag e i x.
Proof.
  intros e i [t|s k|nm a|nm]; cbn [reaches_frag]; try (right; tauto).
  destruct (lookup_fn e nm) as [[| | |s b]|]; try (right; intros [K|[K _]]; discriminate K).
  - destruct (Z.eq_dec (call_index a) i); [left; auto|right; intros [K|[_ K]]; [discriminate K|contradiction]].
  - left. left. reflexivity.
Qed.
Section Idle.
Variables (n : nat) (rb : env -> builder -> store -> outcome string * store) (e : env) (args : list value) (frags : list builder) (st : store) (l : list aexpr) (body : string) (S' : fstate).
Hypothesis Hc : clause_n n rb e (mkFrame args frags) (map unstrip l) (mkFS st (map (fun _ => false) args) (map (fun _ => false) frags)) = (ROk body, S').
Lemma nth_was_false : forall A (m : list A) i, i < List.length m -> nth_error (map (fun _ => false) m) i = Some false.
Proof. induction m as [|x m IH]; intros [|i] H; cbn in *; try lia; [reflexivity|apply IH; lia]. Qed.
Lemma lens : List.length (fs_ua S') = List.length args /\ List.length (fs_uf S') = List.length frags.
Proof.
  pose proof (len_clause_n rb n e (mkFrame args frags) (map unstrip l) (mkFS st (map (fun _ => false) args) (map (fun _ => false) frags))) as [A B].
  rewrite Hc in A, B. cbn [snd fs_ua fs_uf] in A, B. rewrite map_length in A, B. auto.
Qed.
Lemma used_in : forall x, In x l -> exists m S1 t S2, eval_expr rb (clause_n m rb) m e (mkFrame args frags) (unstrip x) S1 = (ROk t, S2) /\
  List.length (fs_ua S1) = List.length args /\ List.length (fs_uf S1) = List.length frags /\ kept S2 S'.
Proof.
  intros x Hx. destruct n as [|m]; [discriminate Hc|]. cbn [clause_n] in Hc.
  destruct (clause_ok_in rb (clause_n m rb) (kept_clause_n rb m) (len_clause_n rb m) m e _ _ _ _ _ Hc (unstrip x) (in_map _ _ _ Hx)) as (S1 & t & S2 & E & [L1 L2] & K).
  exists m, S1, t, S2. cbn [fs_ua fs_uf] in L1, L2. rewrite map_length in L1, L2. auto.
Qed.
Lemma arg_marks : forall fc k S t S2, func_arg fc k S = (ROk t, S2) -> List.length (fs_ua S) = List.length (fr_args fc) ->
  nth_error (fs_ua S2) (Z.to_nat (k - 1)) = Some true.
Proof.
  intros fc k S t S2 H L. unfold func_arg in H. destruct (nth1 (fr_args fc) k) as [v|] eqn:E; [|discriminate H].
  apply nth1_Some in E as [E1 E2]. destruct (commit v (fs_st S)) as [o st']. injection H as _ <-. cbn [fs_ua]. apply mark_sets. rewrite L. apply nth_error_Some. congruence.
Qed.
Lemma frag_marks : forall fc k S t S2, func_fragment rb e fc k S = (ROk t, S2) -> List.length (fs_uf S) = List.length (fr_frags fc) ->
  nth_error (fs_uf S2) (Z.to_nat (k - 1)) = Some true.
Proof.
  intros fc k S t S2 H L. unfold func_fragment in H. destruct (nth1 (fr_frags fc) k) as [b|] eqn:E; [|discriminate H].
  apply nth1_Some in E as [E1 E2]. destruct (rb e b (fs_st S)) as [o st']. injection H as _ <-. cbn [fs_uf]. apply mark_sets. rewrite L. apply nth_error_Some. congruence.
Qed.
Lemma safe_ok : forall A nm (r : outcome string * A) t S, safe nm r = (ROk t, S) -> r = (ROk t, S).
Proof. intros A nm [[] ?] t S H; try discriminate H; exact H. Qed.
Lemma unused_arg : all_used (fs_ua S') = false -> exists k, first_unused (fs_ua S') = k /\ idle_arg e l (List.length args) k.
Proof.
  intros H. destruct (unused_spec _ H) as (k & E1 & E2 & E3). exists (S k). split; [exact E1|].
  destruct lens as [La Lf]. assert (Hk : k < List.length args) by (rewrite <- La; apply nth_error_Some; congruence).
  split; [lia|]. split.
  - intro U. assert (T : nth_error (fs_ua S') k = Some true); [|congruence].
    assert (G : forall S1 t S2, func_arg (mkFrame args frags) (Z.of_nat (S k)) S1 = (ROk t, S2) -> List.length (fs_ua S1) = List.length args -> kept S2 S' -> nth_error (fs_ua S') k = Some true).
    { intros S1 t S2 E L [K _]. apply K. pose proof (arg_marks _ _ _ _ _ E L) as M. replace (Z.to_nat (Z.of_nat (S k) - 1)) with k in M by lia. exact M. }
    destruct U as [[s U]|(nm & a & U & Hf & Hi)].
    + destruct (used_in _ U) as (m & S1 & t & S2 & E & L1 & L2 & K). cbn [unstrip eval_expr] in E. destruct (nth1 _ _); [|discriminate E]. exact (G S1 t S2 E L1 K).
    + destruct (used_in _ U) as (m & S1 & t & S2 & E & L1 & L2 & K). cbn [unstrip eval_expr] in E. unfold eval_function in E. rewrite Hf, eval_call_arg in E.
      destruct (Nat.eqb _ _); [|discriminate E]. destruct (eval_args _ _); try discriminate E. apply safe_ok in E. rewrite Hi in E. exact (G S1 t S2 E L1 K).
  - intros j Hj. destruct (in_or_not (reaches_arg e (Z.of_nat j)) l (reaches_arg_dec e (Z.of_nat j))) as [R|R]; [exact R|]. exfalso.
    destruct n as [|m]; [discriminate Hc|]. cbn [clause_n] in Hc.
    pose proof (clause_keeps _ (fun S => nth_error (fs_ua S) (j - 1)) rb (clause_n m rb) m e (mkFrame args frags) l) as K.
    specialize (K ltac:(intros x S Hx; apply keeps_ua; replace (Z.of_nat (j - 1) + 1)%Z with (Z.of_nat j) by lia; apply R; exact Hx)).
    specialize (K (mkFS st (map (fun _ => false) args) (map (fun _ => false) frags))). rewrite Hc in K. cbn [snd fs_ua] in K.
    rewrite E3 in K by lia. symmetry in K. exact (nth_false _ _ _ K).
Qed.
Lemma unused_frag : all_used (fs_uf S') = false -> exists k, first_unused (fs_uf S') = k /\ idle_frag e l (List.length frags) k.
Proof.
  intros H. destruct (unused_spec _ H) as (k & E1 & E2 & E3). exists (S k). split; [exact E1|].
  destruct lens as [La Lf]. assert (Hk : k < List.length frags) by (rewrite <- Lf; apply nth_error_Some; congruence).
  split; [lia|]. split.
  - intros (nm & a & U & Hf & Hi). assert (T : nth_error (fs_uf S') k = Some true); [|congruence].
    destruct (used_in _ U) as (m & S1 & t & S2 & E & L1 & L2 & [_ K]). cbn [unstrip eval_expr] in E. unfold eval_function in E. rewrite Hf, eval_call_fragment in E.
    destruct (Nat.eqb _ _); [|discriminate E]. destruct (eval_args _ _); try discriminate E. apply safe_ok in E. rewrite Hi in E.
    apply K. pose proof (frag_marks _ _ _ _ _ E L2) as M. replace (Z.to_nat (Z.of_nat (S k) - 1)) with k in M by lia. exact M.
  - intros j Hj. destruct (in_or_not (reaches_frag e (Z.of_nat j)) l (reaches_frag_dec e (Z.of_nat j))) as [R|R]; [exact R|]. exfalso.
    destruct n as [|m]; [discriminate Hc|]. cbn [clause_n] in Hc.
    pose proof (clause_keeps _ (fun S => nth_error (fs_uf S) (j - 1)) rb (clause_n m rb) m e (mkFrame args frags) l) as K.
    specialize (K ltac:(intros x S Hx; apply keeps_uf; replace (Z.of_nat (j - 1) + 1)%Z with (Z.of_nat j) by lia; apply R; exact Hx)).
    specialize (K (mkFS st (map (fun _ => false) args) (map (fun _ => false) frags))). rewrite Hc in K. cbn [snd fs_uf] in K.
    rewrite E3 in K by lia. symmetry in K. exact (nth_false _ _ _ K).
Qed.
End Idle.

(* ------------------------------------------------------------------ *)
(** * Building *)

Lemma blame_frag : forall e st0, proper_env e -> forall rb, (forall e b st, grows st (snd (rb e b st))) ->
  (forall b st, grows st0 st -> blamed e st0 b (fst (rb e b st))) ->
  forall n f st, grows st0 st -> blamed e st0 (BFrag f) (fst (build_frag n rb e f st)).
Proof.
  intros e st0 He rb Hgr Hrb n [raw args frags p s] st Hst.
  destruct (parse_total raw) as [[es Ep]|(off & m & Ep)].
  - assert (Hl : parsed raw = Some (norm (map strip es))) by (unfold parsed; rewrite Ep; reflexivity). set (l := norm (map strip es)) in *.
    rewrite (build_parsed _ _ _ (Frag raw args frags p s) _ l Hl). cbn [f_args f_frags f_prefix f_suffix].
    pose proof (blame_clause_n e st0 He args frags rb Hgr Hrb n (map unstrip l) (mkFS st (map (fun _ => false) args) (map (fun _ => false) frags)) Hst) as T.
    rewrite map_map, (map_ext _ (fun x => x)), map_id in T by (intros []; reflexivity).
    destruct (clause_n n rb e _ (map unstrip l) _) as [[body|er'|er'|] S'] eqn:Ec; cbn [fst told] in T.
    + destruct (all_used (fs_ua S')) eqn:Ea, (all_used (fs_uf S')) eqn:Ef; cbn [andb].
      * cbn zeta. destruct (is_empty _); exact Logic.I.
      * destruct (unused_frag _ _ _ _ _ _ _ _ _ Ec Ef) as (j & E & K). cbn [fst blamed]. unfold in_frag, unused, usage_text. rewrite Ea, Ef, E. cbn [app f_raw].
        eapply said; [eapply fl_frags; [exact Hl|exact K]|text].
      * destruct (unused_arg _ _ _ _ _ _ _ _ _ Ec Ea) as (j & E & K). cbn [fst blamed]. unfold in_frag, unused, usage_text. rewrite Ea, Ef, E. cbn [app f_raw].
        eapply said; [eapply fl_args; [exact Hl|exact K]|text].
      * destruct (unused_arg _ _ _ _ _ _ _ _ _ Ec Ea) as (k & E & K). destruct (unused_frag _ _ _ _ _ _ _ _ _ Ec Ef) as (j & E' & K').
        cbn [fst blamed]. unfold in_frag, unused, usage_text. rewrite Ea, Ef, E, E'. cbn [app f_raw].
        eapply said; [eapply fl_both; [exact Hl|exact K|exact K']|]. unfold str_join. text.
    + cbn [fst blamed]. unfold in_frag. cbn [f_raw]. eapply said; [eapply fl_clause; [exact Hl|exact T]|text].
    + cbn [fst blamed]. eapply pn_frag; [exact Hl|exact T].
    + exact Logic.I.
  - unfold build_frag. cbn [f_raw]. rewrite Ep. cbn [fst blamed].
    unfold not_parsed. cbn [f_raw]. eapply said; [apply (fl_syntax e st0 raw args frags p s off m); apply parse_fault; exact Ep|unfold syntax_text; text].
Qed.

(* ------------------------------------------------------------------ *)
(** * Query builders *)

Lemma deps_table_blame : forall q m, main_of q = Some m -> forall n t d, In (ft_names m) d -> needed q t ->
  match deps_table n q t d with
  | ROk d' => incl d d'
  | RErr er => exists u, needed q u /\ undefined q u /\ er = EMsg ("from undefined: '" ++ u ++ "'")
  | RPanic er => er = nil_deref /\ forall e st0, mishap e st0 q nil_pointer
  | RFuel => True
  end.
Proof.
  intros q m Hm. induction n as [|n IH]; intros t d Hd Ht; [exact Logic.I|]. cbn [deps_table].
  destruct (assoc t (q_tdict q)) as [id|] eqn:Ea.
  - destruct (nth_error (q_tobjs q) id) as [ft|] eqn:Eo; [|split; [reflexivity|]; intros e st0; eapply mh_dangling; [right; exists t; exact Ea|exact Eo]].
    destruct (dep_mem (ft_names ft) d) eqn:Em; [apply incl_refl|]. apply dep_mem_not in Em.
    assert (Hto : table_of q t = Some ft) by (unfold table_of; rewrite Ea; exact Eo).
    destruct (ft_frag ft) as [f|] eqn:Ef; [|split; [reflexivity|]; intros e st0; eapply mh_join; [exact Ht|exact Hto|intros f K; congruence]].
    destruct (extract_frag f []) as [ts|] eqn:Ex.
    2: { split; [reflexivity|]. intros e st0. eapply mh_join; [exact Ht|exact Hto|]. intros f' K. rewrite Ef in K. injection K as <-. apply extract_frag_none. exact Ex. }
    assert (Hn : forall u, In u ts -> needed q u).
    { intros u Hu. eapply nd_join; [exact Ht|exact Hto| |exact Ef|apply (extract_frag_some f ts Ex u); exact Hu].
      rewrite Hm. cbn [option_map]. intro K. injection K as K. apply Em. rewrite <- K. exact Hd. }
    set (d1 := ft_names ft :: d). assert (H1 : incl d d1) by (intros x Hx; right; exact Hx). assert (H2 : In (ft_names m) d1) by (right; exact Hd).
    clearbody d1. clear Em Ex. revert d1 H1 H2. induction ts as [|u ts IHt]; intros d1 H1 H2; [exact H1|].
    destruct (String.eqb u t); [apply IHt; auto; intros v Hv; apply Hn; right; exact Hv|].
    pose proof (IH u d1 H2 (Hn u (or_introl eq_refl))) as K. destruct (deps_table n q u d1) as [d2|er|er|]; try exact K.
    apply IHt; [intros v Hv; apply Hn; right; exact Hv|intros x Hx; apply K, H1; exact Hx|apply K; exact H2].
  - exists t. split; [exact Ht|]. split; [unfold undefined, table_of; rewrite Ea; reflexivity|reflexivity].
Qed.
Lemma deps_tables_blame : forall q m, main_of q = Some m -> forall n ts d, In (ft_names m) d -> (forall t, In t ts -> needed q t) ->
  match deps_tables n q ts d with
  | ROk d' => True
  | RErr er => exists u, needed q u /\ undefined q u /\ er = EMsg ("from undefined: '" ++ u ++ "'")
  | RPanic er => er = nil_deref /\ forall e st0, mishap e st0 q nil_pointer
  | RFuel => True
  end.
Proof.
  intros q m Hm n. induction ts as [|t ts IH]; intros d Hd Hn; [exact Logic.I|]. cbn [deps_tables].
  pose proof (deps_table_blame q m Hm n t d Hd (Hn t (or_introl eq_refl))) as K. destruct (deps_table n q t d) as [d'|er|er|]; try exact K.
  apply IH; [apply K; exact Hd|intros u Hu; apply Hn; right; exact Hu].
Qed.
Lemma deps_cte_blame : forall n q c d, match deps_cte n q c d with ROk _ | RFuel => True | _ => False end.
Proof.
  induction n as [|n IH]; intros q c d; [exact Logic.I|]. cbn [deps_cte]. destruct (dep_mem _ d); [exact Logic.I|].
  generalize ((c_name c, "") :: d). induction (c_deps c) as [|x l IHl]; intros d1; [exact Logic.I|].
  destruct (assoc x (q_cdict q)) as [c'|]; [|apply IHl]. pose proof (IH q c' d1) as K. destruct (deps_cte n q c' d1); try exact K. apply IHl.
Qed.
Lemma deps_ctes_blame : forall n q ids d, (forall id, In id ids -> In id (q_tables q)) ->
  match deps_ctes n q ids d with ROk _ | RFuel => True | RErr _ => False | RPanic er => er = nil_deref /\ forall e st0, mishap e st0 q nil_pointer end.
Proof.
  intros n q. induction ids as [|id ids IH]; intros d Hi; [exact Logic.I|]. cbn [deps_ctes].
  assert (Hi' : forall id, In id ids -> In id (q_tables q)) by (intros j Hj; apply Hi; right; exact Hj).
  destruct (nth_error (q_tobjs q) id) as [ft|] eqn:E; [|split; [reflexivity|]; intros e st0; eapply mh_dangling; [left; apply Hi; left; reflexivity|exact E]].
  destruct (_ && _); [apply IH; exact Hi'|]. destruct (assoc _ _) as [c|]; [|apply IH; exact Hi'].
  pose proof (deps_cte_blame n q c d) as K. destruct (deps_cte n q c d); try exact K; try (destruct K; fail). apply IH; exact Hi'.
Qed.
Lemma collect_blame : forall e st0 q, match collect_deps q with
  | RErr er => fault e st0 q (err_text er)
  | RPanic er => mishap e st0 q (err_text er)
  | _ => True
  end.
Proof.
  intros e st0 q. unfold collect_deps. fold (clause_builders q). unfold extract_tables.
  pose proof (extract_list_spec (clause_builders q) []) as X. unfold extracts in X.
  destruct (extract_list (clause_builders q) []) as [ts|].
  - destruct (q_tables q) as [|id ids] eqn:Et; [apply mh_none; exact Et|].
    destruct (nth_error (q_tobjs q) id) as [ft|] eqn:Eo; [|eapply mh_dangling; [left; rewrite Et; left; reflexivity|exact Eo]].
    assert (Hm : main_of q = Some ft) by (unfold main_of; rewrite Et; exact Eo).
    pose proof (deps_tables_blame q ft Hm (deps_fuel q) ts [ft_names ft] (or_introl eq_refl)) as K.
    assert (Hn : forall t, In t ts -> needed q t).
    { intros t Ht. apply (proj1 X t) in Ht. destruct Ht as [[]|(b & Hb & Hm')]. eapply nd_clause; eassumption. }
    specialize (K Hn). destruct (deps_tables (deps_fuel q) q ts [ft_names ft]) as [d|er|er|]; try exact Logic.I.
    + pose proof (deps_ctes_blame (deps_fuel q) q (id :: ids) d) as C. rewrite Et in C. specialize (C (fun i H => H)).
      destruct (deps_ctes _ _ _ _) as [d'|er|er|]; try exact Logic.I; [destruct C|]. destruct C as [-> C]. apply C.
    + destruct K as (u & H1 & H2 & ->). apply ft_undefined; assumption.
    + destruct K as [-> K]. apply K.
  - destruct X as (b & Hb & Hn). eapply mh_nil; eassumption.
Qed.

Section Query.
Variable e : env.
Variable st0 : store.
Variable n : nat.
Hypothesis Hrb : forall b st, grows st0 st -> blamed e st0 b (fst (build n e b st)).
Definition defect (q : qb) (o : outcome string) : Prop :=
  match o with RErr er => fault e st0 q (err_text er) | RPanic er => mishap e st0 q (err_text er) | _ => True end.
Definition defect' (q : qb) (o : outcome (list string)) : Prop :=
  match o with RErr er => fault e st0 q (err_text er) | RPanic er => mishap e st0 q (err_text er) | _ => True end.
Lemma blame_ctes : forall q d cs st, (forall c, In c cs -> In c (q_ctes q)) -> grows st0 st ->
  defect' q (fst (build_ctes_loop (build n e) cs d st)).
Proof.
  intros q d. induction cs as [|c cs IH]; intros st Hi Hst; [exact Logic.I|]. cbn [build_ctes_loop].
  assert (Hi' : forall c, In c cs -> In c (q_ctes q)) by (intros x Hx; apply Hi; right; exact Hx).
  destruct (dep_mem _ d); [|apply IH; assumption].
  pose proof (Hrb (c_builder c) st Hst) as K. pose proof (grows_build n e (c_builder c) st) as Gb.
  destruct (build n e (c_builder c) st) as [[s|er|er|] st1]; cbn [fst snd blamed] in *.
  - specialize (IH st1 Hi' (grows_trans _ _ _ Hst Gb)). destruct (build_ctes_loop _ cs d st1) as [[l|er|er|] st2]; exact IH.
  - unfold in_cte. cbn [defect']. apply (said (fault e st0 q) _ _ (ft_cte e st0 q c _ (Hi c (or_introl eq_refl)) K)). text.
  - eapply mh_cte; [apply Hi; left; reflexivity|exact K].
  - exact Logic.I.
Qed.
Lemma blame_from : forall q di d fts st, (forall ft, In ft fts -> In ft (listed q)) -> grows st0 st ->
  defect' q (fst (build_from_loop (build n e) di fts d st)).
Proof.
  intros q di d. induction fts as [|ft fts IH]; intros st Hi Hst; [exact Logic.I|]. cbn [build_from_loop].
  assert (Hi' : forall c, In c fts -> In c (listed q)) by (intros x Hx; apply Hi; right; exact Hx).
  destruct (_ && _); [apply IH; assumption|].
  replace (build_ofrag (build n e) (ft_frag ft) st) with (build n e (table_builder ft) st) by (unfold build_ofrag, table_builder; destruct (ft_frag ft); reflexivity).
  pose proof (Hrb (table_builder ft) st Hst) as K. pose proof (grows_build n e (table_builder ft) st) as Gb.
  destruct (build n e (table_builder ft) st) as [[s|er|er|] st1]; cbn [fst snd blamed] in *.
  - specialize (IH st1 Hi' (grows_trans _ _ _ Hst Gb)). destruct (build_from_loop _ _ fts d st1) as [[l|er|er|] st2]; exact IH.
  - unfold in_from. cbn [defect']. apply (said (fault e st0 q) _ _ (ft_table e st0 q ft _ (Hi ft (or_introl eq_refl)) K)). text.
  - eapply mh_table; [apply Hi; left; reflexivity|exact K].
  - exact Logic.I.
Qed.
Lemma blame_union : forall q bs st, (forall b, In b bs -> In b (q_unions q)) -> grows st0 st ->
  defect' q (fst (build_union_loop (build n e) bs st)).
Proof.
  intros q. induction bs as [|b bs IH]; intros st Hi Hst; [exact Logic.I|]. cbn [build_union_loop].
  assert (Hi' : forall c, In c bs -> In c (q_unions q)) by (intros x Hx; apply Hi; right; exact Hx).
  pose proof (Hrb b st Hst) as K. pose proof (grows_build n e b st) as Gb.
  destruct (build n e b st) as [[s|er|er|] st1]; cbn [fst snd blamed] in *.
  - specialize (IH st1 Hi' (grows_trans _ _ _ Hst Gb)). destruct (build_union_loop _ bs st1) as [[l|er|er|] st2]; exact IH.
  - eapply ft_union; [apply Hi; left; reflexivity|exact K].
  - eapply mh_union; [apply Hi; left; reflexivity|exact K].
  - exact Logic.I.
Qed.
(** Failing is failing because of some later state of the query builder. *)
Definition at_fault (id : nat) (o : outcome string) : Prop :=
  match o with
  | RErr _ | RPanic _ => exists q, grown (get_q st0 id) q /\ defect q o
  | _ => True
  end.
Lemma blame_bind : forall id x k, at_fault id (fst x) -> grows st0 (snd x) ->
  (forall s st, grows st0 st -> at_fault id (fst (k s st))) -> at_fault id (fst (bind x k)).
Proof. intros id [[s|er|er|] st] k H Hg Hk; cbn [bind fst snd] in *; try exact H. apply Hk. exact Hg. Qed.
Lemma fault_of : forall id q o, grown (get_q st0 id) q -> defect q o -> at_fault id o.
Proof. intros id q [s|er|er|] Hg Hd; cbn [at_fault]; try exact Logic.I; exists q; auto. Qed.
Lemma blame_part : forall id q f st, grown (get_q st0 id) q -> grows st0 st ->
  (forall m, fails e st0 (BFrag f) m -> fault e st0 q m) -> (forall m, panics e st0 (BFrag f) m -> mishap e st0 q m) ->
  at_fault id (fst (build n e (BFrag f) st)).
Proof.
  intros id q f st Hq Hst H1 H2. apply (fault_of id q); [exact Hq|]. pose proof (Hrb (BFrag f) st Hst) as K.
  destruct (fst (build n e (BFrag f) st)); cbn [defect blamed] in *; auto.
Qed.
Lemma grows_set' : forall st id q, grows st0 st -> grown (get_q st id) q -> grows st0 (set_q st id q).
Proof. intros st id q H K. eapply grows_trans; [exact H|apply grows_set; exact K]. Qed.
Lemma grows_after : forall b st, grows st0 st -> grows st0 (snd (build n e b st)).
Proof. intros b st H. eapply grows_trans; [exact H|apply grows_build]. Qed.
Lemma grows_rb : forall b st, grows st (snd (build n e b st)).
Proof. intros b st. apply grows_build. Qed.
Lemma blame_internal : forall id st, grows st0 st -> at_fault id (fst (build_internal (build n e) id st)).
Proof.
  intros id st Hst. unfold build_internal. cbn zeta. destruct (q_errors (get_q st id)) as [|er ers] eqn:Ee.
  2: { rewrite <- Ee. apply (fault_of id (get_q st id)); [apply Hst|]. cbn [fst defect]. unfold collected. cbn [err_text]. fold new_line. apply ft_errors. congruence. }
  pose proof (collect_blame e st0 (get_q st id)) as C. destruct (collect_deps (get_q st id)) as [d|er|er|].
  2,3: apply (fault_of id (get_q st id)); [apply Hst|exact C].
  2: exact Logic.I.
  apply blame_bind.
  { unfold build_ctes. pose proof (blame_ctes (get_q st id) d (q_ctes (get_q st id)) st (fun c H => H) Hst) as K.
    apply (fault_of id (get_q st id)); [apply Hst|]. destruct (build_ctes_loop _ _ d st) as [[[|x l]|er|er|] st1]; exact K. }
  { eapply grows_trans; [exact Hst|]. apply (step_ctes grows grows_refl grows_trans (build n e) grows_rb). }
  clear C Ee. clear dependent st. intros sq st Hst. apply blame_bind.
  { unfold build_from. pose proof (blame_from (get_q st id) (q_distinct (get_q st id)) d (from_tables (get_q st id)) st (fun c H => H) Hst) as K.
    apply (fault_of id (get_q st id)); [apply Hst|]. destruct (build_from_loop _ _ _ d st) as [[l|er|er|] st1]; exact K. }
  { eapply grows_trans; [exact Hst|]. apply (step_from grows grows_refl grows_trans (build n e) grows_rb). }
  clear d. clear dependent st. intros fr st Hst. apply blame_bind.
  { apply (blame_part id (get_q st id)); [apply Hst|exact Hst|apply ft_where|apply mh_where]. }
  { apply grows_after. exact Hst. }
  clear dependent st. intros wh st Hst. apply blame_bind.
  { apply (blame_part id (get_q st id)); [apply Hst|exact Hst|apply ft_group|apply mh_group]. }
  { apply grows_after. exact Hst. }
  clear dependent st. intros gr st Hst. apply blame_bind.
  { unfold build_orders. rewrite orders_spec. apply (blame_part id (get_q st id)); [apply Hst| |apply ft_order|apply mh_order].
    apply grows_set'; [exact Hst|apply gr_orders; apply gr_same]. }
  { eapply grows_trans; [exact Hst|]. apply (step_orders grows grows_trans grows_orders (build n e) grows_rb). }
  clear dependent st. intros ord st Hst. apply blame_bind.
  { unfold build_selects. set (q := get_q st id). fold (select_clause q). change (set_selects q _) with (with_select q).
    assert (H1 : grows st0 (set_q st id (with_select q))) by (apply grows_set'; [exact Hst|apply gr_select; apply gr_same]).
    pose proof (blame_part id q (select_clause q) _ (Hst id) H1 (ft_select e st0 q) (mh_select e st0 q)) as K.
    change (with_prefix (q_selects q) (if q_distinct q then "SELECT DISTINCT" else "SELECT")) with (select_clause q) in *.
    destruct (build n e (BFrag (select_clause q)) (set_q st id (with_select q))) as [[s|er|er|] st1] eqn:E1; try exact K.
    pose proof (grows_after (BFrag (select_clause q)) _ H1) as H2. rewrite E1 in H2. cbn [snd] in H2.
    pose proof (blame_part id (get_q st1 id) (q_touches (get_q st1 id)) st1 (H2 id) H2 (ft_hidden e st0 _) (mh_hidden e st0 _)) as K2.
    destruct (build n e (BFrag (q_touches (get_q st1 id))) st1) as [[t|er|er|] st2]; try exact K2.
    destruct s as [|c s]; cbn [is_empty]; [|destruct (is_empty t); exact Logic.I].
    apply (fault_of id q); [apply Hst|]. cbn [fst defect err_text]. eapply ft_nothing. exact E1. }
  { eapply grows_trans; [exact Hst|]. apply (step_selects grows grows_trans grows_selects (build n e) grows_rb). }
  intros sel st2 Hst2. cbn zeta. apply blame_bind.
  { destruct (q_unions (get_q st2 id)) as [|u us] eqn:Eu; [exact Logic.I|]. apply blame_bind; [| |intros; exact Logic.I].
    - unfold build_union. pose proof (blame_union (get_q st2 id) (u :: us) st2) as K. rewrite Eu in K. specialize (K (fun c H => H) Hst2).
      apply (fault_of id (get_q st2 id)); [apply Hst2|]. destruct (build_union_loop _ _ st2) as [[l|er|er|] st1]; exact K.
    - eapply grows_trans; [exact Hst2|]. apply (step_union grows grows_refl grows_trans (build n e) grows_rb). }
  { destruct (q_unions (get_q st2 id)) as [|u us]; [exact Hst2|]. eapply grows_trans; [exact Hst2|]. apply (step_bind grows grows_trans).
    - apply (step_union grows grows_refl grows_trans (build n e) grows_rb).
    - intros; apply grows_refl. }
  intros query st3 Hst3. destruct (q_debug (get_q st3 id)) eqn:Ed; [|exact Logic.I].
  destruct (interpolate _ query (st_args st3)) as [s|er|er|]; try exact Logic.I.
  apply (fault_of id (get_q st3 id)); [apply Hst3|]. apply mh_debug. exact Ed.
Qed.
End Query.

Lemma blame_any : forall e st0, proper_env e -> forall n b st, grows st0 st -> blamed e st0 b (fst (build n e b st)).
Proof.
  intros e st0 He. induction n as [|n IH]; intros b st Hst; [exact Logic.I|].
  destruct b as [| |f| |[f|] tb|tb|x a|[id|]|p]; cbn [build]; try exact Logic.I; try (constructor; fail).
  - apply blame_frag; try assumption. apply grows_build.
  - pose proof (blame_frag e st0 He (build n) (grows_build n) IH n f st Hst) as K.
    destruct (fst (build_frag n (build n) e f st)); cbn [blamed] in *; try exact Logic.I; [apply fl_column|apply pn_column]; exact K.
  - pose proof (blame_internal e st0 n IH id st Hst) as K. destruct (fst (build_internal (build n e) id st)) as [s|er|er|]; cbn [blamed at_fault defect] in *; try exact Logic.I.
    + destruct K as (q & Hq & Hd). eapply fl_query; eassumption.
    + destruct K as (q & Hq & Hd). eapply pn_query; eassumption.
  - destruct (fst (run_prog (build n) e p st)); cbn [blamed]; try exact Logic.I; [apply fl_custom|apply pn_custom].
Qed.
Theorem blame_error : forall e, proper_env e -> forall n b st er st', build n e b st = (RErr er, st') -> fails e st b (err_text er).
Proof. intros e He n b st er st' H. pose proof (blame_any e st He n b st (grows_refl st)) as K. rewrite H in K. exact K. Qed.
Theorem blame_panic : forall e, proper_env e -> forall n b st er st', build n e b st = (RPanic er, st') -> panics e st b (err_text er).
Proof. intros e He n b st er st' H. pose proof (blame_any e st He n b st (grows_refl st)) as K. rewrite H in K. exact K. Qed.
Lemma proper_builtins : proper_env [builtins].
Proof.
  intros nm f H. unfold lookup_fn, builtins in H. repeat (cbn [assoc] in H; match type of H with context [String.eqb ?a ?b] => destruct (String.eqb a b) end);
    cbn in H; try discriminate H; injection H as <-; unfold proper; cbn; discriminate.
Qed.
Theorem blame_query : forall n style h b er h', build_query n style h b = (RErr er, h') -> fails [builtins] (new_store style h) b (err_text er).
Proof.
  intros n style h b er h' H. unfold build_query in H. destruct (build n [builtins] b (new_store style h)) as [[s|e|e|] st'] eqn:E; try discriminate H.
  injection H as <- _. eapply blame_error; [apply proper_builtins|exact E].
Qed.
Theorem blame_where : forall n e f st er st', build n e (BFrag f) st = (RErr er, st') ->
  exists m, err_text er = "build '" ++ f_raw f ++ "': " ++ m \/ err_text er = "parse '" ++ f_raw f ++ "': " ++ m.
Proof.
  intros [|n] e f st er st' H; [discriminate H|]. cbn [build] in H. unfold build_frag in H. cbn zeta in H.
  destruct (parse (f_raw f)) as [es|o m| |]; try discriminate H.
  - destruct (clause_n _ _ _ _ _ _) as [[body|er'|er'|] S']; try discriminate H.
    + destruct (_ && _); [destruct (is_empty _); discriminate H|]. injection H as <- _. unfold in_frag. eexists. left. text.
    + injection H as <- _. unfold in_frag. eexists. left. text.
  - injection H as <- _. unfold not_parsed. eexists. right. text.
Qed.
