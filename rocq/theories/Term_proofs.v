(** Builds without unbounded functions terminate. *)
From Coq Require Import Strings.String Strings.Ascii NArith ZArith List Bool Lia.
From Verif Require Import GoStr GoNum Syntax Value Util Model Sqlf Sqlb.
From Verif Require Import Spec_syntax Grammar_proofs Lossless_proofs Fuel_proofs Util_proofs Spec_query Deps_proofs Spec_term.
Import ListNotations.
Open Scope string_scope.

(* ------------------------------------------------------------------ *)
(** * String arguments are shorter than the template *)

Lemma length_app : forall a b, String.length (a ++ b) = String.length a + String.length b.
Proof. induction a as [|c a IH]; intros b; [reflexivity|]. cbn. rewrite IH. reflexivity. Qed.

Lemma undouble_length : forall n s, String.length s <= n -> String.length (undouble_quotes s) <= String.length s.
Proof.
  induction n as [|n IH]; intros s H.
  - destruct s; [reflexivity|cbn [String.length] in H; lia].
  - destruct s as [|a [|b s]]; [reflexivity|cbn; lia|].
    change (undouble_quotes (String a (String b s))) with
      (if Ascii.eqb a quote_char && Ascii.eqb b quote_char then String quote_char (undouble_quotes s)
       else String a (undouble_quotes (String b s))).
    cbn [String.length] in H. destruct (_ && _).
    + pose proof (IH s ltac:(lia)). cbn [String.length]. lia.
    + pose proof (IH (String b s) ltac:(cbn [String.length]; lia)) as K. cbn [String.length] in *. lia.
Qed.

Lemma args_source_length : forall l t, args_source l t -> forall s, In (LStr s) l -> String.length s < String.length t.
Proof.
  assert (A : forall v a s, arg_source v a -> v = LStr s -> String.length s < String.length a).
  { intros v a s H E. inversion H; subst; try discriminate.
    match goal with K : LStr _ = LStr _ |- _ => injection K as <- end.
    cbn [append String.length]. rewrite length_app. pose proof (undouble_length _ b (Nat.le_refl _)). lia. }
  intros l t H. induction H as [w Hw|v w1 a w2 H1 Ha H2|v l w1 a w2 t H1 Ha H2 H IH]; intros s Hi.
  - inversion Hi.
  - destruct Hi as [->|[]]. pose proof (A _ _ s Ha eq_refl). rewrite !length_app. lia.
  - rewrite !length_app. destruct Hi as [->|Hi].
    + pose proof (A _ _ s Ha eq_refl). lia.
    + specialize (IH s Hi). lia.
Qed.

Lemma source_length : forall es srcs, Forall2 source es srcs -> forall nm args s, In (ACall nm args) es -> In (LStr s) args ->
  String.length s < String.length (concat_all srcs).
Proof.
  intros es srcs H. induction H as [|x t es srcs Hx H IH]; intros nm args s Hi Ha; [inversion Hi|].
  cbn [concat_all fold_right]. rewrite length_app. destruct Hi as [->|Hi].
  - inversion Hx; subst.
    + destruct Ha as [E|[]]. discriminate E.
    + match goal with K : args_source _ _ |- _ => pose proof (args_source_length _ _ K s Ha) end.
      rewrite !length_app. lia.
  - specialize (IH nm args s Hi Ha). unfold concat_all in IH. lia.
Qed.

Lemma in_norm : forall es nm args, In (ACall nm args) (norm es) <-> In (ACall nm args) es.
Proof.
  induction es as [|x es IH]; intros nm args; [reflexivity|].
  destruct x as [t|k i|n a|n]; cbn [norm].
  - rewrite <- (IH nm args) || idtac.
    assert (E : In (ACall nm args) (cons_text t (norm es)) <-> In (ACall nm args) (norm es)).
    { unfold cons_text. destruct (norm es) as [|[u|k i|n a|n] r]; try destruct (is_empty t); cbn [In]; split; intros H;
        repeat match goal with K : _ \/ _ |- _ => destruct K as [K|K] end; try discriminate; auto. }
    rewrite E, IH. cbn [In]. split; [auto|]. intros [K|K]; [discriminate|exact K].
  - cbn [In]. rewrite IH. reflexivity.
  - cbn [In]. rewrite IH. reflexivity.
  - cbn [In]. rewrite IH. reflexivity.
Qed.

Lemma nul_split : forall s, no_nul s = true \/ exists a x, no_nul a = true /\ s = a ++ String nul x.
Proof.
  induction s as [|c s IH]; [left; reflexivity|]. destruct (Ascii.eqb c nul) eqn:E.
  - apply Ascii.eqb_eq in E. subst c. right. exists "", s. split; reflexivity.
  - destruct IH as [H|(a & x & H & ->)].
    + left. unfold no_nul in *. cbn [all]. rewrite E. exact H.
    + right. exists (String c a), x. split; [|reflexivity]. unfold no_nul in *. cbn [all]. rewrite E. exact H.
Qed.

Lemma parse_shorter : forall tmpl es nm args p s, parse tmpl = POk es -> In (ECall nm args p) es -> In (LStr s) args ->
  String.length s < String.length tmpl.
Proof.
  intros tmpl es nm args p s Hp Hi Ha.
  assert (Hs : In (ACall nm args) (map strip es)) by (apply in_map_iff; exists (ECall nm args p); split; [reflexivity|exact Hi]).
  destruct (nul_split tmpl) as [Hn|(a & x & Hn & E)].
  - destruct (parse_lossless tmpl es Hn Hp) as (srcs & F & E). rewrite <- E. eapply source_length; eassumption.
  - pose proof (parsed_nul a x) as Hx. rewrite <- E in Hx. unfold parsed in Hx. rewrite Hp in Hx.
    destruct (parse a) as [es'|o m| |] eqn:Ep; try discriminate. injection Hx as Hx.
    destruct (parse_lossless a es' Hn Ep) as (srcs & F & Ec).
    apply (proj2 (in_norm _ _ _)) in Hs. rewrite Hx in Hs. apply (proj1 (in_norm _ _ _)) in Hs.
    pose proof (source_length _ _ F nm args s Hs Ha) as L. rewrite Ec in L. rewrite E, length_app. lia.
Qed.

(* ------------------------------------------------------------------ *)
(** * Settling *)

(** A computation with fuel that reaches a result. *)
Definition settles {A S} (X : nat -> nat -> outcome A * S) : Prop :=
  exists N x, fst x <> RFuel /\ forall n m, N <= n -> N <= m -> X n m = x.

Lemma settles_const : forall {A S} (x : outcome A * S), fst x <> RFuel -> settles (fun _ _ => x).
Proof. intros A S x H. exists 0, x. auto. Qed.

Lemma settles_bind : forall {A B S T} (X : nat -> nat -> outcome A * S) (K : nat -> nat -> outcome A * S -> outcome B * T),
  settles X -> (forall N x, fst x <> RFuel -> (forall n m, N <= n -> N <= m -> X n m = x) -> settles (fun n m => K n m x)) ->
  settles (fun n m => K n m (X n m)).
Proof.
  intros A B S T X K (N & x & Hx & HX) HK. destruct (HK N x Hx HX) as (M & y & Hy & HY).
  exists (N + M), y. split; [exact Hy|]. intros n m Hn Hm. rewrite HX by lia. apply HY; lia.
Qed.

Lemma settles_ext : forall {A S} (X Y : nat -> nat -> outcome A * S), (forall n m, X n m = Y n m) -> settles X -> settles Y.
Proof. intros A S X Y E (N & x & Hx & HX). exists N, x. split; [exact Hx|]. intros n m Hn Hm. rewrite <- E. auto. Qed.

(* ------------------------------------------------------------------ *)
(** * Functions that do not build *)

Lemma commit_no_fuel : forall v st, fst (commit v st) <> RFuel.
Proof.
  intros v st. unfold commit. destruct (st_dollar st); [|discriminate]. destruct (hashable v); [|discriminate].
  destruct (dict_find _ _); discriminate.
Qed.

Lemma leaf_run : forall p, leaf p -> forall st, exists x, fst x <> RFuel /\ forall rb e, run_prog rb e p st = x.
Proof.
  intros p H. induction H as [s [e|]|e|v k H IH|k H IH|p k Hp IHp H IH|z p k Hp IHp H IH]; intros st.
  - exists (RErr e, st). split; [discriminate|reflexivity].
  - exists (ROk s, st). split; [discriminate|reflexivity].
  - exists (RPanic e, st). split; [discriminate|reflexivity].
  - cbn [run_prog]. pose proof (commit_no_fuel v st) as C. destruct (commit v st) as [[s|er|er|] st'].
    + destruct (IH s st') as (x & Hx & E). exists x. auto.
    + exists (RErr er, st'). split; [discriminate|reflexivity].
    + exists (RPanic er, st'). split; [discriminate|reflexivity].
    + exfalso. apply C. reflexivity.
  - cbn [run_prog]. apply IH.
  - cbn [run_prog]. destruct (IHp st) as ([r st'] & Hr & E). destruct (IH r st') as (x & Hx & E'). exists x. split; [exact Hx|].
    intros rb e. rewrite E. destruct r; try apply E'. exfalso. apply Hr. reflexivity.
  - cbn [run_prog]. destruct (IHp (new_store z (st_heap st))) as ([r st'] & Hr & E).
    destruct (IH (match r with ROk s => ROk (s, st_args st') | RErr er => RErr er | RPanic er => RPanic er | RFuel => RFuel end) (set_heap st (st_heap st'))) as (x & Hx & E').
    exists x. split; [exact Hx|]. intros rb e. rewrite E. destruct r; try apply E'. exfalso. apply Hr. reflexivity.
Qed.

Lemma fails_run : forall p, fails p -> forall rb e st s, fst (run_prog rb e p st) <> ROk s.
Proof.
  intros p H. induction H as [s e|e|v k H IH|k H IH|p k H IH|z p k H IH]; intros rb e' st t; cbn [run_prog]; try discriminate.
  - destruct (commit v st) as [[s|er|er|] st']; try discriminate. apply IH.
  - apply IH.
  - destruct (run_prog rb e' p st) as [[] st']; try discriminate; apply IH.
  - destruct (run_prog rb _ p _) as [[] st']; try discriminate; apply IH.
Qed.

Lemma norm_no_fuel : forall outs r, r <> RFuel -> norm_outs outs r <> RFuel.
Proof. intros [|t [|u outs]] [] H; cbn [norm_outs]; try discriminate; contradiction. Qed.

Lemma safe_settles : forall {S} name (X : nat -> nat -> outcome string * S), settles X -> settles (fun n m => safe name (X n m)).
Proof.
  intros S name X H. apply (settles_bind X (fun _ _ x => safe name x) H). intros N x Hx _. apply settles_const.
  destruct x as [[] s]; cbn in *; try discriminate; contradiction.
Qed.

Lemma bounded_builtins : bounded_env [builtins].
Proof.
  intros layer nm f [<-|[]] Hi. unfold builtins in Hi. cbn [In] in Hi.
  destruct Hi as [E|[E|[E|[E|[]]]]]; inversion E; exact I.
Qed.
Lemma lookup_bounded : forall e name f, bounded_env e -> lookup_fn e name = Some f -> bounded f.
Proof.
  induction e as [|m e IH]; intros name f H L; cbn [lookup_fn] in L; [discriminate|].
  destruct (assoc name m) as [g|] eqn:A.
  - injection L as <-. apply assoc_in in A. exact (H m name g (or_introl eq_refl) A).
  - apply (IH name f); [|exact L]. intros layer nm g Hl. apply H. right. exact Hl.
Qed.

Lemma eval_args_no_fuel : forall ts args, eval_args ts args <> RFuel.
Proof.
  induction ts as [|t ts IH]; intros [|a args]; cbn [eval_args]; try discriminate.
  destruct a, t; cbn [eval_arg]; try discriminate; apply IH.
Qed.

(* ------------------------------------------------------------------ *)
(** * Dependencies *)

Lemma deps_table_incl : forall n q t d d', deps_table n q t d = ROk d' -> incl d d'.
Proof.
  induction n as [|n IH]; intros q t d d' H; [discriminate H|]. rewrite deps_table_S in H.
  destruct (assoc t (q_tdict q)) as [id|]; [|discriminate H]. destruct (nth_error (q_tobjs q) id) as [ft|]; [|discriminate H].
  destruct (dep_mem (ft_names ft) d); [injection H as <-; apply incl_refl|]. destruct (ft_frag ft) as [f|]; [|discriminate H].
  destruct (extract_frag f []) as [ts|]; [|discriminate H].
  assert (incl (ft_names ft :: d) d'); [|intros x Hx; apply H0; right; exact Hx].
  revert H. generalize (ft_names ft :: d). induction ts as [|u ts IHs]; intros d0 H; cbn [deps_go] in H; [injection H as <-; apply incl_refl|].
  destruct (String.eqb u t); [apply IHs; exact H|].
  destruct (deps_table n q u d0) as [d1|er|er|] eqn:E; try discriminate H. eapply incl_tran; [exact (IH _ _ _ _ E)|exact (IHs _ H)].
Qed.
Lemma deps_table_stops : forall n q t d, todo q d < n -> deps_table n q t d <> RFuel.
Proof.
  induction n as [|n IH]; intros q t d Hn; [lia|]. rewrite deps_table_S.
  destruct (assoc t (q_tdict q)) as [id|]; [|discriminate]. destruct (nth_error (q_tobjs q) id) as [ft|] eqn:N; [|discriminate].
  destruct (dep_mem (ft_names ft) d) eqn:M; [discriminate|]. destruct (ft_frag ft) as [f|]; [|discriminate].
  destruct (extract_frag f []) as [ts|]; [|discriminate].
  assert (L : todo q (ft_names ft :: d) < n).
  { assert (todo q (ft_names ft :: d) < todo q d); [|lia]. unfold todo. apply filter_lt with ft.
    - intros x K. apply negb_true_iff in K. apply dep_mem_not in K. apply negb_true_iff, dep_mem_not. intros J. apply K. right. exact J.
    - eapply nth_error_In. exact N.
    - apply negb_false_iff, dep_mem_iff. left. reflexivity.
    - rewrite M. reflexivity. }
  revert L. generalize (ft_names ft :: d). induction ts as [|u ts IHs]; intros d0 L; cbn [deps_go]; [discriminate|].
  destruct (String.eqb u t); [apply IHs; exact L|].
  pose proof (IH q u d0 L) as K.
  destruct (deps_table n q u d0) as [d1|er|er|] eqn:E; try discriminate; [|contradiction].
  apply IHs. pose proof (todo_mono q d0 d1 (deps_table_incl _ _ _ _ _ E)). lia.
Qed.
Lemma deps_tables_stop : forall n q ts d, todo q d < n -> deps_tables n q ts d <> RFuel.
Proof.
  intros n q. induction ts as [|t ts IH]; intros d Hn; cbn [deps_tables]; [discriminate|].
  pose proof (deps_table_stops n q t d Hn) as K.
  destruct (deps_table n q t d) as [d1|er|er|] eqn:E; try discriminate; [|contradiction].
  apply IH. pose proof (todo_mono q d d1 (deps_table_incl _ _ _ _ _ E)). lia.
Qed.
Lemma deps_cte_incl : forall n q c d d', deps_cte n q c d = ROk d' -> incl d d'.
Proof.
  induction n as [|n IH]; intros q c d d' H; [discriminate H|]. rewrite deps_cte_S in H.
  destruct (dep_mem (c_name c, "") d); [injection H as <-; apply incl_refl|].
  assert (incl ((c_name c, "") :: d) d'); [|intros x Hx; apply H0; right; exact Hx].
  revert H. generalize ((c_name c, "") :: d). induction (c_deps c) as [|u ts IHs]; intros d0 H; cbn [cte_go] in H; [injection H as <-; apply incl_refl|].
  destruct (assoc u (q_cdict q)) as [cu|]; [|apply IHs; exact H].
  destruct (deps_cte n q cu d0) as [d1|er|er|] eqn:E; try discriminate H. eapply incl_tran; [exact (IH _ _ _ _ E)|exact (IHs _ H)].
Qed.
Lemma deps_cte_stops : forall n q nm c d, assoc nm (q_cdict q) = Some c -> ctodo q d < n -> deps_cte n q c d <> RFuel.
Proof.
  induction n as [|n IH]; intros q nm c d Hn Hl; [lia|]. rewrite deps_cte_S. destruct (dep_mem (c_name c, "") d) eqn:M; [discriminate|].
  assert (L : ctodo q ((c_name c, "") :: d) < n).
  { assert (ctodo q ((c_name c, "") :: d) < ctodo q d); [|lia]. unfold ctodo. apply filter_lt with (nm, c).
    - intros x K. apply negb_true_iff in K. apply dep_mem_not in K. apply negb_true_iff, dep_mem_not. intros J. apply K. right. exact J.
    - apply assoc_in. exact Hn.
    - apply negb_false_iff, dep_mem_iff. left. reflexivity.
    - cbn [snd]. rewrite M. reflexivity. }
  revert L. generalize ((c_name c, "") :: d). induction (c_deps c) as [|x l IHl]; intros d0 L; cbn [cte_go]; [discriminate|].
  destruct (assoc x (q_cdict q)) as [cx|] eqn:Ex; [|apply IHl; exact L].
  pose proof (IH q x cx d0 Ex L) as K.
  destruct (deps_cte n q cx d0) as [d1|er|er|] eqn:E; try discriminate; [|contradiction].
  apply IHl. pose proof (ctodo_mono q d0 d1 (deps_cte_incl _ _ _ _ _ E)). lia.
Qed.
Lemma deps_ctes_stop : forall q ids d, deps_ctes (deps_fuel q) q ids d <> RFuel.
Proof.
  intros q. induction ids as [|id ids IH]; intros d; cbn [deps_ctes]; [discriminate|].
  destruct (nth_error _ id) as [ft|]; [|discriminate]. destruct (_ && _ && _); [apply IH|].
  destruct (assoc _ (q_cdict q)) as [c|] eqn:A; [|apply IH].
  pose proof (deps_cte_stops (deps_fuel q) q _ c d A (ctodo_fuel q d)) as K.
  destruct (deps_cte _ q c d) as [d1|er|er|]; try discriminate; [apply IH|contradiction].
Qed.
Lemma collect_no_fuel : forall q, collect_deps q <> RFuel.
Proof.
  intros q. rewrite collect_unfold. destruct (extract_tables _) as [ts|]; [|discriminate].
  destruct (q_tables q) as [|id ids] eqn:Et; [discriminate|]. destruct (nth_error (q_tobjs q) id) as [ft|]; [|discriminate].
  assert (L : todo q [ft_names ft] < deps_fuel q).
  { unfold todo, deps_fuel.
    pose proof (filter_le (fun f => negb (dep_mem (ft_names f) [ft_names ft])) (fun _ => true) (q_tobjs q) (fun _ _ => eq_refl)) as L.
    assert (A : forall (l : list from_table), filter (fun _ => true) l = l) by (induction l as [|x l IH]; [reflexivity|cbn; rewrite IH; reflexivity]).
    rewrite A in L. lia. }
  pose proof (deps_tables_stop (deps_fuel q) q ts [ft_names ft] L) as F.
  destruct (deps_tables _ _ _ _) as [d|er|er|]; try discriminate; [|contradiction].
  apply deps_ctes_stop.
Qed.

Section Rank.
Variable rank : nat -> nat.
Definition sound (st : store) : Prop := acyclic rank (st_heap st).

Lemma in_upd : forall {A} (l : list A) i x j y, nth_error (upd i x l) j = Some y ->
  (j = i /\ y = x /\ i < List.length l) \/ (j <> i /\ nth_error l j = Some y).
Proof.
  induction l as [|a l IH]; intros i x j y H.
  - destruct i, j; cbn in H; discriminate.
  - destruct i as [|i], j as [|j]; cbn in *.
    + injection H as ->. left. split; [reflexivity|]. split; [reflexivity|lia].
    + right. split; [lia|exact H].
    + right. split; [lia|exact H].
    + destruct (IH i x j y H) as [(-> & -> & L)|(N & K)]; [left|right]; (split; [lia|]); [split; [reflexivity|lia]|exact K].
Qed.

Lemma below_append : forall k f l, below rank k (BFrag f) -> (forall b, In b l -> below rank k b) -> below rank k (BFrag (append_frags f l)).
Proof.
  intros k [raw args frags p s] l H Hl. unfold append_frags, with_frags. cbn [f_raw f_args f_frags f_prefix f_suffix].
  inversion H; subst. constructor. intros b Hb. apply in_app_or in Hb. destruct Hb; auto.
Qed.
Lemma below_prefix : forall k f x, below rank k (BFrag f) -> below rank k (BFrag (with_prefix f x)).
Proof.
  intros k [raw args frags p s] x H. unfold with_prefix. cbn [f_raw f_args f_frags f_prefix f_suffix].
  inversion H; subst. constructor. assumption.
Qed.

Lemma orders_below : forall os i q items k, below_qb rank k q -> (forall o, In o os -> below rank k (fst o)) ->
  (forall b, In b items -> below rank k b) ->
  below_qb rank k (fst (orders_loop i os q items)) /\ (forall b, In b (snd (orders_loop i os q items)) -> below rank k b).
Proof.
  induction os as [|[col o] os IH]; intros i q items k Hq Ho Hi; cbn [orders_loop].
  - cbn [fst snd]. auto.
  - assert (Hc : below rank k col) by (apply (Ho (col, o)); left; reflexivity).
    assert (Ho' : forall o, In o os -> below rank k (fst o)) by (intros y Hy; apply Ho; right; exact Hy).
    assert (Hf : forall raw, below rank k (BFrag (Ff raw [col]))) by (intros raw; constructor; intros b [<-|[]]; exact Hc).
    destruct (N.ltb max_order o); [|destruct (q_distinct q)].
    + destruct (IH (S i) (push_error q (bad_order o)) items k) as (A & B); auto.
    + match goal with |- context [orders_loop (S i) os ?q1 ?it] => destruct (IH (S i) q1 it k) as (A & B) end; auto.
      * destruct Hq as (H1 & H2 & H3 & H4 & H5 & H6 & H7 & H8). unfold below_qb, set_touches. cbn. repeat (apply conj; auto).
        apply below_append; [exact H4|]. intros b [<-|[]]. apply Hf.
      * intros b Hb. apply in_app_or in Hb. destruct Hb as [Hb|[<-|[]]]; [auto|]. constructor. intros b [].
    + match goal with |- context [orders_loop (S i) os ?q1 ?it] => destruct (IH (S i) q1 it k) as (A & B) end; auto.
      intros b Hb. apply in_app_or in Hb. destruct Hb as [Hb|[<-|[]]]; [auto|]. apply Hf.
Qed.

Lemma sound_set : forall st id f, sound st ->
  (forall q, below_qb rank (rank id) q -> below_qb rank (rank id) (f q)) ->
  sound (set_q st id (f (get_q st id))).
Proof.
  intros st id f H Hf j q Hj. unfold set_q, set_heap in Hj. cbn [st_heap] in Hj. apply in_upd in Hj.
  destruct Hj as [(-> & -> & L)|(N & K)]; [|exact (H j q K)].
  apply Hf. apply (H id). unfold get_q. apply nth_error_nth'. exact L.
Qed.

Lemma sound_selects : forall st id, sound st -> sound (set_q st id (selects_prefixed (get_q st id))).
Proof.
  intros st id H. apply sound_set; [exact H|]. intros q (H1 & H2 & H3 & H4 & H5 & H6 & H7 & H8).
  unfold below_qb, selects_prefixed, set_selects. cbn. repeat (apply conj; auto). apply below_prefix, H3.
Qed.
Lemma sound_orders : forall st id, sound st -> sound (set_q st id (orders_done (get_q st id))).
Proof.
  intros st id H. apply sound_set; [exact H|]. intros q B. unfold orders_done.
  apply (orders_below (q_orders q) 0 q [] (rank id) B).
  - destruct B as (_ & _ & _ & _ & _ & _ & H7 & _). exact H7.
  - intros b [].
Qed.

Definition R (a b : store) : Prop := sound a -> sound b.
Lemma R_refl : forall st, R st st. Proof. intros st H. exact H. Qed.
Lemma R_trans : forall a b c, R a b -> R b c -> R a c. Proof. unfold R. auto. Qed.
Lemma R_commit : forall v st, R st (snd (commit v st)).
Proof.
  intros v st H. unfold commit. destruct (st_dollar st); [|exact H]. destruct (hashable v); [|exact H].
  destruct (dict_find _ _); exact H.
Qed.
Lemma R_fresh : forall z st st', R (new_store z (st_heap st)) st' -> R st (set_heap st (st_heap st')).
Proof. intros z st st' H K. exact (H K). Qed.
Lemma sound_build : forall n e b st, R st (snd (build n e b st)).
Proof. exact (step_build R R_refl R_trans R_commit sound_selects sound_orders R_fresh). Qed.
Lemma sound_prog : forall n p e st, R st (snd (run_prog (build n) e p st)).
Proof. intros n. apply (step_prog R R_refl R_trans R_commit R_fresh). apply sound_build. Qed.
Lemma sound_clause_n : forall n m e fc es S, R (fs_st S) (fs_st (snd (clause_n m (build n) e fc es S))).
Proof. intros n m. apply (step_clause_n R R_refl R_trans R_commit R_fresh). intros. apply sound_build. Qed.

(* ------------------------------------------------------------------ *)
(** * Clauses *)

Section Frame.
Variable e : env.
Hypothesis He : bounded_env e.
Variable fc : frame.
Hypothesis Hchild : forall b, In b (fr_frags fc) -> forall st, sound st -> settles (fun n _ => build n e b st).

Lemma prep_settles : forall es st, exists x, fst x <> RFuel /\ (forall rb, join_prep rb e es st = x) /\
  (forall k, fst x = ROk (Datatypes.S k) -> exists name p f, In (EFunc name p) es /\ lookup_fn e name = Some f /\
     takes_index (sig_of f) = true /\ exists t, fs_outs (sig_of f) = [t; GError]).
Proof.
  induction es as [|x es IH]; intros st.
  - exists (ROk 0, st). split; [discriminate|]. split; [reflexivity|]. discriminate.
  - destruct x as [t p|a i p|name args p|name p]; cbn [join_prep].
    1-3: destruct (IH st) as (x & Hx & E & K); exists x; split; [exact Hx|]; split; [exact E|];
      intros k Hk; destruct (K k Hk) as (nm & q & f & Hi & R'); exists nm, q, f; split; [right; exact Hi|exact R'].
    destruct (lookup_fn e name) as [f|] eqn:L.
    2:{ eexists. split; [|split; [reflexivity|]]; discriminate. }
    pose proof (lookup_bounded e name f He L) as Bf.
    assert (Hcompat : exists c st', (forall rb, join_compat rb name f st = (c, false, st')) /\
      (c = true -> takes_index (sig_of f) = true /\ exists t, fs_outs (sig_of f) = [t; GError])).
    { unfold join_compat.
      match goal with |- context [negb ?s] => destruct s eqn:Sg end; cbn [negb].
      - assert (Hs : takes_index (sig_of f) = true /\ exists t, fs_outs (sig_of f) = [t; GError]).
        { apply andb_prop in Sg. destruct Sg as [S1 S2]. split.
          - unfold takes_index. exact S2.
          - destruct (fs_outs (sig_of f)) as [|t [|[] [|]]]; try discriminate. exists t. reflexivity. }
        destruct f as [| | |sg body]; try (exists true, st; split; [reflexivity|auto]; fail).
        destruct Bf as [Lf _].
        destruct (leaf_run _ (Lf [LInt 0]) (new_store style_question (st_heap st))) as ([r s'] & Hr & E).
        pose proof (norm_no_fuel (fs_outs sg) r Hr) as Hn.
        destruct (norm_outs (fs_outs sg) r) as [s|er|er|] eqn:No; [| | |contradiction].
        + exists false, (set_heap st (st_heap s')). split; [|auto]. intros rb. rewrite E, No. reflexivity.
        + exists (is_invalid_index (EWrap ("error calling #" ++ name) er)), (set_heap st (st_heap s')).
          split; [|auto]. intros rb. rewrite E, No. reflexivity.
        + exists (is_invalid_index (EWrap ("error calling #" ++ name) er)), (set_heap st (st_heap s')).
          split; [|auto]. intros rb. rewrite E, No. reflexivity.
      - exists false, st. split; [reflexivity|discriminate]. }
    destruct Hcompat as (c & st' & Hc & Hs). destruct c.
    + destruct (IH st') as ([r s2] & Hx & E & K). cbn [fst] in *.
      exists (match r with ROk k => ROk (Datatypes.S k) | RErr er => RErr er | RPanic er => RPanic er | RFuel => RFuel end, s2).
      split; [destruct r; try discriminate; contradiction|]. split.
      * intros rb. rewrite Hc, E. destruct r; reflexivity.
      * intros k Hk. exists name, p, f. split; [left; reflexivity|]. split; [exact L|auto].
    + eexists. split; [|split; [intros rb; rewrite Hc; reflexivity|]]; discriminate.
Qed.

(** Beyond some index a join template with a function cannot be evaluated. *)
Lemma call_beyond : forall name f, lookup_fn e name = Some f -> takes_index (sig_of f) = true ->
  (exists t, fs_outs (sig_of f) = [t; GError]) ->
  exists last, forall i, (last < i)%Z -> forall rb rc jf S s, fst (eval_function rb rc jf e fc name [LInt i] S) <> ROk s.
Proof.
  intros name f L Ti (t & Ho). pose proof (lookup_bounded e name f He L) as Bf.
  assert (H : exists last, forall i, (last < i)%Z -> forall rb rc jf S s, fst (call_fn rb rc jf e fc f [LInt i] S) <> ROk s).
  { assert (N : forall {A} (l : list A) i, (Z.of_nat (List.length l) < i)%Z -> nth1 l i = None).
    { intros A l i Hi. unfold nth1. destruct (i <=? Z.of_nat (List.length l))%Z eqn:Q; [apply Z.leb_le in Q; lia|].
      rewrite andb_false_r. reflexivity. }
    destruct f as [| | |sg body]; cbn [sig_of] in *.
    - exists (Z.of_nat (List.length (fr_args fc))). intros i Hi rb rc jf S s. cbn [call_fn lit_int]. unfold func_arg. rewrite N by exact Hi. discriminate.
    - exists (Z.of_nat (List.length (fr_frags fc))). intros i Hi rb rc jf S s. cbn [call_fn lit_int]. unfold func_fragment. rewrite N by exact Hi. discriminate.
    - discriminate Ti.
    - destruct Bf as [_ Bl]. destruct (Bl Ti) as (last & Hl). exists last. intros i Hi rb rc jf S s. cbn [call_fn].
      pose proof (fails_run _ (Hl i Hi) rb e (fs_st S)) as F. destruct (run_prog rb e (body [LInt i]) (fs_st S)) as [r st']. cbn [fst] in *.
      rewrite Ho. destruct r; cbn; try discriminate. exfalso. eapply F. reflexivity. }
  destruct H as (last & H). exists last. intros i Hi rb rc jf S s. unfold eval_function. rewrite L. unfold eval_call.
  destruct (arity_ok _ _); [|discriminate]. destruct (eval_args _ _); try discriminate.
  destruct (any_rejected _ _); [discriminate|].
  specialize (H i Hi rb rc jf S). destruct (call_fn rb rc jf e fc f [LInt i] S) as [r S']. cbn [fst] in H.
  destruct r as [x|er|er|]; cbn; try discriminate. intros E. injection E as ->. exact (H s eq_refl).
Qed.

Lemma template_beyond : forall es name p f, In (EFunc name p) es -> lookup_fn e name = Some f -> takes_index (sig_of f) = true ->
  (exists t, fs_outs (sig_of f) = [t; GError]) ->
  exists last, forall i, (last < i)%Z -> forall n m S s, fst (clause_n m (build n) e fc (set_index i es) S) <> ROk s.
Proof.
  intros es name p f Hi L Ti Ho. destruct (call_beyond name f L Ti Ho) as (last & H). exists last. intros i Hlt n m.
  destruct m as [|m]; [discriminate|]. cbn [clause_n].
  induction es as [|x es IH]; [inversion Hi|]. intros S s. cbn [set_index map clause]. fold (set_index i es).
  destruct Hi as [->|Hi].
  - cbn [eval_expr]. specialize (H i Hlt (build n) (clause_n m (build n)) m S).
    destruct (eval_function _ _ _ e fc name [LInt i] S) as [[x|er|er|] S']; try discriminate. exfalso. eapply H. reflexivity.
  - destruct (eval_expr _ _ _ e fc _ S) as [[x0|er|er|] S']; try discriminate.
    specialize (IH Hi S'). destruct (clause _ _ _ e fc (set_index i es) S') as [[y|er|er|] S2]; try discriminate.
    exfalso. exact (IH y eq_refl).
Qed.

(** String arguments shorter than [k]. *)
Definition short (k : nat) (es : list expr) : Prop :=
  forall nm args p s, In (ECall nm args p) es -> In (LStr s) args -> String.length s < k.
Lemma short_index : forall k es i, short k es -> short k (set_index i es).
Proof.
  intros k es i H nm args p s Hi Ha. unfold set_index in Hi. apply in_map_iff in Hi. destruct Hi as (x & E & Hx).
  destruct x; try discriminate.
  - injection E as -> -> ->. eapply H; eassumption.
  - injection E as <- <- <-. destruct Ha as [Ha|[]]. discriminate Ha.
Qed.

Lemma loop_settles : forall es last,
  (forall i S, sound (fs_st S) -> settles (fun n m => clause_n m (build n) e fc (set_index i es) S)) ->
  (forall i, (last < i)%Z -> forall n m S s, fst (clause_n m (build n) e fc (set_index i es) S) <> ROk s) ->
  forall d i sep from to acc S, (Z.to_nat (last + 1 - i) <= d)%nat -> sound (fs_st S) ->
  exists N x, fst x <> RFuel /\ forall n m j, N <= n -> N <= m -> N <= j -> join_loop (clause_n m (build n)) j e fc es sep from to i acc S = x.
Proof.
  intros es last Hs Hl. induction d as [|d IH]; intros i sep from to acc S Hd HS;
    destruct (Hs i S HS) as (N & [r S'] & Hx & HX); cbn [fst] in Hx;
    assert (HS' : sound (fs_st S'));
    try (pose proof (sound_clause_n N N e fc (set_index i es) S HS) as K; rewrite HX in K by lia; exact K).
  - assert (last < i)%Z by lia. pose proof (Hl i H N N S) as Nok. rewrite HX in Nok by lia. cbn [fst] in Nok.
    destruct r as [s|er|er|]; [exfalso; exact (Nok s eq_refl)| | |contradiction].
    + exists (Datatypes.S N). eexists. split; [|intros n m [|j] Hn Hm Hj; [lia|]; cbn [join_loop]; rewrite HX by lia; reflexivity].
      cbn. destruct (is_invalid_index er); [destruct (_ || _)|]; discriminate.
    + exists (Datatypes.S N). eexists. split; [|intros n m [|j] Hn Hm Hj; [lia|]; cbn [join_loop]; rewrite HX by lia; reflexivity]. discriminate.
  - destruct r as [s|er|er|]; [| | |contradiction].
    + destruct ((0 <? to)%Z && (to <=? i)%Z) eqn:Q.
      * exists (Datatypes.S N). eexists. split; [|intros n m [|j] Hn Hm Hj; [lia|]; cbn [join_loop]; rewrite HX by lia; rewrite Q; reflexivity]. discriminate.
      * match goal with |- exists N0 x, _ /\ forall n m j, _ -> _ -> _ -> ?L = x => idtac end.
        destruct (IH (i + 1)%Z sep from to (if is_empty s then acc else if is_empty acc then s else acc ++ sep ++ s) S' ltac:(lia) HS') as (M & y & Hy & HY).
        exists (Datatypes.S (N + M)), y. split; [exact Hy|]. intros n m [|j] Hn Hm Hj; [lia|]. cbn [join_loop]. rewrite HX by lia. rewrite Q.
        apply HY; lia.
    + exists (Datatypes.S N). eexists. split; [|intros n m [|j] Hn Hm Hj; [lia|]; cbn [join_loop]; rewrite HX by lia; reflexivity].
      cbn. destruct (is_invalid_index er); [destruct (_ || _)|]; discriminate.
    + exists (Datatypes.S N). eexists. split; [|intros n m [|j] Hn Hm Hj; [lia|]; cbn [join_loop]; rewrite HX by lia; reflexivity]. discriminate.
Qed.

(** A template whose nested templates settle. *)
Section Nested.
Variable k : nat.
Hypothesis Hk : forall j, j < k -> forall es S, short j es -> sound (fs_st S) -> settles (fun n m => clause_n m (build n) e fc es S).

Lemma join_settles : forall tmpl sep idx S, String.length tmpl < k -> sound (fs_st S) ->
  settles (fun n m => func_join (build n) (clause_n m (build n)) m e fc tmpl sep idx S).
Proof.
  intros tmpl sep idx S Hlen HS.
  assert (G : forall from to, settles (fun n m =>
    if (0 <? to)%Z && (to <? from)%Z then (RErr (bad_range from to), S) else
    match parse tmpl with
    | PErr o m => (RErr (bad_template tmpl o m), S)
    | PPanic => (RPanic index_range, S)
    | PFuel => (RFuel, S)
    | POk es =>
      let '(r, st') := join_prep (build n) e es (fs_st S) in
      let S' := mkFS st' (fs_ua S) (fs_uf S) in
      match r with
      | ROk O => (RErr (no_function tmpl), S')
      | ROk _ => join_loop (clause_n m (build n)) m e fc es sep from to (if (from <=? 0)%Z then 1%Z else from) "" S'
      | RErr er => (RErr er, S')
      | RPanic er => (RPanic er, S')
      | RFuel => (RFuel, S')
      end
    end)).
  { intros from to. destruct (_ && _); [apply settles_const; discriminate|].
    destruct (parse_total tmpl) as [(es & E)|(o & m & E)]; rewrite E; [|apply settles_const; discriminate].
    destruct (prep_settles es (fs_st S)) as ([r st'] & Hx & Ep & Hc). cbn [fst] in *.
    apply (settles_ext (fun n m => let S' := mkFS st' (fs_ua S) (fs_uf S) in
      match r with
      | ROk O => (RErr (no_function tmpl), S')
      | ROk _ => join_loop (clause_n m (build n)) m e fc es sep from to (if (from <=? 0)%Z then 1%Z else from) "" S'
      | RErr er => (RErr er, S')
      | RPanic er => (RPanic er, S')
      | RFuel => (RFuel, S')
      end)); [intros n m; rewrite Ep; reflexivity|]. cbn zeta.
    destruct r as [[|c]|er|er|]; [apply settles_const; discriminate| |apply settles_const; discriminate|apply settles_const; discriminate|contradiction].
    destruct (Hc c eq_refl) as (name & p & f & Hi & L & Ti & Ho).
    destruct (template_beyond es name p f Hi L Ti Ho) as (last & Hl).
    assert (Hsh : short (String.length tmpl) es) by (intros nm args q s Hin Ha; exact (parse_shorter _ _ _ _ _ _ E Hin Ha)).
    assert (HS' : sound st').
    { pose proof (step_prep R R_refl R_trans R_commit R_fresh (build 0) (sound_build 0) e es (fs_st S) HS) as K. rewrite Ep in K. exact K. }
    destruct (loop_settles es last) with (d := Z.to_nat (last + 1 - (if (from <=? 0)%Z then 1%Z else from))) (i := if (from <=? 0)%Z then 1%Z else from)
      (sep := sep) (from := from) (to := to) (acc := "") (S := mkFS st' (fs_ua S) (fs_uf S)) as (N & x & Hx' & HX).
    - intros i S0 H0. apply (Hk (String.length tmpl) Hlen); [apply short_index, Hsh|exact H0].
    - exact Hl.
    - lia.
    - exact HS'.
    - exists N, x. split; [exact Hx'|]. intros n m Hn Hm. apply HX; assumption. }
  unfold func_join. destruct idx as [|a [|b [|c idx]]]; [apply (G 0%Z 0%Z)|apply (G a 0%Z)|apply (G a b)|apply settles_const; discriminate].
Qed.

Lemma call_settles : forall f args S, bounded f -> (forall s, In (LStr s) args -> String.length s < k) -> sound (fs_st S) ->
  settles (fun n m => call_fn (build n) (clause_n m (build n)) m e fc f args S).
Proof.
  intros f args S Bf Ha HS. destruct f as [| | |sg body]; cbn [call_fn].
  - apply settles_const. unfold func_arg. destruct (nth1 _ _) as [v|]; [|discriminate].
    pose proof (commit_no_fuel v (fs_st S)) as C. destruct (commit v (fs_st S)) as [r st']. exact C.
  - unfold func_fragment. destruct (nth1 (fr_frags fc) _) as [b|] eqn:N; [|apply settles_const; discriminate].
    assert (Hb : In b (fr_frags fc)).
    { unfold nth1 in N. destruct (_ && _); [|discriminate]. eapply nth_error_In. exact N. }
    apply (settles_bind (fun n _ => build n e b (fs_st S))
      (fun _ _ x => let '(r, st') := x in (r, mkFS st' (fs_ua S) (mark (Z.to_nat (match args with a :: _ => lit_int a | [] => 0%Z end - 1)) (fs_uf S)))));
      [apply Hchild; assumption|].
    intros M [r st'] Hx _. apply settles_const. exact Hx.
  - destruct args as [|[] [|[] idx]]; try (apply settles_const; discriminate).
    apply join_settles; [apply Ha; left; reflexivity|exact HS].
  - destruct Bf as [Lf _]. destruct (leaf_run _ (Lf args) (fs_st S)) as ([r st'] & Hx & E).
    apply (settles_ext (fun _ _ => (norm_outs (fs_outs sg) r, mkFS st' (fs_ua S) (fs_uf S)))).
    + intros n m. rewrite E. reflexivity.
    + apply settles_const. apply norm_no_fuel. exact Hx.
Qed.

Lemma expr_settles : forall x S, (forall nm args p s, x = ECall nm args p -> In (LStr s) args -> String.length s < k) -> sound (fs_st S) ->
  settles (fun n m => eval_expr (build n) (clause_n m (build n)) m e fc x S).
Proof.
  intros x S Hx HS. destruct x as [t p|a i p|name args p|name p]; cbn [eval_expr]; try (apply settles_const; discriminate).
  - apply settles_const. destruct (nth1 _ _) as [v|] eqn:N; [|discriminate]. unfold func_arg. rewrite N.
    pose proof (commit_no_fuel v (fs_st S)) as C. destruct (commit v (fs_st S)) as [r st']. exact C.
  - unfold eval_function. destruct (lookup_fn e name) as [f|] eqn:L; [|apply settles_const; discriminate].
    unfold eval_call. destruct (arity_ok _ _); [|apply settles_const; discriminate].
    pose proof (eval_args_no_fuel (arg_types (sig_of f) (List.length args)) args) as Na.
    destruct (eval_args _ _); try (apply settles_const; discriminate); [|contradiction].
    destruct (any_rejected _ _); [apply settles_const; discriminate|].
    apply safe_settles. apply call_settles; [exact (lookup_bounded e name f He L)| |exact HS].
    intros s Hs. eapply Hx; [reflexivity|exact Hs].
Qed.

Lemma clause_settles : forall es S, short k es -> sound (fs_st S) ->
  settles (fun n m => clause (build n) (clause_n m (build n)) m e fc es S).
Proof.
  induction es as [|x es IH]; intros S Hs HS; cbn [clause]; [apply settles_const; discriminate|].
  eapply settles_ext; [|apply (settles_bind (fun n m => eval_expr (build n) (clause_n m (build n)) m e fc x S)
    (fun n m o => match o with
      | (ROk s, S') => match clause (build n) (clause_n m (build n)) m e fc es S' with (ROk r, S2) => (ROk (s ++ r), S2) | o => o end
      | o => o end))].
  { intros n m. cbn beta. destruct (eval_expr _ _ _ e fc x S) as [[] S']; reflexivity. }
  - apply expr_settles; [|exact HS]. intros nm args p s -> Ha. exact (Hs nm args p s (or_introl eq_refl) Ha).
  - intros N [[s|er|er|] S'] Hx HX; try (apply settles_const; discriminate); [|contradiction].
    assert (HS' : sound (fs_st S')).
    { pose proof (step_expr R R_refl R_trans R_commit R_fresh (build N) (sound_build N) (clause_n N (build N)) (sound_clause_n N N) N e fc x S HS) as K.
      rewrite HX in K by lia. exact K. }
    eapply settles_ext; [|apply (settles_bind (fun n m => clause (build n) (clause_n m (build n)) m e fc es S')
      (fun _ _ o => match o with (ROk r, S2) => (ROk (s ++ r), S2) | o => o end))].
    { intros n m. cbn beta. destruct (clause _ _ _ e fc es S') as [[] S2]; reflexivity. }
    + apply IH; [|exact HS']. intros nm args p s0 Hi. apply (Hs nm args p s0). right. exact Hi.
    + intros M [[r|er|er|] S2] Hy _; apply settles_const; cbn in *; try discriminate; contradiction.
Qed.
End Nested.

Lemma clause_n_settles : forall k es S, short k es -> sound (fs_st S) -> settles (fun n m => clause_n m (build n) e fc es S).
Proof.
  assert (Sh : forall (X : nat -> nat -> outcome string * fstate) (Y : nat -> nat -> outcome string * fstate),
    (forall n m, Y n (Datatypes.S m) = X n m) -> settles X -> settles Y).
  { intros X Y E (N & x & Hx & HX). exists (Datatypes.S N), x. split; [exact Hx|]. intros n [|m] Hn Hm; [lia|]. rewrite E. apply HX; lia. }
  induction k as [k IH] using lt_wf_ind. intros es S Hs HS.
  eapply Sh; [intros n m; cbn [clause_n]; reflexivity|]. apply clause_settles with k; assumption.
Qed.
End Frame.

(* ------------------------------------------------------------------ *)
(** * Fragments and user code *)

Lemma frag_settles : forall e f st, bounded_env e -> sound st ->
  (forall b, In b (f_frags f) -> forall st, sound st -> settles (fun n _ => build n e b st)) ->
  settles (fun n m => build_frag m (build n) e f st).
Proof.
  intros e f st He HS Hc. unfold build_frag.
  destruct (parse_total (f_raw f)) as [(es & E)|(o & m & E)]; rewrite E; [|apply settles_const; discriminate].
  eapply settles_ext; [|apply (settles_bind
    (fun n m => clause_n m (build n) e (mkFrame (f_args f) (f_frags f)) es (mkFS st (map (fun _ => false) (f_args f)) (map (fun _ => false) (f_frags f))))
    (fun _ _ x => match x with
    | (ROk body, S') =>
      if all_used (fs_ua S') && all_used (fs_uf S') then
        let body := trim_space body in
        if is_empty body then (ROk "", fs_st S')
        else (ROk ((if is_empty (f_prefix f) then "" else f_prefix f ++ " ")
                   ++ body ++ (if is_empty (f_suffix f) then "" else " " ++ f_suffix f)),
              fs_st S')
      else (RErr (in_frag f (unused (fs_ua S') (fs_uf S'))), fs_st S')
    | (RErr er, S') => (RErr (in_frag f er), fs_st S')
    | (RPanic er, S') => (RPanic er, fs_st S')
    | (RFuel, S') => (RFuel, fs_st S')
    end))]; [reflexivity| |].
  - apply (clause_n_settles e He (mkFrame (f_args f) (f_frags f)) Hc (String.length (f_raw f))); [|exact HS].
    intros nm args p s Hi Ha. exact (parse_shorter _ _ _ _ _ _ E Hi Ha).
  - intros N [[body|er|er|] S'] Hx _; apply settles_const; try discriminate; [|contradiction].
    destruct (_ && _); [|discriminate]. cbn zeta. destruct (is_empty _); discriminate.
Qed.

(** Results of builders, which use one amount of fuel. *)
Definition halts (X : nat -> outcome string * store) : Prop := settles (fun n _ => X n).
Lemma settles_diag : forall (X : nat -> nat -> outcome string * store), settles X -> halts (fun n => X n n).
Proof. intros X (N & x & Hx & HX). exists N, x. split; [exact Hx|]. intros n _ Hn _. apply HX; exact Hn. Qed.
Lemma halts_const : forall x : outcome string * store, fst x <> RFuel -> halts (fun _ => x).
Proof. intros x H. unfold halts. cbn beta. exists 0, x. split; [exact H|reflexivity]. Qed.
Lemma halts_S : forall (X Y : nat -> outcome string * store), (forall n, Y (S n) = X n) -> halts X -> halts Y.
Proof.
  intros X Y E (N & x & Hx & HX). exists (S N), x. split; [exact Hx|]. intros [|n] m Hn Hm; [lia|]. rewrite E. apply (HX n m); lia.
Qed.
Lemma halts_ends : forall X, halts X -> exists n, fst (X n) <> RFuel.
Proof. intros X (N & x & Hx & HX). exists N. rewrite (HX N N) by lia. exact Hx. Qed.

Lemma bounded_cons : forall e fs, bounded_env e -> (forall nm f, In (nm, f) fs -> bounded f) -> bounded_env (match fs with [] => e | _ => fs :: e end).
Proof.
  intros e [|x fs] He Hf; [exact He|]. intros layer nm f [<-|Hl] Hi; [exact (Hf nm f Hi)|exact (He layer nm f Hl Hi)].
Qed.

(* ------------------------------------------------------------------ *)
(** * Query builders *)

Lemma below_new : forall k, below_qb rank k new_qb.
Proof.
  intros k. unfold below_qb, new_qb.
  cbn [q_ctes q_tobjs q_selects q_touches q_conds q_groups q_orders q_unions].
  repeat apply conj; try (constructor; intros b []); try (intros x f [] _); intros x [].
Qed.
Lemma sound_get : forall st id, sound st -> below_qb rank (rank id) (get_q st id).
Proof.
  intros st id H. unfold get_q. destruct (nth_error (st_heap st) id) as [q|] eqn:N.
  - rewrite (nth_error_nth _ _ new_qb N). exact (H id q N).
  - apply nth_error_None in N. rewrite nth_overflow by exact N. apply below_new.
Qed.

Section Query.
Variable e : env.
Variable k : nat.
Hypothesis Hb : forall b, below rank k b -> forall st, sound st -> halts (fun n => build n e b st).

Lemma hbind : forall {A B} (X : nat -> outcome A * store) (K : nat -> outcome A * store -> outcome B * store) st,
  sound st -> (forall n, R st (snd (X n))) -> settles (fun n _ => X n) ->
  (forall x, fst x <> RFuel -> sound (snd x) -> settles (fun n _ => K n x)) -> settles (fun n _ : nat => K n (X n)).
Proof.
  intros A B X K st HS HR HX HK. apply (settles_bind (fun n _ => X n) (fun n _ x => K n x) HX).
  intros N x Hx E. apply HK; [exact Hx|]. pose proof (HR N HS) as H. rewrite (E N N) in H by lia. exact H.
Qed.

Lemma ctes_settle : forall cs d st, (forall c, In c cs -> below rank k (c_builder c)) -> sound st ->
  settles (fun n _ : nat => build_ctes_loop (build n e) cs d st).
Proof.
  induction cs as [|c cs IH]; intros d st Hc HS; cbn [build_ctes_loop]; [apply settles_const; discriminate|].
  assert (Hc' : forall c, In c cs -> below rank k (c_builder c)) by (intros x Hx; apply Hc; right; exact Hx).
  destruct (dep_mem _ _); [|apply IH; assumption].
  apply (hbind (fun n => build n e (c_builder c) st) (fun n x => match x with
      | (ROk s, st') =>
        match build_ctes_loop (build n e) cs d st' with
        | (ROk l, st2) =>
          (ROk (if is_empty s then l else (c_name c ++ " AS (" ++ s ++ ")") :: l), st2)
        | r => r
        end
      | (RErr e, st') => (RErr (in_cte c e), st')
      | (RPanic e, st') => (RPanic e, st')
      | (RFuel, st') => (RFuel, st')
      end) st HS); [intros n; apply sound_build|apply Hb; [apply Hc; left; reflexivity|exact HS]|].
  intros [[s|er|er|] st'] Hx HS'; try (apply settles_const; discriminate); [|contradiction].
  eapply settles_ext; [|apply (hbind (fun n => build_ctes_loop (build n e) cs d st') (fun _ x => match x with
        | (ROk l, st2) => (ROk (if is_empty s then l else (c_name c ++ " AS (" ++ s ++ ")") :: l), st2)
        | r => r end) st' HS')].
  - intros n m. cbn beta. destruct (build_ctes_loop _ cs d st') as [[] s2]; reflexivity.
  - intros n. apply (step_ctes_loop R R_refl R_trans). intros. apply sound_build.
  - apply IH; assumption.
  - intros [[l|er|er|] s2] Hy _; apply settles_const; cbn in *; try discriminate; contradiction.
Qed.
Lemma from_settle : forall di fts d st, (forall ft f, In ft fts -> ft_frag ft = Some f -> below rank k (BFrag f)) -> sound st ->
  settles (fun n _ : nat => build_from_loop (build n e) di fts d st).
Proof.
  intros di. induction fts as [|ft fts IH]; intros d st Hc HS; cbn [build_from_loop]; [apply settles_const; discriminate|].
  assert (Hc' : forall ft f, In ft fts -> ft_frag ft = Some f -> below rank k (BFrag f)) by (intros x f Hx; apply Hc; right; exact Hx).
  destruct (_ && _); [apply IH; assumption|].
  apply (hbind (fun n => build_ofrag (build n e) (ft_frag ft) st) (fun n x => match x with
      | (ROk s, st') =>
        match build_from_loop (build n e) di fts d st' with
        | (ROk l, st2) => (ROk (s :: l), st2)
        | r => r
        end
      | (RErr e, st') => (RErr (in_from ft e), st')
      | (RPanic e, st') => (RPanic e, st')
      | (RFuel, st') => (RFuel, st')
      end) st HS).
  - intros n. unfold build_ofrag. destruct (ft_frag ft); apply sound_build.
  - unfold build_ofrag. destruct (ft_frag ft) as [f|] eqn:F; apply Hb; try exact HS; [apply (Hc ft f (or_introl eq_refl) F)|constructor].
  - intros [[s|er|er|] st'] Hx HS'; try (apply settles_const; discriminate); [|contradiction].
    eapply settles_ext; [|apply (hbind (fun n => build_from_loop (build n e) di fts d st') (fun _ x => match x with
        | (ROk l, st2) => (ROk (s :: l), st2)
        | r => r end) st' HS')].
    + intros n m. cbn beta. destruct (build_from_loop _ di fts d st') as [[] s2]; reflexivity.
    + intros n. apply (step_from_loop R R_refl R_trans). intros. apply sound_build.
    + apply IH; assumption.
    + intros [[l|er|er|] s2] Hy _; apply settles_const; cbn in *; try discriminate; contradiction.
Qed.
Lemma union_settle : forall bs st, (forall b, In b bs -> below rank k b) -> sound st ->
  settles (fun n _ : nat => build_union_loop (build n e) bs st).
Proof.
  induction bs as [|b bs IH]; intros st Hc HS; cbn [build_union_loop]; [apply settles_const; discriminate|].
  assert (Hc' : forall b, In b bs -> below rank k b) by (intros x Hx; apply Hc; right; exact Hx).
  apply (hbind (fun n => build n e b st) (fun n x => match x with
    | (ROk s, st') =>
      match build_union_loop (build n e) bs st' with
      | (ROk l, st2) => (ROk (if is_empty s then l else s :: l), st2)
      | r => r
      end
    | (RErr e, st') => (RErr e, st')
    | (RPanic e, st') => (RPanic e, st')
    | (RFuel, st') => (RFuel, st')
    end) st HS); [intros n; apply sound_build|apply Hb; [apply Hc; left; reflexivity|exact HS]|].
  intros [[s|er|er|] st'] Hx HS'; try (apply settles_const; discriminate); [|contradiction].
  eapply settles_ext; [|apply (hbind (fun n => build_union_loop (build n e) bs st') (fun _ x => match x with
        | (ROk l, st2) => (ROk (if is_empty s then l else s :: l), st2)
        | r => r end) st' HS')].
  - intros n m. cbn beta. destruct (build_union_loop _ bs st') as [[] s2]; reflexivity.
  - intros n. apply (step_union_loop R R_refl R_trans). intros. apply sound_build.
  - apply IH; assumption.
  - intros [[l|er|er|] s2] Hy _; apply settles_const; cbn in *; try discriminate; contradiction.
Qed.

Lemma bind_halts : forall (X : nat -> outcome string * store) (K : nat -> string -> store -> outcome string * store) st,
  sound st -> (forall n, R st (snd (X n))) -> halts X ->
  (forall s st', sound st' -> halts (fun n => K n s st')) -> halts (fun n => bind (X n) (K n)).
Proof.
  intros X K st HS HR HX HK. apply (hbind X (fun n x => bind x (K n)) st HS HR HX).
  intros [[s|er|er|] st'] Hx HS'; cbn [bind]; try (apply settles_const; discriminate); [|contradiction].
  apply HK. exact HS'.
Qed.

Lemma internal_halts : forall id st, rank id = k -> sound st -> halts (fun n => build_internal (build n e) id st).
Proof.
  intros id st Hid HS. unfold build_internal.
  assert (Bq : forall st, sound st -> below_qb rank k (get_q st id)) by (intros s Hs; rewrite <- Hid; apply sound_get; exact Hs).
  assert (Bc : forall st, sound st -> below rank k (BFrag (q_conds (get_q st id)))) by (intros s Hs; destruct (Bq s Hs) as (_ & _ & _ & _ & H & _); exact H).
  assert (Bg : forall st, sound st -> below rank k (BFrag (q_groups (get_q st id)))) by (intros s Hs; destruct (Bq s Hs) as (_ & _ & _ & _ & _ & H & _); exact H).
  assert (Bs : forall st, sound st -> below rank k (BFrag (q_selects (get_q st id)))) by (intros s Hs; destruct (Bq s Hs) as (_ & _ & H & _); exact H).
  assert (Bt : forall st, sound st -> below rank k (BFrag (q_touches (get_q st id)))) by (intros s Hs; destruct (Bq s Hs) as (_ & _ & _ & H & _); exact H).
  assert (Bo : forall st, sound st -> forall o, In o (q_orders (get_q st id)) -> below rank k (fst o)) by (intros s Hs; destruct (Bq s Hs) as (_ & _ & _ & _ & _ & _ & H & _); exact H).
  assert (Bu : forall st, sound st -> forall b, In b (q_unions (get_q st id)) -> below rank k b) by (intros s Hs; destruct (Bq s Hs) as (_ & _ & _ & _ & _ & _ & _ & H); exact H).
  destruct (q_errors (get_q st id)); [|apply halts_const; discriminate].
  pose proof (collect_no_fuel (get_q st id)) as Fd.
  destruct (collect_deps (get_q st id)) as [d|er|er|]; [|apply halts_const; discriminate|apply halts_const; discriminate|contradiction].
  assert (Rb : forall n b s, R s (snd (build n e b s))) by (intros; apply sound_build).
  apply (bind_halts (fun n => build_ctes (build n e) (q_ctes (get_q st id)) d st) (fun n sq st => _) st HS).
  { intros n. apply (step_ctes R R_refl R_trans). apply Rb. }
  { unfold build_ctes. eapply settles_ext; [|apply (hbind (fun n => build_ctes_loop (build n e) (q_ctes (get_q st id)) d st)
      (fun _ x => match x with
       | (ROk [], st') => (ROk "", st')
       | (ROk l, st') => (ROk ("With " ++ str_join ", " l), st')
       | (RErr e, st') => (RErr e, st')
       | (RPanic e, st') => (RPanic e, st')
       | (RFuel, st') => (RFuel, st') end) st HS)].
    - intros n m. reflexivity.
    - intros n. apply (step_ctes_loop R R_refl R_trans). apply Rb.
    - apply ctes_settle; [exact (proj1 (Bq st HS))|exact HS].
    - intros [[[|x l]|er|er|] s2] Hy _; apply settles_const; cbn in *; try discriminate; contradiction. }
  intros sq s1 H1.
  apply (bind_halts (fun n => build_from (build n e) (get_q s1 id) d s1) (fun n fr st => _) s1 H1).
  { intros n. apply (step_from R R_refl R_trans). apply Rb. }
  { unfold build_from. eapply settles_ext; [|apply (hbind (fun n => build_from_loop (build n e) (q_distinct (get_q s1 id)) (from_tables (get_q s1 id)) d s1)
      (fun _ x => match x with
        | (ROk l, st') => (ROk ("FROM " ++ str_join " " l), st')
        | (RErr e, st') => (RErr e, st')
        | (RPanic e, st') => (RPanic e, st')
        | (RFuel, st') => (RFuel, st') end) s1 H1)].
    - intros n m. reflexivity.
    - intros n. apply (step_from_loop R R_refl R_trans). apply Rb.
    - apply from_settle; [|exact H1]. intros ft f Hi Hf. unfold from_tables in Hi. apply in_map_iff in Hi. destruct Hi as (i & Ei & Hi).
      destruct (Bq s1 H1) as (_ & B1 & _). destruct (nth_in_or_default i (q_tobjs (get_q s1 id)) (mkFT ("", "") None false)) as [I1|D1].
      + subst ft. exact (B1 _ f I1 Hf).
      + rewrite D1 in Ei. subst ft. discriminate Hf.
    - intros [[l|er|er|] s2] Hy _; apply settles_const; cbn in *; try discriminate; contradiction. }
  intros fr s2 H2.
  apply (bind_halts (fun n => build n e (BFrag (q_conds (get_q s2 id))) s2) (fun n wh st => _) s2 H2).
  { intros n. apply Rb. }
  { apply Hb; [|exact H2]. exact (Bc s2 H2). }
  intros wh s3 H3.
  apply (bind_halts (fun n => build n e (BFrag (q_groups (get_q s3 id))) s3) (fun n gr st => _) s3 H3).
  { intros n. apply Rb. }
  { apply Hb; [|exact H3]. exact (Bg s3 H3). }
  intros gr s4 H4.
  apply (bind_halts (fun n => build_orders (build n e) id s4) (fun n ord st => _) s4 H4).
  { intros n. apply (step_orders R R_trans sound_orders). apply Rb. }
  { unfold build_orders. pose proof (sound_orders s4 id H4) as So. unfold orders_done in So.
    destruct (orders_below (q_orders (get_q s4 id)) 0 (get_q s4 id) [] k (Bq s4 H4)) as (_ & Pi).
    - exact (Bo s4 H4).
    - intros b [].
    - destruct (orders_loop 0 (q_orders (get_q s4 id)) (get_q s4 id) []) as [q' items]. cbn [fst snd] in *.
      apply Hb; [|exact So]. constructor. exact Pi. }
  intros ord s5 H5. cbn zeta.
  apply (bind_halts (fun n => build_selects (build n e) id s5) (fun n sel st => _) s5 H5).
  { intros n. apply (step_selects R R_trans sound_selects). apply Rb. }
  { unfold build_selects. cbn zeta. pose proof (sound_selects s5 id H5) as Ss. unfold selects_prefixed in Ss.
    set (sel := with_prefix (q_selects (get_q s5 id)) (if q_distinct (get_q s5 id) then "SELECT DISTINCT" else "SELECT")) in *.
    set (s5' := set_q s5 id (set_selects (get_q s5 id) sel)) in *.
    eapply settles_ext; [|apply (hbind (fun n => build n e (BFrag sel) s5') (fun n x => match x with
      | (ROk s, st') =>
        match build n e (BFrag (q_touches (get_q st' id))) st' with
        | (ROk t, st2) =>
          if is_empty s then (RErr (EMsg "no columns selected"), st2)
          else if is_empty t then (ROk s, st2) else (ROk (s ++ ", " ++ t), st2)
        | r => r
        end
      | r => r end) s5' Ss)].
    - intros n m. cbn beta. destruct (build n e (BFrag sel) s5') as [[] s6]; reflexivity.
    - intros n. apply Rb.
    - apply Hb; [|exact Ss]. apply below_prefix. exact (Bs s5 H5).
    - intros [[s|er|er|] s6] Hx H6; try (apply settles_const; discriminate); [|contradiction]. cbn [snd] in H6.
      eapply settles_ext; [|apply (hbind (fun n => build n e (BFrag (q_touches (get_q s6 id))) s6) (fun n x => match x with
        | (ROk t, st2) =>
          if is_empty s then (RErr (EMsg "no columns selected"), st2)
          else if is_empty t then (ROk s, st2) else (ROk (s ++ ", " ++ t), st2)
        | r => r end) s6 H6)].
      + intros n m. cbn beta. destruct (build n e _ s6) as [[] s7]; reflexivity.
      + intros n. apply Rb.
      + apply Hb; [|exact H6]. exact (Bt s6 H6).
      + intros [[t|er|er|] s7] Hy _; apply settles_const; try discriminate; [|contradiction].
        destruct (is_empty s); [discriminate|]. destruct (is_empty t); discriminate. }
  intros sel s6 H6. cbn zeta.
  match goal with |- halts (fun n => bind ?X _) => idtac end.
  apply (bind_halts (fun n => match q_unions (get_q s6 id) with
            | [] => (ROk _, s6)
            | us => bind (build_union (build n e) us s6) (fun u st => (ROk (trim_space (_ ++ " " ++ u)), st))
            end) (fun n query st => _) s6 H6).
  { intros n. destruct (q_unions (get_q s6 id)); [apply R_refl|]. apply (step_bind R R_trans); [apply (step_union R R_refl R_trans); apply Rb|].
    intros; apply R_refl. }
  { destruct (q_unions (get_q s6 id)) as [|u us] eqn:Eu; [apply halts_const; discriminate|].
    apply (bind_halts (fun n => build_union (build n e) (u :: us) s6) (fun n u st => _) s6 H6).
    - intros n. apply (step_union R R_refl R_trans). apply Rb.
    - unfold build_union. eapply settles_ext; [|apply (hbind (fun n => build_union_loop (build n e) (u :: us) s6)
        (fun _ x => match x with
          | (ROk l, st') => (ROk ("UNION (" ++ str_join ") UNION (" l ++ ")"), st')
          | (RErr e, st') => (RErr e, st')
          | (RPanic e, st') => (RPanic e, st')
          | (RFuel, st') => (RFuel, st') end) s6 H6)].
      + intros n m. reflexivity.
      + intros n. apply (step_union_loop R R_refl R_trans). apply Rb.
      + apply union_settle; [|exact H6]. rewrite <- Eu. exact (Bu s6 H6).
      + intros [[l|er|er|] s7] Hy _; apply settles_const; cbn in *; try discriminate; contradiction.
    - intros x s7 H7. apply halts_const. discriminate. }
  intros query s7 H7. destruct (q_debug (get_q s7 id)); [|apply halts_const; discriminate].
  apply halts_const. pose proof (interpolate_fuel (fun _ => "") query (st_args s7)) as Fi.
  destruct (interpolate _ query (st_args s7)); try discriminate. contradiction.
Qed.
End Query.

(* ------------------------------------------------------------------ *)
(** * Builders *)

Scheme below_mut := Minimality for below Sort Prop
with below_prog_mut := Minimality for below_prog Sort Prop.

Section Level.
Variable k : nat.
Hypothesis lower : forall j b e st, j < k -> below rank j b -> bounded_env e -> sound st -> halts (fun n => build n e b st).

Definition good (b : builder) : Prop := forall e st, bounded_env e -> sound st -> halts (fun n => build n e b st).
Definition good_prog (p : prog) : Prop :=
  forall e st, bounded_env e -> sound st -> halts (fun n => run_prog (build n) e p st).

Lemma good_frag : forall raw args frags p s, (forall b, In b frags -> good b) ->
  forall e st, bounded_env e -> sound st -> halts (fun n => build_frag n (build n) e (Frag raw args frags p s) st).
Proof.
  intros raw args frags p s Hc e st He HS.
  apply (settles_diag (fun n m => build_frag m (build n) e (Frag raw args frags p s) st)).
  apply frag_settles; [exact He|exact HS|]. intros b Hb st' HS'. exact (Hc b Hb e st' He HS').
Qed.

Lemma level : forall b, below rank k b -> good b.
Proof.
  apply (below_mut rank k good good_prog); unfold good, good_prog.
  - intros e st _ _. apply (halts_S (fun _ => (RPanic nil_deref, st))); [reflexivity|]. apply halts_const. discriminate.
  - intros e st _ _. apply (halts_S (fun _ => (ROk "", st))); [reflexivity|]. apply halts_const. discriminate.
  - intros raw args frags p s _ IH e st He HS.
    apply (halts_S (fun n => build_frag n (build n) e (Frag raw args frags p s) st)); [reflexivity|].
    apply good_frag; assumption.
  - intros e st _ _. apply (halts_S (fun _ => (RPanic nil_deref, st))); [reflexivity|]. apply halts_const. discriminate.
  - intros t e st _ _. apply (halts_S (fun _ => (ROk "", st))); [reflexivity|]. apply halts_const. discriminate.
  - intros raw args frags p s t _ IH e st He HS.
    apply (halts_S (fun n => build_frag n (build n) e (Frag raw args frags p s) st)); [reflexivity|].
    apply good_frag; assumption.
  - intros t e st _ _. apply (halts_S (fun _ => (ROk t, st))); [reflexivity|]. apply halts_const. discriminate.
  - intros x a e st _ _. apply (halts_S (fun _ => (ROk (applied (x, a)), st))); [reflexivity|]. apply halts_const. discriminate.
  - intros e st _ _. apply (halts_S (fun _ => (ROk "", st))); [reflexivity|]. apply halts_const. discriminate.
  - intros id Hid e st He HS. apply (halts_S (fun n => build_internal (build n e) id st)); [reflexivity|].
    apply (internal_halts e (rank id)); [|reflexivity|exact HS].
    intros b Hb st' HS'. exact (lower (rank id) b e st' Hid Hb He HS').
  - intros p _ IH e st He HS. apply (halts_S (fun n => run_prog (build n) e p st)); [reflexivity|]. apply IH; assumption.
  - intros s [er|] e st _ _; cbn [run_prog]; apply halts_const; discriminate.
  - intros er e st _ _. cbn [run_prog]. apply halts_const. discriminate.
  - intros v c _ IH e st He HS. cbn [run_prog].
    pose proof (R_commit v st HS) as HS'. pose proof (commit_no_fuel v st) as Hf.
    destruct (commit v st) as [[s|er|er|] st']; cbn [fst snd] in *; [apply IH; assumption| | |contradiction];
      apply halts_const; discriminate.
  - intros c _ IH e st He HS. cbn [run_prog]. apply IH; assumption.
  - intros fs b c Hf _ IHb _ IHc e st He HS. cbn [run_prog].
    destruct (check_funcs fs) as [er|]; [apply IHc; assumption|].
    pose proof (bounded_cons e fs He Hf) as He'.
    unfold halts. eapply settles_ext; [|apply (hbind (fun n => build n (match fs with [] => e | _ => fs :: e end) b st)
      (fun n x => match fst x with RFuel => (RFuel, snd x) | r => run_prog (build n) e (c r) (snd x) end) st HS)].
    + intros n m. cbn beta. destruct (build n _ b st) as [[] s']; reflexivity.
    + intros n. apply sound_build.
    + exact (IHb _ _ He' HS).
    + intros [[s|er|er|] st'] Hx HS'; cbn [fst snd] in *; [| | |contradiction]; apply IHc; assumption.
  - intros p c _ IHp _ IHc e st He HS. cbn [run_prog].
    unfold halts. eapply settles_ext; [|apply (hbind (fun n => run_prog (build n) e p st)
      (fun n x => match fst x with RFuel => (RFuel, snd x) | r => run_prog (build n) e (c r) (snd x) end) st HS)].
    + intros n m. cbn beta. destruct (run_prog (build n) e p st) as [[] s']; reflexivity.
    + intros n. apply sound_prog.
    + exact (IHp _ _ He HS).
    + intros [[s|er|er|] st'] Hx HS'; cbn [fst snd] in *; [| | |contradiction]; apply IHc; assumption.
  - intros z p c _ IHp _ IHc e st He HS. cbn [run_prog].
    unfold halts. eapply settles_ext; [|apply (hbind (fun n => run_prog (build n) [builtins] p (new_store z (st_heap st)))
      (fun n x => match fst x with
        | RFuel => (RFuel, set_heap st (st_heap (snd x)))
        | ROk s => run_prog (build n) e (c (ROk (s, st_args (snd x)))) (set_heap st (st_heap (snd x)))
        | RErr er => run_prog (build n) e (c (RErr er)) (set_heap st (st_heap (snd x)))
        | RPanic er => run_prog (build n) e (c (RPanic er)) (set_heap st (st_heap (snd x)))
        end) (new_store z (st_heap st)) HS)].
    + intros n m. cbn beta. destruct (run_prog (build n) _ p _) as [[] s']; reflexivity.
    + intros n. apply sound_prog.
    + exact (IHp [builtins] (new_store z (st_heap st)) bounded_builtins HS).
    + intros [[s|er|er|] st'] Hx HS'; cbn [fst snd] in *; [| | |contradiction]; apply IHc; try assumption; exact HS'.
Qed.
End Level.

Theorem builders_halt : forall k b e st, below rank k b -> bounded_env e -> sound st -> halts (fun n => build n e b st).
Proof.
  induction k as [k IH] using lt_wf_ind. intros b e st Hb He HS.
  exact (level k (fun j b e st L B E H => IH j L b e st B E H) b Hb e st He HS).
Qed.
End Rank.

(* ------------------------------------------------------------------ *)
(** * Method calls *)

Section Ops.
Variable rank : nat -> nat.
Variable k : nat.
Lemma below_join : forall kind t on opt q q', below_qb rank k q -> (forall f, on = Some f -> below rank k (BFrag f)) ->
  qb_join kind t on opt q = ROk q' -> below_qb rank k q'.
Proof.
  intros kind t on opt q q' Hq Ho H. unfold qb_join in H.
  destruct (is_empty (fst t)); [injection H as <-; exact Hq|].
  set (q1 := match q_tables q with [] => _ | _ => q end) in H.
  assert (H1 : below_qb rank k q1).
  { unfold q1. destruct (q_tables q); [|exact Hq]. destruct Hq as (A & B & C). split; [exact A|]. split; [|exact C].
    intros ft f Hi Hf. apply in_app_or in Hi. destruct Hi as [Hi|[<-|[]]]; [exact (B ft f Hi Hf)|discriminate Hf]. }
  clearbody q1. destruct on as [f|]; [|discriminate H].
  set (ft := mkFT t _ opt) in H.
  assert (Hft : forall g, ft_frag ft = Some g -> below rank k (BFrag g)).
  { intros g E. injection E as <-. constructor. intros b [<-|[]]. apply below_prefix, Ho. reflexivity. }
  clearbody ft. destruct H1 as (A & B & C).
  destruct (assoc _ _) as [id|]; injection H as <-; (split; [exact A|]; split; [|exact C]); intros ft' g Hi Hg; cbn in Hi.
  - apply In_nth_error in Hi. destruct Hi as (j & Hj). apply in_upd in Hj. destruct Hj as [(_ & -> & _)|(_ & K)]; [exact (Hft g Hg)|].
    exact (B ft' g (nth_error_In _ _ K) Hg).
  - apply in_app_or in Hi. destruct Hi as [Hi|[<-|[]]]; [exact (B ft' g Hi Hg)|exact (Hft g Hg)].
Qed.
Lemma below_cond : forall q f, below_qb rank k q -> below rank k (BFrag f) -> below_qb rank k (add_cond q f).
Proof.
  intros q f (H1 & H2 & H3 & H4 & H5 & H6 & H7 & H8) Hf. unfold below_qb, add_cond, set_conds. cbn [q_ctes q_tobjs q_selects q_touches q_conds q_groups q_orders q_unions].
  repeat (apply conj; auto). apply below_append; [exact H5|]. intros b [<-|[]]. exact Hf.
Qed.
Lemma below_where_in : forall raw col l q q', below_qb rank k q -> below rank k col -> where_in raw col l q = ROk q' -> below_qb rank k q'.
Proof.
  intros raw col l q q' Hq Hc H. unfold where_in in H. destruct (args_flatted [l]) as [a|er|er|]; try discriminate H. injection H as <-.
  apply below_cond; [exact Hq|]. constructor. intros b [<-|[]]. exact Hc.
Qed.
Lemma below_apply : forall o q q', below_qb rank k q -> below_op rank k o -> apply_op o q = ROk q' -> below_qb rank k q'.
Proof.
  intros o q q' Hq Ho H. destruct o as [|cols|z|z|cols|bs|t|kind t on opt|[f|]|col op v|col l|col l|col o|name b deps|]; cbn [below_op apply_op] in *.
  - injection H as <-. exact Hq.
  - destruct cols as [|c cols]; injection H as <-; [exact Hq|]. destruct Hq as (H1 & H2 & H3 & H4 & H5 & H6 & H7 & H8).
    unfold below_qb. cbn. repeat (apply conj; auto). destruct (q_selects q). constructor. exact Ho.
  - injection H as <-. destruct (0 <? z)%Z; exact Hq.
  - injection H as <-. destruct (0 <? z)%Z; exact Hq.
  - injection H as <-. destruct Hq as (H1 & H2 & H3 & H4 & H5 & H6 & H7 & H8). unfold below_qb. cbn [set_groups q_ctes q_tobjs q_selects q_touches q_conds q_groups q_orders q_unions].
    repeat (apply conj; auto). apply below_append; assumption.
  - injection H as <-. destruct Hq as (H1 & H2 & H3 & H4 & H5 & H6 & H7 & H8). unfold below_qb. cbn [set_unions q_ctes q_tobjs q_selects q_touches q_conds q_groups q_orders q_unions].
    repeat (apply conj; auto). intros b Hb. apply in_app_or in Hb. destruct Hb; auto.
  - injection H as <-. unfold qb_from. destruct (is_empty (fst t)); [exact Hq|]. destruct Hq as (A & B & C).
    split; [exact A|]. split; [|exact C]. intros ft g Hi Hg. apply in_app_or in Hi. destruct Hi as [Hi|[<-|[]]]; [exact (B ft g Hi Hg)|].
    injection Hg as <-. constructor. intros b [].
  - apply (below_join kind t on opt q q' Hq); [|exact H]. intros f ->. exact Ho.
  - injection H as <-. apply below_cond; assumption.
  - injection H as <-. exact Hq.
  - injection H as <-. apply below_cond; [exact Hq|]. constructor. intros b [<-|[]]. exact Ho.
  - exact (below_where_in _ _ _ _ _ Hq Ho H).
  - exact (below_where_in _ _ _ _ _ Hq Ho H).
  - injection H as <-. destruct Hq as (H1 & H2 & H3 & H4 & H5 & H6 & H7 & H8). unfold below_qb. cbn [set_orders q_ctes q_tobjs q_selects q_touches q_conds q_groups q_orders q_unions].
    repeat (apply conj; auto). intros x Hx. apply in_app_or in Hx. destruct Hx as [Hx|[<-|[]]]; [auto|exact Ho].
  - injection H as <-. destruct Hq as (H1 & H2). split; [|exact H2]. intros c Hc. apply in_app_or in Hc. destruct Hc as [Hc|[<-|[]]]; [auto|exact Ho].
  - injection H as <-. exact Hq.
Qed.
Theorem below_ops : forall os q q', below_qb rank k q -> Forall (below_op rank k) os -> apply_ops os q = ROk q' -> below_qb rank k q'.
Proof.
  induction os as [|o os IH]; intros q q' Hq Ho H; cbn [apply_ops] in H; [injection H as <-; exact Hq|].
  inversion Ho as [|? ? H1 H2]; subst. destruct (apply_op o q) as [q1|er|er|] eqn:E; try discriminate H.
  exact (IH q1 q' (below_apply o q q1 Hq H1 E) H2 H).
Qed.
Theorem below_described : forall os q, Forall (below_op rank k) os -> apply_ops os new_qb = ROk q -> below_qb rank k q.
Proof. intros os q. apply below_ops. apply below_new. Qed.
End Ops.


Theorem build_query_halts : forall rank k h b style, acyclic rank h -> below rank k b ->
  exists n, fst (build_query n style h b) <> RFuel.
Proof.
  intros rank k h b style Hh Hb.
  destruct (halts_ends _ (builders_halt rank k b [builtins] (new_store style h) Hb bounded_builtins Hh)) as (n & H).
  exists n. unfold build_query. destruct (build n [builtins] b (new_store style h)) as [[s|er|er|] st]; cbn in *; try discriminate.
  contradiction.
Qed.
Theorem build_halts : forall rank k e b st, acyclic rank (st_heap st) -> bounded_env e -> below rank k b ->
  exists n, fst (build n e b st) <> RFuel /\ (forall m, n <= m -> build m e b st = build n e b st).
Proof.
  intros rank k e b st Hh He Hb.
  destruct (builders_halt rank k b e st Hb He Hh) as (n & x & Hx & H). exists n.
  rewrite (H n n) by lia. split; [exact Hx|]. intros m Hm. exact (H m n Hm (le_n n)).
Qed.
Theorem acyclic_kept : forall rank n e b st, acyclic rank (st_heap st) -> acyclic rank (st_heap (snd (build n e b st))).
Proof. intros rank n e b st H. exact (sound_build rank n e b st H). Qed.
