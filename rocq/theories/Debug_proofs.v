(** Debug mode against the same build without it. *)
From Coq Require Import Strings.String Strings.Ascii NArith ZArith List Bool Lia.
From Verif Require Import GoStr GoNum Syntax Value Util Model Sqlf Sqlb RefSem Spec_build Spec_eval Spec_util Spec_query Spec_mean Spec_syntax Spec_interp Spec_debug
  Text_proofs Sim_proofs Fuel_proofs Query_proofs Query2_proofs Mean_proofs Fresh_proofs Order_proofs Store_proofs Build_proofs Util_proofs Sql_proofs Interp_proofs.
Import ListNotations.
Open Scope string_scope.

Definition hard {A} (o : outcome A) : Prop :=
  match o with RPanic er | RErr er => is_invalid_index er = false | _ => False end.

(* ------------------------------------------------------------------ *)
(** * The number of arguments grows *)

Definition len (st : store) : nat := List.length (st_args st).
Definition up (s t : store) : Prop := len s <= len t.
Lemma up_refl : forall s, up s s.
Proof. intros s. unfold up. lia. Qed.
Lemma up_trans : forall a b c, up a b -> up b c -> up a c.
Proof. unfold up. intros a b c. lia. Qed.
Lemma up_commit : forall v st, up st (snd (commit v st)).
Proof.
  intros v st. unfold up, len, commit. destruct (st_dollar st); cbn [snd st_args]; [|rewrite List.app_length; lia].
  destruct (hashable v); [|cbn; lia]. destruct (dict_find _ _); cbn [snd st_args]; [lia|rewrite List.app_length; lia].
Qed.
Lemma up_set : forall st id q, up st (set_q st id q).
Proof. intros. unfold up, len. cbn. lia. Qed.
Lemma up_fresh : forall z st st', up (new_store z (st_heap st)) st' -> up st (set_heap st (st_heap st')).
Proof. intros. unfold up, len. cbn. lia. Qed.
Lemma up_build : forall n e b st, up st (snd (build n e b st)).
Proof.
  intros. apply step_build; [exact up_refl|exact up_trans|exact up_commit| | |exact up_fresh]; intros; apply up_set.
Qed.

(* ------------------------------------------------------------------ *)
(** * Quiet builders *)

Lemma quiet_collect : forall q, collect_deps (quiet q) = collect_deps q.
Proof.
  intros q. unfold collect_deps. cbn [quiet set_debug q_ctes q_cdict q_tobjs q_tables q_tdict q_selects q_touches q_conds q_orders q_groups q_distinct q_unions].
  assert (T : forall n ts d, deps_tables n (quiet q) ts d = deps_tables n q ts d).
  { intros n ts. induction ts as [|t ts IH]; intros d; cbn [deps_tables]; [reflexivity|]. rewrite (deps_table_fields (quiet q) q) by reflexivity.
    destruct (deps_table n q t d); try reflexivity. apply IH. }
  assert (C : forall n ids d, deps_ctes n (quiet q) ids d = deps_ctes n q ids d).
  { intros n ids. induction ids as [|j ids IH]; intros d; cbn [deps_ctes]; [reflexivity|]. cbn [quiet set_debug q_cdict q_tobjs q_distinct].
    destruct (nth_error (q_tobjs q) j); [|reflexivity].
    destruct (_ && _); [apply IH|]. destruct (assoc _ _); [|apply IH]. fold (quiet q). rewrite (deps_cte_fields (quiet q) q) by reflexivity. destruct (deps_cte _ q _ _); try reflexivity. apply IH. }
  fold (quiet q). change (deps_fuel (quiet q)) with (deps_fuel q).
  repeat match goal with
  | |- ?x = ?x => reflexivity
  | |- context [deps_tables _ (quiet q) _ _] => rewrite T
  | |- context [deps_ctes _ (quiet q) _ _] => rewrite C
  | |- match ?x with _ => _ end = _ => destruct x
  end.
Qed.
Lemma quiet_orders : forall q, with_orders (quiet q) = quiet (with_orders q) /\ order_items (quiet q) = order_items q.
Proof. intros q. split; reflexivity. Qed.
Lemma quiet_select : forall q, with_select (quiet q) = quiet (with_select q) /\ select_clause (quiet q) = select_clause q.
Proof. intros q. split; reflexivity. Qed.
Lemma map_upd : forall A B (f : A -> B) l i x, map f (upd i x l) = upd i (f x) (map f l).
Proof. induction l as [|a l IH]; intros [|i] x; cbn; try reflexivity. rewrite IH. reflexivity. Qed.

(* ------------------------------------------------------------------ *)
(** * The two builds *)

Section Debug.
Variable P : value -> bool.
Variable e0 : env.
Hypothesis He0 : lib_env e0 = true.
(** The builders without Debug() at the start, and which of them are flagged. *)
Variable h0 : list qb.
Variable fl : list bool.
Variable dl : bool.

(** The store of the build without debug mode. *)
Definition calm (t : store) : Prop :=
  forallb (lib_qb P) (st_heap t) = true /\ forallb P (st_args t) = true /\ (st_dollar t = dl /\ sound_store t) /\
  forall id, rebuilt (nth id h0 new_qb) (get_q t id).
(** The store [s] in debug mode and the store [t] without. *)
Definition twin (s t : store) : Prop :=
  st_dollar s = st_dollar t /\ st_args s = st_args t /\ st_dict s = st_dict t /\
  map quiet (st_heap s) = st_heap t /\ map q_debug (st_heap s) = fl /\ calm t.
Definition twinF (X Y : fstate) : Prop := twin (fs_st X) (fs_st Y) /\ fs_ua X = fs_ua Y /\ fs_uf X = fs_uf Y.

(** A flagged builder that was built in the run without debug mode with at most [l] arguments and whose text cannot be interpolated. *)
Definition bad (l : nat) : Prop :=
  exists n id t q t' er, calm t /\ nth id fl false = true /\ build n e0 (BQuery (Some id)) t = (ROk q, t') /\
    interpolate (fun _ => "") q (st_args t') = RPanic er /\ len t' <= l.
Lemma bad_up : forall a b, bad a -> a <= b -> bad b.
Proof. intros a b (n & id & t & q & t' & er & H1 & H2 & H3 & H4 & H5) H. exists n, id, t, q, t', er. repeat (split; [assumption|]). lia. Qed.
Hypothesis Hpan : forall v e, P v = true -> method_panics v e -> is_invalid_index e = false.

Definition dqa {A} (x y : outcome A * store) : Prop :=
  (hard (fst x) /\ bad (len (snd y))) \/ (fst x = fst y /\ twin (snd x) (snd y)).
Definition dqF (x y : outcome string * fstate) : Prop :=
  (hard (fst x) /\ bad (len (fs_st (snd y)))) \/ (fst x = fst y /\ twinF (snd x) (snd y)).
Lemma dqa_same : forall A (o : outcome A) s t, twin s t -> dqa (o, s) (o, t).
Proof. intros A o s t H. right. auto. Qed.
Lemma dqF_same : forall o X Y, twinF X Y -> dqF (o, X) (o, Y).
Proof. intros o X Y H. right. auto. Qed.

Lemma twin_get : forall s t id, twin s t -> get_q t id = quiet (get_q s id) /\ q_debug (get_q s id) = nth id fl false /\ lib_qb P (get_q t id) = true.
Proof.
  intros s t id (_ & _ & _ & H1 & H2 & (H3 & _)). unfold get_q. rewrite <- H1 in *.
  change (nth id (map quiet (st_heap s)) new_qb) with (nth id (map quiet (st_heap s)) (quiet new_qb)) at 1. rewrite map_nth. split; [reflexivity|].
  split; [rewrite <- H2; change false with (q_debug new_qb); rewrite map_nth; reflexivity|].
  change (nth id (map quiet (st_heap s)) new_qb) with (nth id (map quiet (st_heap s)) (quiet new_qb)). rewrite map_nth.
  rewrite forallb_forall in H3. destruct (nth_in_or_default id (st_heap s) new_qb) as [I| ->]; [|reflexivity].
  apply H3. apply in_map. exact I.
Qed.
Lemma upd_id : forall A (l : list A) i d, upd i (nth i l d) l = l.
Proof. induction l as [|a l IH]; intros [|i] d; cbn; try reflexivity. rewrite IH. reflexivity. Qed.
Lemma twin_set : forall s t id q, twin s t -> q_debug q = q_debug (get_q s id) -> lib_qb P (quiet q) = true -> rebuilt (nth id h0 new_qb) (quiet q) ->
  twin (set_q s id q) (set_q t id (quiet q)).
Proof.
  intros s t id q (H1 & H2 & H3 & H4 & H5 & (H6 & H7 & H8 & H9)) Hd Hl Hr.
  unfold twin, set_q. cbn [set_heap st_dollar st_args st_dict st_heap]. repeat (split; [assumption|]).
  rewrite map_upd, H4. split; [reflexivity|]. split.
  - rewrite map_upd, Hd, <- H5. unfold get_q. change (q_debug (nth id (st_heap s) new_qb)) with (q_debug (nth id (st_heap s) new_qb)).
    rewrite <- (map_nth q_debug). apply upd_id.
  - split; [|split; [exact H7|split; [exact H8|]]].
    + cbn [st_heap]. rewrite forallb_forall in H6 |- *. intros x Hx. clear -H6 Hl Hx. revert id Hx H6. generalize (st_heap t). 
      induction l as [|a l IH]; intros [|i] Hx H6; cbn in Hx; try contradiction.
      * destruct Hx as [<-|Hx]; [exact Hl|]. apply H6. right. exact Hx.
      * destruct Hx as [<-|Hx]; [apply H6; left; reflexivity|]. apply (IH i Hx). intros y Hy. apply H6. right. exact Hy.
    + intros j. unfold get_q. cbn [st_heap set_heap]. rewrite nth_upd. destruct ((j =? id)%nat && _) eqn:E; [|apply H9].
      apply andb_prop in E as [E _]. apply Nat.eqb_eq in E. subst j. exact Hr.
Qed.
Lemma twin_commit : forall v s t, P v = true -> twin s t -> dqa (commit v s) (commit v t).
Proof.
  intros v s t Hv H. right. pose proof H as (H1 & H2 & H3 & H4 & H5 & (H6 & H7 & H8 & H9)).
  destruct H8 as [H0 H8]. pose proof (commit_sound v t H8) as S1. revert S1. unfold commit. rewrite H1, H2, H3.
  destruct (st_dollar t) eqn:Ed.
  - destruct (hashable v); [|intros _; split; [reflexivity|exact H]].
    destruct (dict_find v (st_dict t)) as [k|]; intros S1; (split; [reflexivity|]).
    + unfold twin. cbn [fst snd st_dollar st_args st_dict st_heap] in *. auto.
    + unfold twin, calm. cbn [fst snd st_dollar st_args st_dict st_heap] in *. repeat (split; [first [reflexivity|assumption]|]).
      split; [rewrite forallb_app, H7; cbn; rewrite Hv; reflexivity|]. split; [split; [congruence|exact S1]|exact H9].
  - intros S1. split; [reflexivity|]. unfold twin, calm. cbn [fst snd st_dollar st_args st_dict st_heap] in *. repeat (split; [first [reflexivity|assumption]|]).
    split; [rewrite forallb_app, H7; cbn; rewrite Hv; reflexivity|]. split; [split; [congruence|exact S1]|exact H9].
Qed.

Section Rec.
Variable rb : env -> builder -> store -> outcome string * store.
Hypothesis Hrb : forall b s t, lib P b = true -> twin s t -> dqa (rb e0 b s) (rb e0 b t).
Hypothesis Urb : forall e b st, up st (snd (rb e b st)).
Variable rc : env -> frame -> list expr -> fstate -> outcome string * fstate.
Hypothesis Hrc : forall fc es X Y, okfc P fc -> twinF X Y -> dqF (rc e0 fc es X) (rc e0 fc es Y).
Hypothesis Urc : forall e fc es S, up (fs_st S) (fs_st (snd (rc e fc es S))).
Variable jf : nat.

Lemma dq_arg : forall fc i X Y, okfc P fc -> twinF X Y -> dqF (func_arg fc i X) (func_arg fc i Y).
Proof.
  intros fc i X Y [Ha _] H. unfold func_arg. destruct (nth1 _ _) as [v|] eqn:E; [|apply dqF_same; exact H].
  assert (Hv : P v = true) by (rewrite forallb_forall in Ha; apply Ha; exact (nth1_In _ _ _ _ E)).
  destruct H as (H1 & H2 & H3). pose proof (twin_commit v _ _ Hv H1) as K.
  destruct (commit v (fs_st X)) as [o s'], (commit v (fs_st Y)) as [o' t']. unfold dqa, dqF in *. cbn [fst snd fs_st] in *.
  destruct K as [K|[E1 E2]]; [left; exact K|right]. split; [exact E1|]. unfold twinF. cbn [fs_st fs_ua fs_uf]. rewrite H2, H3. auto.
Qed.
Lemma dq_fragment : forall fc i X Y, okfc P fc -> twinF X Y -> dqF (func_fragment rb e0 fc i X) (func_fragment rb e0 fc i Y).
Proof.
  intros fc i X Y [_ Ha] H. unfold func_fragment. destruct (nth1 _ _) as [v|] eqn:E; [|apply dqF_same; exact H].
  assert (Hv : lib P v = true) by (rewrite forallb_forall in Ha; apply Ha; exact (nth1_In _ _ _ _ E)).
  destruct H as (H1 & H2 & H3). pose proof (Hrb v _ _ Hv H1) as K.
  destruct (rb e0 v (fs_st X)) as [o s'], (rb e0 v (fs_st Y)) as [o' t']. unfold dqa, dqF in *. cbn [fst snd fs_st] in *.
  destruct K as [K|[E1 E2]]; [left; exact K|right]. split; [exact E1|]. unfold twinF. cbn [fs_st fs_ua fs_uf]. rewrite H2, H3. auto.
Qed.
Lemma up_loop : forall n e fc es sep from to i acc S, up (fs_st S) (fs_st (snd (join_loop rc n e fc es sep from to i acc S))).
Proof. apply step_loop; [exact up_refl|exact up_trans|exact Urc]. Qed.
Lemma dq_loop : forall n fc es sep from to i acc X Y, okfc P fc -> twinF X Y ->
  dqF (join_loop rc n e0 fc es sep from to i acc X) (join_loop rc n e0 fc es sep from to i acc Y).
Proof.
  induction n as [|n IH]; intros fc es sep from to i acc X Y Hf H; [apply dqF_same; exact H|]. cbn [join_loop].
  pose proof (Hrc fc (set_index i es) X Y Hf H) as K. destruct (rc e0 fc (set_index i es) X) as [o X'], (rc e0 fc (set_index i es) Y) as [o' Y'].
  destruct K as [[K1 K2]|[E1 E2]]; cbn [fst snd] in *.
  - left. assert (U : up (fs_st Y') (fs_st (snd match o' with
        | ROk s => let acc' := if is_empty s then acc else if is_empty acc then s else acc ++ sep ++ s in
           if (0 <? to)%Z && (to <=? i)%Z then (ROk acc', Y') else join_loop rc n e0 fc es sep from to (i + 1)%Z acc' Y'
        | RErr er => if is_invalid_index er then if ((0 <? from)%Z && (i =? from)%Z) || ((0 <? to)%Z && (i <=? to)%Z) then (RErr er, Y') else (ROk acc, Y') else (RErr er, Y')
        | RPanic er => (RPanic er, Y') | RFuel => (RFuel, Y') end))).
    { destruct o' as [r|er|er|]; try apply up_refl.
      - cbn zeta. destruct (_ && _); [apply up_refl|apply up_loop].
      - destruct (is_invalid_index er); [destruct (_ || _)|]; apply up_refl. }
    destruct o as [r|er|er|]; cbn [hard] in K1; try contradiction.
    + rewrite K1. split; [exact K1|]. destruct o'; exact (bad_up _ _ K2 U).
    + split; [exact K1|]. destruct o'; exact (bad_up _ _ K2 U).
  - subst o'. destruct o as [r|er|er|]; try (apply dqF_same; exact E2).
    + destruct (_ && _); [apply dqF_same; exact E2|]. apply IH; assumption.
    + destruct (is_invalid_index er); [destruct (_ || _)|]; apply dqF_same; exact E2.
Qed.
Lemma dq_join : forall fc tmpl sep idx X Y, okfc P fc -> twinF X Y -> dqF (func_join rb rc jf e0 fc tmpl sep idx X) (func_join rb rc jf e0 fc tmpl sep idx Y).
Proof.
  intros fc tmpl sep idx X Y Hf H. unfold func_join.
  destruct idx as [|a [|b [|c idx]]]; try (apply dqF_same; exact H).
  all: destruct (_ && _); [apply dqF_same; exact H|]; destruct (parse tmpl) as [es|p m| |]; try (apply dqF_same; exact H);
    rewrite !prep_lib by exact He0; destruct H as (H1 & H2 & H3);
    assert (K : twinF (mkFS (fs_st X) (fs_ua X) (fs_uf X)) (mkFS (fs_st Y) (fs_ua Y) (fs_uf Y))) by (split; [exact H1|split; assumption]);
    destruct (gjoin_prep e0 es) as [[|k]|er|er|]; try (apply dqF_same; exact K); apply dq_loop; assumption.
Qed.
Lemma dq_safe : forall name x y, dqF x y -> dqF (safe name x) (safe name y).
Proof.
  intros name [o s] [o' t] [[K1 K2]|[E H]]; cbn [fst snd] in *.
  - left. destruct o; try contradiction K1; (split; [exact K1|]); destruct o'; exact K2.
  - subst o'. destruct o; apply dqF_same; exact H.
Qed.
Lemma dq_call : forall fc f args X Y, lib_fn f = true -> okfc P fc -> twinF X Y -> dqF (call_fn rb rc jf e0 fc f args X) (call_fn rb rc jf e0 fc f args Y).
Proof.
  intros fc f args X Y Lf Hf H. destruct f as [| | |sg body]; cbn [call_fn]; [| | |discriminate Lf].
  - apply dq_arg; assumption.
  - apply dq_fragment; assumption.
  - destruct args as [|[] [|[] idx]]; try (apply dqF_same; exact H). apply dq_join; assumption.
Qed.
Lemma dq_expr : forall fc x X Y, okfc P fc -> twinF X Y -> dqF (eval_expr rb rc jf e0 fc x X) (eval_expr rb rc jf e0 fc x Y).
Proof.
  intros fc x X Y Hf H. destruct x as [t p|a i p|name args p|name p]; cbn [eval_expr]; try (apply dqF_same; exact H).
  - destruct (nth1 _ _); [apply dq_arg; assumption|apply dqF_same; exact H].
  - unfold eval_function. destruct (lookup_fn e0 name) as [f|] eqn:E; [|apply dqF_same; exact H]. unfold eval_call.
    destruct (arity_ok _ _); [|apply dqF_same; exact H]. destruct (eval_args _ _); try (apply dqF_same; exact H).
    destruct (any_rejected _ _); apply dq_safe; [apply dqF_same; exact H|]. apply dq_call; try assumption. exact (lookup_lib _ _ _ He0 E).
Qed.
Lemma up_clause : forall e fc es S, up (fs_st S) (fs_st (snd (clause rb rc jf e fc es S))).
Proof.
  intros. apply step_clause; [exact up_refl|exact up_trans|exact up_commit|exact up_fresh|exact Urb|exact Urc].
Qed.
Lemma dq_clause : forall fc es X Y, okfc P fc -> twinF X Y -> dqF (clause rb rc jf e0 fc es X) (clause rb rc jf e0 fc es Y).
Proof.
  intros fc es. induction es as [|x es IH]; intros X Y Hf H; cbn [clause]; [apply dqF_same; exact H|].
  pose proof (dq_expr fc x X Y Hf H) as K. destruct (eval_expr rb rc jf e0 fc x X) as [o X'], (eval_expr rb rc jf e0 fc x Y) as [o' Y'].
  destruct K as [[K1 K2]|[E1 E2]]; cbn [fst snd] in *.
  - left. destruct o as [r|er|er|]; try contradiction K1; (split; [exact K1|]).
    all: destruct o' as [r'|er'|er'|]; try exact K2.
    all: pose proof (up_clause e0 fc es Y') as U; destruct (clause rb rc jf e0 fc es Y') as [[] Y2]; exact (bad_up _ _ K2 U).
  - subst o'. destruct o as [r|er|er|]; try (apply dqF_same; exact E2).
    pose proof (IH X' Y' Hf E2) as F. destruct (clause rb rc jf e0 fc es X') as [o X2], (clause rb rc jf e0 fc es Y') as [o' Y2].
    destruct F as [[F1 F2]|[F1 F2]]; cbn [fst snd] in *.
    + left. destruct o as [r2|er|er|]; try contradiction F1; (split; [exact F1|]); destruct o'; exact F2.
    + subst o'. destruct o; apply dqF_same; exact F2.
Qed.
End Rec.

Lemma up_clause_n : forall rb, (forall e b st, up st (snd (rb e b st))) -> forall n e fc es S, up (fs_st S) (fs_st (snd (clause_n n rb e fc es S))).
Proof. intros rb U. apply step_clause_n; [exact up_refl|exact up_trans|exact up_commit|exact up_fresh|exact U]. Qed.
Lemma dq_clause_n : forall rb, (forall b s t, lib P b = true -> twin s t -> dqa (rb e0 b s) (rb e0 b t)) -> (forall e b st, up st (snd (rb e b st))) ->
  forall n fc es X Y, okfc P fc -> twinF X Y -> dqF (clause_n n rb e0 fc es X) (clause_n n rb e0 fc es Y).
Proof.
  intros rb Hrb Urb. induction n as [|n IH]; intros fc es X Y Hf H; [apply dqF_same; exact H|]. cbn [clause_n].
  apply dq_clause; try assumption. apply up_clause_n. exact Urb.
Qed.
Lemma dq_frag : forall rb, (forall b s t, lib P b = true -> twin s t -> dqa (rb e0 b s) (rb e0 b t)) -> (forall e b st, up st (snd (rb e b st))) ->
  forall n f s t, lib_frag P f = true -> twin s t -> dqa (build_frag n rb e0 f s) (build_frag n rb e0 f t).
Proof.
  intros rb Hrb Urb n f s t Lf H. unfold build_frag. destruct (parse (f_raw f)) as [es|p m| |]; try (apply dqa_same; exact H).
  assert (Hf : okfc P (mkFrame (f_args f) (f_frags f))) by (rewrite lib_frag_eq in Lf; apply andb_prop in Lf; exact Lf).
  match goal with |- context [clause_n n rb e0 ?fc es (mkFS s ?u ?v)] =>
    pose proof (dq_clause_n rb Hrb Urb n fc es (mkFS s u v) (mkFS t u v) Hf (conj H (conj eq_refl eq_refl))) as K;
    destruct (clause_n n rb e0 fc es (mkFS s u v)) as [o X'], (clause_n n rb e0 fc es (mkFS t u v)) as [o' Y'] end.
  destruct K as [[K1 K2]|[E1 (E2 & E3 & E4)]]; cbn [fst snd] in *.
  - left. destruct o as [r|er|er|]; try contradiction K1; (split; [exact K1|]);
      (destruct o' as [r'|er'|er'|]; try exact K2; destruct (_ && _); [cbn zeta; destruct (is_empty _)|]; exact K2).
  - subst o'. rewrite E3, E4. destruct o as [r|er|er|]; try (apply dqa_same; exact E2).
    destruct (_ && _); [|apply dqa_same; exact E2]. cbn zeta. destruct (is_empty _); apply dqa_same; exact E2.
Qed.

(* ------------------------------------------------------------------ *)
(** * Query builders *)

Section RecQ.
Variable rb : builder -> store -> outcome string * store.
Hypothesis Hrb : forall b s t, lib P b = true -> twin s t -> dqa (rb b s) (rb b t).
Hypothesis Urb : forall b st, up st (snd (rb b st)).

Lemma dq_ctes_loop : forall cs d s t, forallb (fun c => lib P (c_builder c)) cs = true -> twin s t ->
  dqa (build_ctes_loop rb cs d s) (build_ctes_loop rb cs d t).
Proof.
  induction cs as [|c cs IH]; intros d s t Hl H; cbn [build_ctes_loop]; [apply dqa_same; exact H|].
  cbn in Hl. apply andb_prop in Hl as [Hc Hl]. destruct (dep_mem _ _); [|apply IH; assumption].
  pose proof (Hrb (c_builder c) s t Hc H) as K. destruct (rb (c_builder c) s) as [o s'], (rb (c_builder c) t) as [o' t'].
  destruct K as [[K1 K2]|[E1 E2]]; cbn [fst snd] in *.
  - left. destruct o as [r|er|er|]; try contradiction K1; (split; [exact K1|]);
      (destruct o' as [r'|er'|er'|]; try exact K2; pose proof (step_ctes_loop up up_refl up_trans rb Urb cs d t') as U;
       destruct (build_ctes_loop rb cs d t') as [[] t2]; exact (bad_up _ _ K2 U)).
  - subst o'. destruct o as [r|er|er|]; try (apply dqa_same; exact E2).
    pose proof (IH d s' t' Hl E2) as F. destruct (build_ctes_loop rb cs d s') as [o s2], (build_ctes_loop rb cs d t') as [o' t2].
    destruct F as [[F1 F2]|[F1 F2]]; cbn [fst snd] in *.
    + left. destruct o; try contradiction F1; (split; [exact F1|]); destruct o'; exact F2.
    + subst o'. destruct o; apply dqa_same; exact F2.
Qed.
Lemma dq_ctes : forall cs d s t, forallb (fun c => lib P (c_builder c)) cs = true -> twin s t ->
  dqa (build_ctes rb cs d s) (build_ctes rb cs d t).
Proof.
  intros cs d s t Hl H. unfold build_ctes. pose proof (dq_ctes_loop cs d s t Hl H) as F.
  destruct (build_ctes_loop rb cs d s) as [o s2], (build_ctes_loop rb cs d t) as [o' t2].
  destruct F as [[F1 F2]|[F1 F2]]; cbn [fst snd] in *.
  - left. destruct o; try contradiction F1; (split; [exact F1|]); destruct o' as [[]| | |]; exact F2.
  - subst o'. destruct o as [[]| | |]; apply dqa_same; exact F2.
Qed.
Lemma dq_from_loop : forall di fts d s t, forallb (fun ft => lib_ofrag P (ft_frag ft)) fts = true -> twin s t ->
  dqa (build_from_loop rb di fts d s) (build_from_loop rb di fts d t).
Proof.
  induction fts as [|c cs IH]; intros d s t Hl H; cbn [build_from_loop]; [apply dqa_same; exact H|].
  cbn in Hl. apply andb_prop in Hl as [Hc Hl]. destruct (_ && _); [apply IH; assumption|].
  assert (K : dqa (build_ofrag rb (ft_frag c) s) (build_ofrag rb (ft_frag c) t)).
  { unfold build_ofrag. destruct (ft_frag c) as [f|]; apply Hrb; try assumption. }
  destruct (build_ofrag rb (ft_frag c) s) as [o s'], (build_ofrag rb (ft_frag c) t) as [o' t'].
  destruct K as [[K1 K2]|[E1 E2]]; cbn [fst snd] in *.
  - left. destruct o as [r|er|er|]; try contradiction K1; (split; [exact K1|]);
      (destruct o' as [r'|er'|er'|]; try exact K2; pose proof (step_from_loop up up_refl up_trans rb Urb di cs d t') as U;
       destruct (build_from_loop rb di cs d t') as [[] t2]; exact (bad_up _ _ K2 U)).
  - subst o'. destruct o as [r|er|er|]; try (apply dqa_same; exact E2).
    pose proof (IH d s' t' Hl E2) as F. destruct (build_from_loop rb di cs d s') as [o s2], (build_from_loop rb di cs d t') as [o' t2].
    destruct F as [[F1 F2]|[F1 F2]]; cbn [fst snd] in *.
    + left. destruct o; try contradiction F1; (split; [exact F1|]); destruct o'; exact F2.
    + subst o'. destruct o; apply dqa_same; exact F2.
Qed.
Lemma dq_from : forall q d s t, lib_qb P (quiet q) = true -> twin s t -> dqa (build_from rb q d s) (build_from rb q d t).
Proof.
  intros q d s t Hq H. unfold build_from.
  assert (Hl : forallb (fun ft => lib_ofrag P (ft_frag ft)) (from_tables q) = true).
  { apply lib_qb_iff in Hq. destruct Hq as (_ & Ho & _). cbn in Ho. rewrite forallb_forall in Ho |- *.
    intros ft Hin. unfold from_tables in Hin. apply in_map_iff in Hin as [id [<- _]].
    destruct (nth_in_or_default id (q_tobjs q) (mkFT ("", "") None false)) as [Hi| ->]; [auto|reflexivity]. }
  pose proof (dq_from_loop (q_distinct q) (from_tables q) d s t Hl H) as F.
  destruct (build_from_loop rb _ _ d s) as [o s2], (build_from_loop rb _ _ d t) as [o' t2].
  destruct F as [[F1 F2]|[F1 F2]]; cbn [fst snd] in *.
  - left. destruct o; try contradiction F1; (split; [exact F1|]); destruct o'; exact F2.
  - subst o'. destruct o; apply dqa_same; exact F2.
Qed.
Lemma lib_orders : forall q, lib_qb P q = true -> lib_qb P (with_orders q) = true /\ forallb (lib P) (order_items q) = true.
Proof.
  intros q Hq. assert (Ho : forallb (fun o => lib P (fst o)) (q_orders q) = true) by (apply lib_qb_iff in Hq; unfold libq in Hq; tauto).
  pose proof (orders_lib P (q_orders q) 0 q [] Hq Ho eq_refl) as L. rewrite orders_spec in L. exact L.
Qed.
Lemma lib_select : forall q, lib_qb P q = true -> lib_qb P (with_select q) = true /\ lib_frag P (select_clause q) = true.
Proof.
  intros q Hq. assert (Hs : lib_frag P (select_clause q) = true).
  { unfold select_clause. rewrite lib_frag_eq. change (forallb P (f_args (q_selects q)) && forallb (lib P) (f_frags (q_selects q)) = true). rewrite <- lib_frag_eq. apply lib_qb_iff in Hq. unfold libq in Hq. tauto. }
  split; [|exact Hs]. apply lib_qb_iff in Hq. apply lib_qb_iff. unfold libq, with_select in *. cbn [set_selects q_ctes q_tobjs q_selects q_touches q_conds q_groups q_orders q_unions q_debug]. tauto.
Qed.
Lemma dq_orders : forall id s t, twin s t -> dqa (build_orders rb id s) (build_orders rb id t).
Proof.
  intros id s t H. destruct (twin_get s t id H) as (G & D & L). unfold build_orders. rewrite G, !orders_spec.
  rewrite G in L. destruct (lib_orders _ L) as [L1 L2]. apply Hrb.
  - cbn [lib]. rewrite lib_frag_eq. exact L2.
  - rewrite (proj1 (quiet_orders (get_q s id))) in *. apply twin_set; [exact H|reflexivity|exact L1|].
    rewrite <- (proj1 (quiet_orders (get_q s id))). rewrite <- G. apply rebuilt_orders. apply H.
Qed.
Lemma dq_selects : forall id s t, twin s t -> dqa (build_selects rb id s) (build_selects rb id t).
Proof.
  intros id s t H. destruct (twin_get s t id H) as (G & D & L). unfold build_selects.
  change (with_prefix (q_selects (get_q s id)) (if q_distinct (get_q s id) then "SELECT DISTINCT" else "SELECT")) with (select_clause (get_q s id)).
  change (with_prefix (q_selects (get_q t id)) (if q_distinct (get_q t id) then "SELECT DISTINCT" else "SELECT")) with (select_clause (get_q t id)).
  fold (with_select (get_q s id)). fold (with_select (get_q t id)). destruct (lib_select _ L) as [L1 L2].
  rewrite G in *. rewrite (proj1 (quiet_select _)) in *. rewrite (proj2 (quiet_select _)) in *.
  assert (K0 : twin (set_q s id (with_select (get_q s id))) (set_q t id (quiet (with_select (get_q s id))))).
  { apply twin_set; [exact H|reflexivity|exact L1|]. rewrite <- (proj1 (quiet_select (get_q s id))), <- G. apply rebuilt_select. apply H. }
  pose proof (Hrb (BFrag (select_clause (get_q s id))) _ _ L2 K0) as K.
  destruct (rb (BFrag (select_clause (get_q s id))) (set_q s id _)) as [o s'], (rb (BFrag (select_clause (get_q s id))) (set_q t id _)) as [o' t'].
  destruct K as [[K1 K2]|[E1 E2]]; cbn [fst snd] in *.
  - left. destruct o as [r|er|er|]; try contradiction K1; (split; [exact K1|]);
      (destruct o' as [r'|er'|er'|]; try exact K2;
       pose proof (Urb (BFrag (q_touches (get_q t' id))) t') as U; destruct (rb (BFrag (q_touches (get_q t' id))) t') as [[] t2];
       cbn [snd] in U; apply (bad_up _ (len t2)) in K2; try exact U; try exact K2; destruct (is_empty r'); [exact K2|]; destruct (is_empty _); exact K2).
  - subst o'. destruct o as [r|er|er|]; try (apply dqa_same; exact E2).
    destruct (twin_get s' t' id E2) as (G2 & _ & L3). rewrite G2 in *. cbn [quiet set_debug q_touches].
    assert (L4 : lib P (BFrag (q_touches (get_q s' id))) = true).
    { apply lib_qb_iff in L3. unfold libq in L3. cbn [quiet set_debug q_touches] in L3. cbn [lib]. tauto. }
    pose proof (Hrb (BFrag (q_touches (get_q s' id))) _ _ L4 E2) as F.
    destruct (rb (BFrag (q_touches (get_q s' id))) s') as [o s2], (rb (BFrag (q_touches (get_q s' id))) t') as [o' t2].
    destruct F as [[F1 F2]|[F1 F2]]; cbn [fst snd] in *.
    + left. destruct o; try contradiction F1; (split; [exact F1|]); (destruct o'; try exact F2; destruct (is_empty r); [exact F2|]; destruct (is_empty _); exact F2).
    + subst o'. destruct o; try (apply dqa_same; exact F2). destruct (is_empty r); [apply dqa_same; exact F2|]. destruct (is_empty _); apply dqa_same; exact F2.
Qed.
Lemma dq_union_loop : forall bs s t, forallb (lib P) bs = true -> twin s t -> dqa (build_union_loop rb bs s) (build_union_loop rb bs t).
Proof.
  induction bs as [|b bs IH]; intros s t Hl H; cbn [build_union_loop]; [apply dqa_same; exact H|].
  cbn in Hl. apply andb_prop in Hl as [Hc Hl].
  pose proof (Hrb b s t Hc H) as K. destruct (rb b s) as [o s'], (rb b t) as [o' t'].
  destruct K as [[K1 K2]|[E1 E2]]; cbn [fst snd] in *.
  - left. destruct o as [r|er|er|]; try contradiction K1; (split; [exact K1|]);
      (destruct o' as [r'|er'|er'|]; try exact K2; pose proof (step_union_loop up up_refl up_trans rb Urb bs t') as U;
       destruct (build_union_loop rb bs t') as [[] t2]; exact (bad_up _ _ K2 U)).
  - subst o'. destruct o as [r|er|er|]; try (apply dqa_same; exact E2).
    pose proof (IH s' t' Hl E2) as F. destruct (build_union_loop rb bs s') as [o s2], (build_union_loop rb bs t') as [o' t2].
    destruct F as [[F1 F2]|[F1 F2]]; cbn [fst snd] in *.
    + left. destruct o; try contradiction F1; (split; [exact F1|]); destruct o'; exact F2.
    + subst o'. destruct o; apply dqa_same; exact F2.
Qed.
Lemma dq_union : forall bs s t, forallb (lib P) bs = true -> twin s t -> dqa (build_union rb bs s) (build_union rb bs t).
Proof.
  intros bs s t Hl H. unfold build_union. pose proof (dq_union_loop bs s t Hl H) as F.
  destruct (build_union_loop rb bs s) as [o s2], (build_union_loop rb bs t) as [o' t2].
  destruct F as [[F1 F2]|[F1 F2]]; cbn [fst snd] in *.
  - left. destruct o; try contradiction F1; (split; [exact F1|]); destruct o'; exact F2.
  - subst o'. destruct o; apply dqa_same; exact F2.
Qed.
(** The last step may add a panic. *)
Definition last (id : nat) (x y : outcome string * store) : Prop :=
  dqa x y \/ exists er q, fst x = RPanic er /\ fst y = ROk q /\ nth id fl false = true /\ calm (snd y) /\
    interpolate (fun _ => "") q (st_args (snd y)) = RPanic er.
Lemma last_bind : forall id x y k l, dqa x y -> (forall s st, up st (snd (l s st))) ->
  (forall s st st', twin st st' -> last id (k s st) (l s st')) -> last id (bind x k) (bind y l).
Proof.
  intros id [o s] [o' t] k l [[K1 K2]|[E1 E2]] U Hk; cbn [fst snd] in *.
  - left. left. destruct o as [r|er|er|]; try contradiction K1; (split; [exact K1|]);
      (destruct o' as [r'|er'|er'|]; try exact K2; cbn [bind]; exact (bad_up _ _ K2 (U r' t))).
  - subst o'. destruct o as [r|er|er|]; cbn [bind]; try (left; apply dqa_same; exact E2). apply Hk. exact E2.
Qed.
Lemma dq_bind : forall x y k l, dqa x y -> (forall s st, up st (snd (l s st))) ->
  (forall s st st', twin st st' -> dqa (k s st) (l s st')) -> dqa (bind x k) (bind y l).
Proof.
  intros [o s] [o' t] k l [[K1 K2]|[E1 E2]] U Hk; cbn [fst snd] in *.
  - left. destruct o as [r|er|er|]; try contradiction K1; (split; [exact K1|]);
      (destruct o' as [r'|er'|er'|]; try exact K2; cbn [bind]; exact (bad_up _ _ K2 (U r' t))).
  - subst o'. destruct o as [r|er|er|]; cbn [bind]; try (apply dqa_same; exact E2). apply Hk. exact E2.
Qed.
Lemma up_bind : forall x k s0, up s0 (snd x) -> (forall s st, up st (snd (k s st))) -> up s0 (snd (bind x k)).
Proof. intros x k s0. apply step_bind. exact up_trans. Qed.
Lemma up_ctes : forall cs d st, up st (snd (build_ctes rb cs d st)).
Proof. apply step_ctes; [exact up_refl|exact up_trans|exact Urb]. Qed.
Lemma up_from : forall q d st, up st (snd (build_from rb q d st)).
Proof. apply step_from; [exact up_refl|exact up_trans|exact Urb]. Qed.
Lemma up_orders : forall id st, up st (snd (build_orders rb id st)).
Proof. apply step_orders; [exact up_trans| |exact Urb]. intros. apply up_set. Qed.
Lemma up_selects : forall id st, up st (snd (build_selects rb id st)).
Proof. apply step_selects; [exact up_trans| |exact Urb]. intros. apply up_set. Qed.
Lemma up_union : forall bs st, up st (snd (build_union rb bs st)).
Proof. apply step_union; [exact up_refl|exact up_trans|exact Urb]. Qed.
Ltac ups := repeat (cbn zeta; first
  [ apply up_refl | apply up_ctes | apply up_from | apply up_orders | apply up_selects | apply up_union | apply Urb
  | apply up_bind | intros ? ?
  | match goal with |- up _ (snd (match ?x with _ => _ end)) => destruct x end ]).

Lemma interpolate_hard : forall ft q args er, forallb P args = true -> interpolate ft q args = RPanic er -> is_invalid_index er = false.
Proof.
  intros ft q args er Ha H. apply interpolate_panics in H. destruct H as (es & pre & outs & x & post & _ & _ & _ & Hx).
  destruct Hx as [sty k Ho|sty k v e N1 N2 Hm]; [reflexivity|]. eapply Hpan; [|exact Hm].
  rewrite forallb_forall in Ha. apply Ha. eapply nth_error_In. exact N2.
Qed.

Lemma dq_internal : forall id s t, twin s t -> last id (build_internal rb id s) (build_internal rb id t).
Proof.
  intros id s t H. unfold build_internal. destruct (twin_get s t id H) as (G & D & L). rewrite G, quiet_collect.
  cbn [quiet set_debug q_errors q_ctes]. fold (quiet (get_q s id)).
  destruct (q_errors (get_q s id)); [|left; apply dqa_same; exact H].
  destruct (collect_deps (get_q s id)) as [d|er|er|]; try (left; apply dqa_same; exact H).
  rewrite G in L. apply lib_qb_iff in L. unfold libq in L. cbn [quiet set_debug q_ctes] in L.
  apply last_bind; [apply dq_ctes; [tauto|exact H]|ups|]. clear s t H G D L. intros sq s t H.
  destruct (twin_get s t id H) as (G & D & L). rewrite G.
  change (build_from rb (quiet (get_q s id)) d t) with (build_from rb (get_q s id) d t).
  apply last_bind; [apply dq_from; [rewrite <- G; exact L|exact H]|ups|]. clear s t H G D L. intros fr s t H.
  destruct (twin_get s t id H) as (G & D & L). rewrite G in *. apply lib_qb_iff in L. unfold libq in L. cbn [quiet set_debug q_conds q_groups] in *.
  apply last_bind; [apply Hrb; [cbn [lib]; tauto|exact H]|ups|]. clear s t H G D L. intros wh s t H.
  destruct (twin_get s t id H) as (G & D & L). rewrite G in *. apply lib_qb_iff in L. unfold libq in L. cbn [quiet set_debug q_conds q_groups] in *.
  apply last_bind; [apply Hrb; [cbn [lib]; tauto|exact H]|ups|]. clear s t H G D L. intros gr s t H.
  apply last_bind; [apply dq_orders; exact H|ups|]. clear s t H. intros ord s t H. cbn zeta.
  destruct (twin_get s t id H) as (G & D & L). rewrite G. cbn [quiet set_debug q_limit q_offset]. clear G D L.
  apply last_bind; [apply dq_selects; exact H|ups|].
  generalize (if (0 <? q_limit (get_q s id))%Z then ["LIMIT " ++ itoa (q_limit (get_q s id))] else []).
  generalize (if (0 <? q_offset (get_q s id))%Z then ["OFFSET " ++ itoa (q_offset (get_q s id))] else []).
  clear s t H. intros off lim sel s t H. cbn zeta.
  generalize (trim_space (str_join " " (nonempty sq ++ [sel] ++ nonempty fr ++ nonempty wh ++ nonempty gr ++ nonempty ord ++ lim ++ off)%list)). intros query.
  apply last_bind; [|ups|].
  { destruct (twin_get s t id H) as (G & D & L). rewrite G in *. apply lib_qb_iff in L. unfold libq in L. cbn [quiet set_debug q_unions] in *.
    destruct (q_unions (get_q s id)) as [|u us] eqn:E; [apply dqa_same; exact H|]. apply dq_bind; [apply dq_union; [tauto|exact H]|ups|].
    intros r s1 t1 H1. apply dqa_same. exact H1. }
  clear s t H. intros r s t H. destruct (twin_get s t id H) as (G & D & L). rewrite G. cbn [quiet set_debug q_debug]. rewrite D.
  destruct (nth id fl false) eqn:Ef; [|left; apply dqa_same; exact H].
  pose proof H as (_ & Ha & _ & _ & _ & C). rewrite Ha.
  destruct (interpolate (fun _ : gotime => "") r (st_args t)) as [x|er|er|] eqn:Ei; try (left; apply dqa_same; exact H).
  - right. exists er, r. cbn [fst snd]. auto.
  - exfalso. exact (interpolate_fuel _ _ _ Ei).
Qed.
End RecQ.

Theorem dq_build : forall n b s t, lib P b = true -> twin s t -> dqa (build n e0 b s) (build n e0 b t).
Proof.
  induction n as [|n IH]; intros b s t Hb H; [apply dqa_same; exact H|].
  destruct b as [| |f| |[f|] x|x|x a|[id|]|p]; try (apply dqa_same; exact H); try discriminate Hb.
  - apply dq_frag; [exact IH|intros; apply up_build|exact Hb|exact H].
  - apply dq_frag; [exact IH|intros; apply up_build|exact Hb|exact H].
  - destruct (dq_internal (build n e0) IH (fun b st => up_build n e0 b st) id s t H) as [K|(er & q & K1 & K2 & K3 & K4 & K5)]; [exact K|].
    left. cbn [build]. rewrite K1. cbn [hard]. split; [exact (interpolate_hard _ _ _ _ (proj1 (proj2 K4)) K5)|].
    exists (S n), id, t, q, (snd (build_internal (build n e0) id t)), er. split; [apply H|]. split; [exact K3|].
    split; [cbn [build]; rewrite <- K2; destruct (build_internal _ id t); reflexivity|]. split; [exact K5|lia].
Qed.
End Debug.
