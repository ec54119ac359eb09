(** Facts about the rules of query builders. *)
From Coq Require Import Strings.String Strings.Ascii NArith ZArith List Bool Lia.
From Verif Require Import GoStr GoNum Syntax Value Util Model Sqlf Sqlb Spec_syntax RefSem Spec_build Spec_eval Spec_base Spec_query
  Fuel_proofs Eval_proofs Use_proofs Join_proofs Base_proofs Again_proofs Deps_proofs Query_proofs Spec_keep Keep_proofs Spec_steps Steps_proofs Spec_rules Rules_proofs.
Import ListNotations.
Open Scope string_scope.

(* ------------------------------------------------------------------ *)
(** * Queries as a series of jobs *)

Definition do_job (rb : builder -> store -> outcome string * store) (id : nat) (j : job) (st : store) : outcome string * store :=
  rb (job_builder id j st) (job_state id j st).

(** [x] fails like [y]. *)
Definition fails_as {A B} (x : outcome A * store) (y : outcome B * store) : Prop :=
  match y with
  | (ROk _, _) => True
  | (RErr er, s) => exists er', x = (RErr er', s) /\ is_invalid_index er' = is_invalid_index er
  | (RPanic er, s) => x = (RPanic er, s)
  | (RFuel, s) => x = (RFuel, s)
  end.

Lemma do_all_app : forall A (f : A -> store -> outcome string * store) a b st, do_all f (a ++ b) st =
  match do_all f a st with
  | (ROk l, st1) => match do_all f b st1 with (ROk l2, st2) => (ROk (l ++ l2)%list, st2) | r => r end
  | r => r
  end.
Proof.
  intros A f. induction a as [|x a IH]; intros b st; cbn [app do_all].
  - destruct (do_all f b st) as [[]]; reflexivity.
  - destruct (f x st) as [[s|er|er|] st1]; try reflexivity. rewrite IH. destruct (do_all f a st1) as [[l|er|er|] st2]; try reflexivity.
    destruct (do_all f b st2) as [[l2|er|er|] st3]; reflexivity.
Qed.
Lemma do_all_map : forall A B (g : A -> B) (f : B -> store -> outcome string * store) l st, do_all f (map g l) st = do_all (fun x => f (g x)) l st.
Proof. intros A B g f. induction l as [|x l IH]; intros st; cbn [map do_all]; [reflexivity|]. destruct (f (g x) st) as [[s|er|er|] st1]; try reflexivity. rewrite IH. reflexivity. Qed.
Lemma do_all_ext : forall A (f g : A -> store -> outcome string * store), (forall x st, f x st = g x st) -> forall l st, do_all f l st = do_all g l st.
Proof. intros A f g H. induction l as [|x l IH]; intros st; cbn [do_all]; [reflexivity|]. rewrite H. destruct (g x st) as [[s|er|er|] st1]; try reflexivity. rewrite IH. reflexivity. Qed.
Lemma do_all_length : forall A (f : A -> store -> outcome string * store) l st r st', do_all f l st = (ROk r, st') -> List.length r = List.length l.
Proof.
  intros A f. induction l as [|x l IH]; intros st r st' H; cbn [do_all] in H; [injection H as <- _; reflexivity|].
  destruct (f x st) as [[s|er|er|] st1]; try discriminate. destruct (do_all f l st1) as [[l2|er|er|] st2] eqn:E; try discriminate.
  injection H as <- _. cbn [List.length]. f_equal. eapply IH. exact E.
Qed.

Section Internal.
Variable rb : builder -> store -> outcome string * store.
Hypothesis Hrb : forall b st, evolves st (snd (rb b st)).

Lemma ctes_loop_fails : forall d cs st, fails_as (build_ctes_loop rb cs d st)
  (do_all (fun c => rb (c_builder c)) (filter (fun c => dep_mem (c_name c, "") d) cs) st).
Proof.
  intros d. induction cs as [|c cs IH]; intros st; cbn [build_ctes_loop filter]; [exact Logic.I|].
  destruct (dep_mem (c_name c, "") d); [|apply IH]. cbn [do_all]. destruct (rb (c_builder c) st) as [[s|er|er|] st1]; cbn [fails_as]; try reflexivity.
  - specialize (IH st1). destruct (do_all _ _ st1) as [[l|er|er|] st2]; cbn [fails_as] in IH |- *; try exact Logic.I.
    + destruct IH as (er' & -> & E). eauto.
    + rewrite IH. reflexivity.
    + rewrite IH. reflexivity.
  - eexists. split; [reflexivity|]. reflexivity.
Qed.
Lemma ctes_fails : forall d cs st, fails_as (build_ctes rb cs d st)
  (do_all (fun c => rb (c_builder c)) (filter (fun c => dep_mem (c_name c, "") d) cs) st).
Proof.
  intros d cs st. pose proof (ctes_loop_fails d cs st) as H. unfold build_ctes. destruct (do_all _ _ st) as [[l|er|er|] st2]; cbn [fails_as] in H |- *.
  - exact Logic.I.
  - destruct H as (er' & -> & E). eauto.
  - rewrite H. reflexivity.
  - rewrite H. reflexivity.
Qed.
Lemma from_loop_fails : forall di d fts st, fails_as (build_from_loop rb di fts d st)
  (do_all (fun ft => rb (table_builder ft)) (filter (fun ft => negb (di && ft_optional ft && negb (dep_mem (ft_names ft) d))) fts) st).
Proof.
  intros di d. induction fts as [|ft fts IH]; intros st; cbn [build_from_loop filter]; [exact Logic.I|].
  destruct (di && ft_optional ft && negb (dep_mem (ft_names ft) d)); cbn [negb]; [apply IH|]. cbn [do_all]. rewrite build_ofrag_table.
  destruct (rb (table_builder ft) st) as [[s|er|er|] st1]; cbn [fails_as]; try reflexivity.
  - specialize (IH st1). destruct (do_all _ _ st1) as [[l|er|er|] st2]; cbn [fails_as] in IH |- *; try exact Logic.I.
    + destruct IH as (er' & -> & E). eauto.
    + rewrite IH. reflexivity.
    + rewrite IH. reflexivity.
  - eexists. split; [reflexivity|]. reflexivity.
Qed.
Lemma from_fails : forall q d st, fails_as (build_from rb q d st) (do_all (fun ft => rb (table_builder ft)) (filter (kept q d) (listed q)) st).
Proof.
  intros q d st. pose proof (from_loop_fails (q_distinct q) d (from_tables q) st) as H. unfold build_from.
  change (filter (kept q d) (listed q)) with (filter (fun ft => negb (q_distinct q && ft_optional ft && negb (dep_mem (ft_names ft) d))) (from_tables q)).
  destruct (do_all _ _ st) as [[l|er|er|] st2]; cbn [fails_as] in H |- *.
  - exact Logic.I.
  - destruct H as (er' & -> & E). eauto.
  - rewrite H. reflexivity.
  - rewrite H. reflexivity.
Qed.
Lemma union_fails : forall bs st, fails_as (build_union rb bs st) (do_all rb bs st).
Proof.
  intros bs st. assert (H : fails_as (build_union_loop rb bs st) (do_all rb bs st)).
  { revert st. induction bs as [|b bs IH]; intros st; cbn [build_union_loop do_all]; [exact Logic.I|].
    destruct (rb b st) as [[s|er|er|] st1]; cbn [fails_as]; try reflexivity; [|eauto].
    specialize (IH st1). destruct (do_all _ _ st1) as [[l|er|er|] st2]; cbn [fails_as] in IH |- *; try exact Logic.I.
    - destruct IH as (er' & -> & E). eauto.
    - rewrite IH. reflexivity.
    - rewrite IH. reflexivity. }
  unfold build_union. destruct (do_all _ _ st) as [[l|er|er|] st2]; cbn [fails_as] in H |- *.
  - exact Logic.I.
  - destruct H as (er' & -> & E). eauto.
  - rewrite H. reflexivity.
  - rewrite H. reflexivity.
Qed.
Lemma bind_fails : forall A (x : outcome string * store) k (y : outcome A * store), fails_as x y ->
  match y with (ROk _, _) => False | _ => True end -> fails_as (bind x k) y.
Proof.
  intros A x k [[l|er|er|] st]; cbn [fails_as]; intros H N; [destruct N| | |].
  - destruct H as (er' & -> & E). exists er'. split; [reflexivity|exact E].
  - rewrite H. reflexivity.
  - rewrite H. reflexivity.
Qed.

(** What follows the clauses of the query. *)
Definition concluded (q : qb) (kc : cte -> bool) (l : list string) (st1 : store) (x : outcome string * store) : Prop :=
  exists ctexts froms w g o s h, l = (ctexts ++ froms ++ [w; g; o; s; h])%list /\ List.length ctexts = List.length (filter kc (q_ctes q)) /\
    if is_empty s then exists er, x = (RErr er, st1) /\ is_invalid_index er = false
    else match do_all rb (q_unions q) st1 with
      | (ROk us, st2) => x = (ROk (layout (mkSections (combine (map c_name (filter kc (q_ctes q))) ctexts) s h froms w g o (q_limit q) (q_offset q)
          (match q_unions q with [] => None | _ => Some us end))), st2)
      | y => fails_as x y
      end.

Lemma internal_series : forall id st d, let q := get_q st id in q_errors q = [] -> collect_deps q = ROk d -> q_debug q = false ->
  match do_all (do_job rb id) (clause_jobs q (kept q d) (fun c => dep_mem (c_name c, "") d)) st with
  | (ROk l, st1) => concluded q (fun c => dep_mem (c_name c, "") d) l st1 (build_internal rb id st)
  | y => fails_as (build_internal rb id st) y
  end.
Proof.
  intros id st d q Er Ed Dbg.
  assert (Fx : forall a, evolves st a -> fixed q (get_q a id)) by (intros a [_ H]; apply evolved_fixed; apply H).
  unfold build_internal. fold q. rewrite Er, Ed. unfold clause_jobs. rewrite do_all_app, do_all_map.
  rewrite (do_all_ext _ (fun x => do_job rb id (JBuild (c_builder x))) (fun c => rb (c_builder c))) by reflexivity.
  set (kc := fun c => dep_mem (c_name c, "") d).
  pose proof (ctes_fails d (q_ctes q) st) as F1. pose proof (ctes_ok_iff rb d (q_ctes q) st) as O1. fold kc in F1, O1.
  pose proof (do_all_evolves rb Hrb _ c_builder (filter kc (q_ctes q)) st) as V1.
  destruct (do_all (fun c => rb (c_builder c)) (filter kc (q_ctes q)) st) as [[ct|er|er|] st1] eqn:E1; try (apply bind_fails; [exact F1|exact Logic.I]).
  cbn [snd] in V1. clear F1. rewrite (proj2 (O1 _ st1) (ex_intro _ ct (conj eq_refl eq_refl))). cbn [bind]. clear O1.
  rewrite do_all_app, do_all_map.
  rewrite (do_all_ext _ (fun x => do_job rb id (JBuild (table_builder x))) (fun ft => rb (table_builder ft))) by reflexivity.
  pose proof (from_fails (get_q st1 id) d st1) as F2. pose proof (from_ok_iff rb (get_q st1 id) d st1) as O2.
  rewrite (fixed_listed q) in F2, O2 by (apply Fx; exact V1).
  rewrite (filter_ext _ (kept q d)) in F2 by (intros x; apply fixed_kept, Fx; exact V1).
  assert (O2' : forall l st', do_all (fun ft => rb (table_builder ft)) (filter (kept q d) (listed q)) st1 = (ROk l, st') ->
    build_from rb (get_q st1 id) d st1 = (ROk ("FROM " ++ str_join " " l), st')).
  { intros l st' K. apply O2. exists l. rewrite (filter_ext _ (kept q d)) by (intros x; apply fixed_kept, Fx; exact V1). auto. }
  pose proof (do_all_evolves rb Hrb _ table_builder (filter (kept q d) (listed q)) st1) as V2.
  destruct (do_all (fun ft => rb (table_builder ft)) (filter (kept q d) (listed q)) st1) as [[fr|er|er|] st2] eqn:E2; try (apply bind_fails; [exact F2|exact Logic.I]).
  cbn [snd] in V2. pose proof (evolves_trans _ _ _ V1 V2) as V2'. rewrite (O2' fr st2 eq_refl). cbn [bind]. clear F2 O2 O2'.
  cbn [do_all]. unfold do_job at 1. cbn [job_builder job_state].
  destruct (Fx st2 V2') as (_ & _ & _ & _ & _ & Q & _). rewrite Q. clear Q.
  pose proof (Hrb (BFrag (q_conds q)) st2) as V3. destruct (rb (BFrag (q_conds q)) st2) as [[w|er|er|] st3] eqn:E3; cbn [bind fails_as]; eauto.
  cbn [snd] in V3. pose proof (evolves_trans _ _ _ V2' V3) as V3'. unfold do_job at 1. cbn [job_builder job_state].
  destruct (Fx st3 V3') as (_ & _ & _ & _ & _ & _ & _ & Q & _). rewrite Q. clear Q.
  pose proof (Hrb (BFrag (q_groups q)) st3) as V4. destruct (rb (BFrag (q_groups q)) st3) as [[g|er|er|] st4] eqn:E4; cbn [bind fails_as]; eauto.
  cbn [snd] in V4. pose proof (evolves_trans _ _ _ V3' V4) as V4'. unfold do_job at 1. cbn [job_builder job_state].
  unfold build_orders. rewrite orders_spec. change (Frag join_comma [] (order_items (get_q st4 id)) "ORDER BY" "") with (order_clause (get_q st4 id)).
  pose proof (Hrb (BFrag (order_clause (get_q st4 id))) (set_q st4 id (with_orders (get_q st4 id)))) as V5.
  destruct (rb (BFrag (order_clause (get_q st4 id))) (set_q st4 id (with_orders (get_q st4 id)))) as [[o|er|er|] st5] eqn:E5; cbn [bind fails_as]; eauto.
  cbn [snd] in V5. assert (V5' : evolves st st5) by (eapply evolves_trans; [exact V4'|]; eapply evolves_trans; [|exact V5]; apply evolves_set, evolved_orders).
  unfold do_job at 1. cbn [job_builder job_state]. unfold build_selects.
  change (with_prefix (q_selects (get_q st5 id)) (if q_distinct (get_q st5 id) then "SELECT DISTINCT" else "SELECT")) with (select_clause (get_q st5 id)).
  fold (with_select (get_q st5 id)).
  pose proof (Hrb (BFrag (select_clause (get_q st5 id))) (set_q st5 id (with_select (get_q st5 id)))) as V6.
  destruct (rb (BFrag (select_clause (get_q st5 id))) (set_q st5 id (with_select (get_q st5 id)))) as [[s|er|er|] st6] eqn:E6; cbn [bind fails_as]; eauto.
  cbn [snd] in V6. assert (V6' : evolves st st6) by (eapply evolves_trans; [exact V5'|]; eapply evolves_trans; [|exact V6]; apply evolves_set, evolved_select).
  unfold do_job at 1. cbn [job_builder job_state].
  pose proof (Hrb (BFrag (q_touches (get_q st6 id))) st6) as V7.
  destruct (rb (BFrag (q_touches (get_q st6 id))) st6) as [[h|er|er|] st7] eqn:E7; cbn [bind fails_as]; eauto.
  cbn [snd] in V7. pose proof (evolves_trans _ _ _ V6' V7) as V7'.
  exists ct, fr, w, g, o, s, h. split; [reflexivity|]. split; [eapply do_all_length; exact E1|].
  destruct (is_empty s) eqn:Es; [cbn [bind]; eexists; split; [reflexivity|reflexivity]|].
  replace (if is_empty h then (ROk s, st7) else (ROk (s ++ ", " ++ h), st7)) with (@ROk string (if is_empty h then s else s ++ ", " ++ h), st7) by (destruct (is_empty h); reflexivity).
  cbn [bind]. destruct (Fx st5 V5') as (_ & _ & _ & _ & _ & _ & _ & _ & _ & QL & QO & _). rewrite QL, QO. clear QL QO.
  destruct (Fx st7 V7') as (_ & _ & _ & _ & _ & _ & _ & _ & _ & _ & _ & QU & _). rewrite QU. clear QU.
  rewrite nonempty_with, from_nonempty.
  change (nonempty w) with (if_any w). change (nonempty g) with (if_any g). change (nonempty o) with (if_any o).
  change (if (0 <? q_limit q)%Z then ["LIMIT " ++ itoa (q_limit q)] else []) with (number_clause "LIMIT " (q_limit q)).
  change (if (0 <? q_offset q)%Z then ["OFFSET " ++ itoa (q_offset q)] else []) with (number_clause "OFFSET " (q_offset q)).
  pose proof (union_fails (q_unions q) st7) as F8. pose proof (union_ok_iff rb (q_unions q) st7) as O8.
  pose proof (do_all_evolves rb Hrb _ (fun b => b) (q_unions q) st7) as V8. cbv beta in V8. change (fun x : builder => rb x) with rb in V8.
  destruct (do_all rb (q_unions q) st7) as [[us|er|er|] st8] eqn:E8; cbn [snd] in V8.
  - assert (Q : q_debug (get_q st8 id) = false) by (destruct (Fx st8 (evolves_trans _ _ _ V7' V8)) as (_ & _ & _ & _ & _ & _ & _ & _ & _ & _ & _ & _ & QD & _); congruence).
    unfold layout. cbn [s_with s_select s_hidden s_from s_where s_group s_order s_limit s_offset s_union].
    destruct (q_unions q) as [|u us0] eqn:Eu.
    + cbn [bind]. cbn [do_all] in E8. injection E8 as <- <-. rewrite Q. reflexivity.
    + rewrite (proj2 (O8 _ st8) (ex_intro _ us (conj eq_refl eq_refl))). cbn [bind]. rewrite Q. reflexivity.
  - destruct (q_unions q) as [|u us0]; [discriminate E8|]. apply bind_fails; [|exact Logic.I]. apply bind_fails; [exact F8|exact Logic.I].
  - destruct (q_unions q) as [|u us0]; [discriminate E8|]. apply bind_fails; [|exact Logic.I]. apply bind_fails; [exact F8|exact Logic.I].
  - destruct (q_unions q) as [|u us0]; [discriminate E8|]. apply bind_fails; [|exact Logic.I]. apply bind_fails; [exact F8|exact Logic.I].
Qed.
End Internal.
