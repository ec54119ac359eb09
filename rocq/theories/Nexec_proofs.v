(** Proofs for Prop_nexec.v: executing the text of a statement of several queries
    gives its answers. *)
From Coq Require Import Strings.String Strings.Ascii NArith ZArith List Bool Lia.
From Verif Require Import GoStr GoNum Syntax Value Util Model Sqlf Sqlb Spec_syntax RefSem Spec_build
  Spec_util Spec_eval Spec_query Spec_sql Spec_nest Spec_interp Sql_proofs Interp_proofs Nest_proofs Spec_answer Answer_proofs Sqltok_proofs Spec_views Views_proofs Read_proofs Read2_proofs Nread_proofs Nread2_proofs
  Ninterp_proofs Nshown_proofs Exec_proofs Spec_sqltok Spec_read Spec_nread Spec_exec Spec_nexec.
Import ListNotations.
Open Scope string_scope.
Open Scope list_scope.

Section Run.
Variable E : engine.
Variable sub_test : list token -> d_val (e_data E) -> list (list (d_val (e_data E))) -> bool.
Variable args : list value.
Let listing : Type := list (list (d_val (e_data E))).
Let tables : Type := string -> list (row_of (d_val (e_data E))).
Let go := run E sub_test args.
Let sub_holds := fun o => sub_test (tokens false o).
(** The operands [phs] after [k] question marks have the values [vs]. *)
Definition given (k : nat) (phs : list (list token)) (vs : list value) : Prop :=
  List.length phs = List.length vs /\ operand_values E args k phs = Some (map (e_bound E) vs).
Lemma given_app : forall k phs a b, given k phs (a ++ b) -> 
  given k (firstn (List.length a) phs) a /\ given (k + questions (firstn (List.length a) phs)) (skipn (List.length a) phs) b.
Proof.
  intros k phs a b [L V]. rewrite List.app_length in L. rewrite <- (firstn_skipn (List.length a) phs) in V. rewrite values_app, map_app in V.
  destruct (operand_values E args k (firstn (List.length a) phs)) as [x|] eqn:Qa; [|discriminate].
  destruct (operand_values E args (k + questions (firstn (List.length a) phs)) (skipn (List.length a) phs)) as [y|] eqn:Qb; [|discriminate].
  injection V as V. assert (La : List.length (firstn (List.length a) phs) = List.length a) by (rewrite firstn_length_le; lia).
  apply app_split in V; [|rewrite (values_len _ _ _ _ _ Qa), map_length; exact La]. destruct V as [-> ->].
  split; split; [exact La|exact Qa|rewrite skipn_length; lia|exact Qb].
Qed.
Lemma questions_cut : forall n phs, questions (firstn n phs) + questions (skipn n phs) = questions phs.
Proof. intros n phs. unfold questions. rewrite <- List.app_length, <- filter_app, firstn_skipn. reflexivity. Qed.

Section Lists.
Variable B : list xstmt.
Variable ans : tables -> nat -> listing -> Prop.
Variable argsf : nat -> list value.
Variable said : nat -> list (list token) -> nreading.
Definition one_run (id : nat) : Prop := forall phs k, given k phs (argsf id) -> forall T k' l, go (said id phs) T k k' l <-> k' = k + questions phs /\ ans T id l.
Lemma withs_run : forall ws, (forall w, In w ws -> one_run (w_id w) /\ forall phs, columns (said (w_id w) phs) = names_of B (w_id w)) ->
  forall phs k, given k phs (flat_map (fun w => argsf (w_id w)) ws) -> forall T T' k',
  run_withs E go (share_said (fun w => argsf (w_id w)) (fun w phs => (w_name w, said (w_id w) phs)) ws phs) T k T' k' <->
  k' = k + questions phs /\ with_tables (e_data E) B ans ws T T'.
Proof.
  intros ws. induction ws as [|w ws IH]; intros H phs k G T T' k'.
  - destruct G as [L _]. destruct phs; [|discriminate]. cbn. rewrite Nat.add_0_r. tauto.
  - cbn [flat_map] in G. apply given_app in G. destruct G as [G1 G2]. cbn [share_said run_withs with_tables]. destruct (H w (or_introl eq_refl)) as [Hw Hc].
    rewrite <- (questions_cut (List.length (argsf (w_id w))) phs). specialize (IH (fun v Hv => H v (or_intror Hv)) _ _ G2). split.
    + intros (a & j & R & W). apply (Hw _ _ G1) in R. destruct R as [-> R]. apply IH in W. destruct W as [-> W]. rewrite Hc in W. split; [lia|]. exists a. split; assumption.
    + intros (-> & a & R & W). exists a, (k + questions (firstn (List.length (argsf (w_id w))) phs)). split; [apply (Hw _ _ G1); split; [reflexivity|exact R]|].
      apply IH. split; [lia|]. rewrite Hc. exact W.
Qed.
Lemma unions_run : forall us, (forall id, In id us -> one_run id) -> forall phs k, given k phs (flat_map argsf us) -> forall T ls k',
  run_unions E go (share_said argsf said us phs) T k ls k' <-> k' = k + questions phs /\ Forall2 (ans T) us ls.
Proof.
  intros us. induction us as [|u us IH]; intros H phs k G T ls k'.
  - destruct G as [L _]. destruct phs; [|discriminate]. cbn. rewrite Nat.add_0_r. split; [intros [-> ->]; split; [reflexivity|constructor]|intros [-> F]; inversion F; auto].
  - cbn [flat_map] in G. apply given_app in G. destruct G as [G1 G2]. cbn [share_said run_unions]. pose proof (H u (or_introl eq_refl)) as Hu.
    rewrite <- (questions_cut (List.length (argsf u)) phs). specialize (IH (fun v Hv => H v (or_intror Hv)) _ _ G2). split.
    + intros (a & j & ls' & R & W & ->). apply (Hu _ _ G1) in R. destruct R as [-> R]. apply IH in W. destruct W as [-> W]. split; [lia|]. constructor; assumption.
    + intros (-> & F). inversion F as [|? a ? ls' R W]; subst. exists a, (k + questions (firstn (List.length (argsf u)) phs)), ls'.
      split; [apply (Hu _ _ G1); split; [reflexivity|exact R]|]. split; [|reflexivity]. apply IH. split; [lia|exact W].
Qed.
Lemma conds_run : forall cs, (forall c o id, In (Sub c o id) cs -> one_run id) -> forall phs k, given k phs (flat_map (xcond_args argsf) cs) -> forall T ts k',
  run_conds E sub_test args go (share_said (xcond_args argsf) (xcond_said said) cs phs) T k ts k' <->
  k' = k + questions phs /\ Forall2 (test_of (database_of E) sub_holds (ans T)) cs ts.
Proof.
  intros cs. induction cs as [|x cs IH]; intros H phs k G T ts k'.
  - destruct G as [L _]. destruct phs; [|discriminate]. cbn. rewrite Nat.add_0_r. split; [intros [-> ->]; split; [reflexivity|constructor]|intros [-> F]; inversion F; auto].
  - cbn [flat_map] in G. apply given_app in G. destruct G as [G1 G2]. cbn [share_said]. set (n := List.length (xcond_args argsf x)) in *.
    rewrite <- (questions_cut n phs). specialize (IH (fun c o id Hi => H c o id (or_intror Hi)) _ _ G2). destruct x as [x|c o id]; cbn [xcond_said xcond_args] in *.
    + assert (S1 : cond_said x (firstn n phs) = (cond_col x, test_said x, firstn n phs)) by (destruct x; reflexivity). rewrite S1. cbn [run_conds]. destruct G1 as [_ V]. split.
      * intros (vs & ts' & Hv & W & ->). rewrite V in Hv. injection Hv as <-. apply IH in W. destruct W as [-> W]. split; [lia|]. constructor; [reflexivity|exact W].
      * intros (-> & F). inversion F as [|? t ? ts' R W]; subst. cbn [test_of] in R. exists (map (e_bound E) (cond_args x)), ts'. split; [exact V|].
        split; [apply IH; split; [lia|exact W]|]. rewrite R. reflexivity.
    + cbn [run_conds]. pose proof (H c o id (or_introl eq_refl)) as Hu. split.
      * intros (a & j & ts' & R & W & ->). apply (Hu _ _ G1) in R. destruct R as [-> R]. apply IH in W. destruct W as [-> W]. split; [lia|]. constructor; [|exact W].
        exists a. split; [exact R|reflexivity].
      * intros (-> & F). inversion F as [|? t ? ts' Ht W]; subst. destruct Ht as (a & R & ->). exists a, (k + questions (firstn n phs)), ts'.
        split; [apply (Hu _ _ G1); split; [reflexivity|exact R]|]. split; [apply IH; split; [lia|exact W]|reflexivity].
Qed.
End Lists.

Lemma columns_said : forall m ws ns us, named m -> columns (NR ws (said_by m []) ns us) = out_names m.
Proof.
  intros m ws ns us _. cbn [columns said_by r_items]. unfold out_names. rewrite map_app, map_map. f_equal. destruct (m_distinct m); [|reflexivity]. rewrite map_map.
  unfold numbered. generalize 1. induction (m_orders m) as [|o l IH]; intros n; [reflexivity|]. cbn [List.length seq combine map fst snd is_empty nth_alias]. f_equal. apply IH.
Qed.
Theorem statement_run : forall B, Forall xnamed B -> forall d id, complete B d id -> forall phs k, given k phs (args_of B d id) -> forall T k' l,
  go (statement_said B d id phs) T k k' l <-> k' = k + questions phs /\ answer (database_of E) sub_holds (map lean B) d T id l.
Proof.
  intros B Nb d. induction d as [|d IH]; intros id Hc phs k G T k' l; [destruct Hc|]. cbn [complete] in Hc. cbn [args_of] in G. cbn [statement_said answer]. rewrite nth_lean.
  destruct (nth_error B id) as [x|] eqn:Q; [|destruct Hc]. cbn [option_map].
  assert (Nx : xnamed x) by (rewrite Forall_forall in Nb; apply Nb; eapply nth_error_In; exact Q). destruct Nx as (Nm & _ & _ & _).
  assert (One : forall j, In j (refs x) -> one_run (fun T id l => answer (database_of E) sub_holds (map lean B) d T id l) (args_of B d) (statement_said B d) j).
  { intros j Hj ph k0 Gj T0 k0' l0. apply (IH j (Hc j Hj) ph k0 Gj). }
  apply given_app in G. destruct G as [Gw G]. apply given_app in G. destruct G as [Gc Gu].
  set (nw := List.length (flat_map (fun w => args_of B d (w_id w)) (emitted x))) in *. set (nc := List.length (flat_map (xcond_args (args_of B d)) (x_conds x))) in *.
  assert (W : forall T T' k', run_withs E go (share_said (fun w => args_of B d (w_id w)) (fun w phs => (w_name w, statement_said B d (w_id w) phs)) (emitted x) (firstn nw phs)) T k T' k' <->
    k' = k + questions (firstn nw phs) /\ with_tables (e_data E) (map lean B) (fun T id l => answer (database_of E) sub_holds (map lean B) d T id l) (emitted x) T T').
  { apply withs_run; [|exact Gw]. intros w Hw. assert (Hr : In (w_id w) (refs x)) by (apply in_or_app; left; apply in_map; exact Hw). split; [apply One, Hr|].
    intros ph. specialize (Hc _ Hr). unfold names_of. rewrite nth_lean. destruct d as [|d']; [destruct Hc|]. cbn [complete] in Hc. cbn [statement_said].
    destruct (nth_error B (w_id w)) as [y|] eqn:Qy; [|destruct Hc]. cbn [option_map lean x_stmt]. change (out_names (trimmed (x_stmt y))) with (out_names (x_stmt y)). apply columns_said.
    rewrite Forall_forall in Nb. apply (Nb y). eapply nth_error_In. exact Qy. }
  assert (C : forall T ts k', run_conds E sub_test args go (share_said (xcond_args (args_of B d)) (xcond_said (statement_said B d)) (x_conds x) (firstn nc (skipn nw phs))) T (k + questions (firstn nw phs)) ts k' <->
    k' = k + questions (firstn nw phs) + questions (firstn nc (skipn nw phs)) /\ Forall2 (test_of (database_of E) sub_holds (answer (database_of E) sub_holds (map lean B) d T)) (x_conds x) ts).
  { intros T0 ts k0. apply (conds_run (fun T id l => answer (database_of E) sub_holds (map lean B) d T id l)); [|exact Gc]. intros c o j Hj. apply One. apply in_or_app. right. apply in_or_app. left.
    apply in_flat_map. exists (Sub c o j). split; [exact Hj|left; reflexivity]. }
  assert (U : forall T ls k', run_unions E go (share_said (args_of B d) (statement_said B d) (x_unions x) (skipn nc (skipn nw phs))) T (k + questions (firstn nw phs) + questions (firstn nc (skipn nw phs))) ls k' <->
    k' = k + questions (firstn nw phs) + questions (firstn nc (skipn nw phs)) + questions (skipn nc (skipn nw phs)) /\ Forall2 (answer (database_of E) sub_holds (map lean B) d T) (x_unions x) ls).
  { intros T0 ls k0. apply (unions_run (fun T id l => answer (database_of E) sub_holds (map lean B) d T id l)); [|exact Gu]. intros j Hj. apply One. apply in_or_app. right. apply in_or_app. right. exact Hj. }
  assert (Z : k + questions (firstn nw phs) + questions (firstn nc (skipn nw phs)) + questions (skipn nc (skipn nw phs)) = k + questions phs).
  { rewrite <- (questions_cut nw phs), <- (questions_cut nc (skipn nw phs)). lia. }
  unfold go in *. cbn [run]. split.
  - intros (m & T' & k1 & ts & k2 & a & ls & Hm & Hw & Hk & Ha & Hu & Ht). rewrite (meaning_said _ (x_stmt x) [] Nm) in Hm. injection Hm as <-.
    apply W in Hw. destruct Hw as [-> Hw]. apply C in Hk. destruct Hk as [-> Hk]. apply U in Hu. destruct Hu as [-> Hu]. split; [exact Z|].
    apply as_read_answers in Ha. destruct Ha as (a0 & Ha & ->). exists T', ts, a0, ls. split; [exact Hw|]. split; [exact Hk|]. split; [exact Ha|]. split; [exact Hu|].
    rewrite map_map in Ht. exact Ht.
  - intros (-> & T' & ts & a0 & ls & Hw & Hk & Ha & Hu & Ht). exists (as_read (x_stmt x)), T', (k + questions (firstn nw phs)), ts, (k + questions (firstn nw phs) + questions (firstn nc (skipn nw phs))), (map (widen (e_data E) (x_stmt x)) a0), ls.
    split; [exact (meaning_said _ (x_stmt x) [] Nm)|]. split; [apply W; split; [reflexivity|exact Hw]|]. split; [apply C; split; [reflexivity|exact Hk]|].
    split; [apply as_read_answers; exists a0; split; [exact Ha|reflexivity]|]. split; [apply U; split; [symmetry; exact Z|exact Hu]|]. rewrite map_map. exact Ht.
Qed.
Theorem all_executed : forall B d id text phs rows, Forall xnamed B -> complete B d id -> List.length phs = List.length (args_of B d id) ->
  read_statement (tokens false text) = Some (statement_said B d id phs) -> operand_values E args 0 phs = Some (map (e_bound E) (args_of B d id)) ->
  executes_all E sub_test args text rows <-> book_answers E sub_test (map lean B) d id rows.
Proof.
  intros B d id text phs rows Nb Hc L R V. unfold executes_all, book_answers. split.
  - intros (q & k & H & X). rewrite R in H. injection H as <-. apply (statement_run B Nb d id Hc phs 0 (conj L V)) in X. destruct X as [_ X]. exact X.
  - intros X. exists (statement_said B d id phs), (0 + questions phs). split; [exact R|]. apply (statement_run B Nb d id Hc phs 0 (conj L V)). split; [reflexivity|exact X].
Qed.
End Run.

(** ** Built statements *)
Theorem nexec_question : forall B oss style d id, style <> style_dollar -> book oss B -> Forall xnamed B -> complete B d id -> used_once B d id ->
  exists qs, made oss qs /\ forall n, size_of B d id <= n -> exists text args,
    fst (build_query n style qs (query id)) = ROk (text, args) /\
    forall E sub_test rows, executes_all E sub_test args text rows <-> book_answers E sub_test (map lean B) d id rows.
Proof.
  intros B oss style d id Hs Hb Nb Hc Hu. destruct (nread_question B oss style d id Hs Hb Nb Hc Hu) as (qs & M & H). exists qs. split; [exact M|].
  intros n Hn. destruct (H n Hn) as (text & X & R). exists text, (args_of B d id). split; [exact X|]. intros E sub_test rows.
  apply (all_executed E sub_test _ B d id text _ rows Nb Hc (map_length _ _) R). apply (question_values E []).
Qed.
Theorem nexec_dollar : forall B oss d id, book oss B -> Forall xnamed B -> complete B d id -> used_once B d id -> forallb hashable (args_of B d id) = true ->
  exists qs, made oss qs /\ forall n, size_of B d id <= n -> exists text args,
    fst (build_query n style_dollar qs (query id)) = ROk (text, args) /\
    forall E sub_test rows, by_value E -> executes_all E sub_test args text rows <-> book_answers E sub_test (map lean B) d id rows.
Proof.
  intros B oss d id Hb Nb Hc Hu Hh. destruct (nread_dollar B oss d id Hb Nb Hc Hu Hh) as (qs & phs & M & F & H). exists qs. split; [exact M|].
  intros n Hn. destruct (H n Hn) as (text & X & R). exists text, (firsts [] (args_of B d id)). split; [exact X|]. intros E sub_test rows Hv.
  apply (all_executed E sub_test _ B d id text phs rows Nb Hc (f2_len _ _ _ F) R). apply dollar_values; assumption.
Qed.
Theorem nexec_shown : forall ft B oss style d id lits, style <> style_dollar -> book oss B -> Forall xnamed B -> Forall plain_names B -> complete B d id -> used_once B d id ->
  Forall2 (literal ft) (args_of B d id) lits -> forallb (readable false ft) (args_of B d id) = true ->
  exists qs, made oss qs /\ forall n, size_of B d id <= n -> exists s args out,
    fst (build_query n style qs (query id)) = ROk (s, args) /\ interpolate ft s args = ROk out /\
    forall E sub_test any rows, reads_literals E ft (args_of B d id) -> executes_all E sub_test any out rows <-> executes_all E sub_test args s rows.
Proof.
  intros ft B oss style d id lits Hs Hb Nb Np Hc Hu F Rd. destruct (nshown_question ft B oss style d id lits Hs Hb Nb Np Hc Hu F Rd) as (qs & vs & M & V & H).
  destruct (nexec_question B oss style d id Hs Hb Nb Hc Hu) as (qs' & M' & H'). rewrite (made_unique _ _ _ M' M) in H'. exists qs. split; [exact M|].
  intros n Hn. destruct (H n Hn) as (s & args & out & X & I & R). destruct (H' n Hn) as (s' & args' & X' & K). rewrite X in X'. injection X' as <- <-.
  exists s, args, out. split; [exact X|]. split; [exact I|]. intros E sub_test any rows Hr. rewrite K.
  apply (all_executed E sub_test any B d id out vs rows Nb Hc (eq_sym (f2_len _ _ _ V)) R). apply (literal_values E ft (args_of B d id)); [exact Hr|apply incl_refl|exact V].
Qed.
Theorem nexec_shown_dollar : forall ft B oss d id lits, book oss B -> Forall xnamed B -> Forall plain_names B -> complete B d id -> used_once B d id -> forallb hashable (args_of B d id) = true ->
  (Z.of_nat (List.length (args_of B d id)) < 9223372036854775808)%Z -> Forall2 (literal ft) (args_of B d id) lits -> literal_by_value ft (args_of B d id) ->
  forallb (readable false ft) (args_of B d id) = true ->
  exists qs, made oss qs /\ forall n, size_of B d id <= n -> exists s args out,
    fst (build_query n style_dollar qs (query id)) = ROk (s, args) /\ interpolate ft s args = ROk out /\
    forall E sub_test any rows, by_value E -> reads_literals E ft (args_of B d id) -> executes_all E sub_test any out rows <-> executes_all E sub_test args s rows.
Proof.
  intros ft B oss d id lits Hb Nb Np Hc Hu Hh Hz F Hl Rd. destruct (nshown_dollar ft B oss d id lits Hb Nb Np Hc Hu Hh Hz F Hl Rd) as (qs & vs & M & V & H).
  destruct (nexec_dollar B oss d id Hb Nb Hc Hu Hh) as (qs' & M' & H'). rewrite (made_unique _ _ _ M' M) in H'. exists qs. split; [exact M|].
  intros n Hn. destruct (H n Hn) as (s & args & out & X & I & R). destruct (H' n Hn) as (s' & args' & X' & K). rewrite X in X'. injection X' as <- <-.
  exists s, args, out. split; [exact X|]. split; [exact I|]. intros E sub_test any rows Hb' Hr. rewrite (K E sub_test rows Hb').
  apply (all_executed E sub_test any B d id out vs rows Nb Hc (eq_sym (f2_len _ _ _ V)) R). apply (literal_values E ft (args_of B d id)); [exact Hr|apply incl_refl|exact V].
Qed.
Theorem nexec_styles : forall B oss style d id, style <> style_dollar -> book oss B -> Forall xnamed B -> complete B d id -> used_once B d id -> forallb hashable (args_of B d id) = true ->
  exists qs, made oss qs /\ forall n, size_of B d id <= n -> exists s args s' args',
    fst (build_query n style qs (query id)) = ROk (s, args) /\ fst (build_query n style_dollar qs (query id)) = ROk (s', args') /\
    forall E sub_test rows, by_value E -> executes_all E sub_test args s rows <-> executes_all E sub_test args' s' rows.
Proof.
  intros B oss style d id Hs Hb Nb Hc Hu Hh. destruct (nexec_question B oss style d id Hs Hb Nb Hc Hu) as (qs & M & H). destruct (nexec_dollar B oss d id Hb Nb Hc Hu Hh) as (qs' & M' & H').
  rewrite (made_unique _ _ _ M' M) in H'. exists qs. split; [exact M|]. intros n Hn. destruct (H n Hn) as (s & args & X & K). destruct (H' n Hn) as (s' & args' & X' & K').
  exists s, args, s', args'. split; [exact X|]. split; [exact X'|]. intros E sub_test rows Hv. rewrite K, (K' E sub_test rows Hv). reflexivity.
Qed.
(** With the conditions of C95, the answers of the whole statement. *)
Theorem book_trimmed : forall E sub_test B d id, orderly (database_of E) -> Forall xstmt_ok B -> Forall (declared B) B -> Forall (sensible (database_of E)) B -> whole B d id ->
  forall rows, book_answers E sub_test (map lean B) d id rows <-> book_answers E sub_test B d id rows.
Proof. intros E sub_test B d id Ho Hok Hd Hs Hw rows. apply (lean_answers (database_of E) _ Ho B Hok Hd Hs d (d_rows (e_data E)) id Hw). Qed.
