(** Property C73: interpolating built queries.  The vocabulary is in
    Spec_interp.v; the proofs are in Interp_proofs.v. *)
From Coq Require Import Strings.String Strings.Ascii NArith ZArith List Bool Floats.SpecFloat.
From Verif Require Import GoStr GoNum Syntax Value Util Model Sqlf Sqlb Spec_syntax RefSem Spec_build Spec_eval Spec_query Spec_mean Spec_util Spec_sql Spec_interp Sql_proofs Interp_proofs Prop_sql.
Import ListNotations.
Open Scope string_scope.

(** C73: interpolating the query built for a statement gives the statement with
    the literals of its arguments, with question marks ... *)
Theorem c73_question : forall ft m os style lits, style <> style_dollar -> stmt_ok m -> describes os m -> Forall2 (literal ft) (m_args m) lits ->
  exists q, apply_ops os new_qb = ROk q /\
    forall n, 5 + m_size m <= n -> exists s args, fst (build_query n style [q] (BQuery (Some 0))) = ROk (s, args) /\ interpolate ft s args = ROk (sql m lits).
Proof. exact stmt_shown_question. Qed.
Print Assumptions c73_question.
(** ... and with numbered placeholders, if equal arguments have equal literals. *)
Theorem c73_dollar : forall ft m os lits, stmt_ok m -> describes os m -> forallb hashable (m_args m) = true ->
  (Z.of_nat (List.length (m_args m)) < 9223372036854775808)%Z -> Forall2 (literal ft) (m_args m) lits -> literal_by_value ft (m_args m) ->
  exists q, apply_ops os new_qb = ROk q /\
    forall n, 5 + m_size m <= n -> exists s args, fst (build_query n style_dollar [q] (BQuery (Some 0))) = ROk (s, args) /\ interpolate ft s args = ROk (sql m lits).
Proof. exact stmt_shown_dollar. Qed.
Print Assumptions c73_dollar.
Definition lits1 : list string := ["18"; "1"; "2"; "18"; "9"; "2"].
Example c73_example : forall ft, stmt_ok m1 /\ describes os1 m1 /\ forallb hashable (m_args m1) = true /\
  Forall2 (literal ft) (m_args m1) lits1 /\ literal_by_value ft (m_args m1) /\
  sql m1 lits1 = "SELECT u.id, o.total, now() FROM users AS u LEFT JOIN orders AS o ON u.id=o.user_id INNER JOIN shops ON o.shop=shops.id WHERE u.age >= 18 AND o.state IN (1, 2, 18) AND shops.id NOT IN (9) AND o.total<2 GROUP BY u.id ORDER BY o.total DESC, u.id ASC NULLS FIRST LIMIT 10 OFFSET 20".
Proof.
  intros ft. apply conj; [exact ok1|]. apply conj; [unfold describes; do 10 (apply conj; [reflexivity|]); reflexivity|].
  apply conj; [reflexivity|]. change (m_args m1) with [I 18; I 1; I 2; I 18; I 9; I 2].
  apply conj; [unfold lits1; repeat (constructor; [apply lt_int|]); constructor|]. apply conj; [|vm_compute; reflexivity].
  intros v w s Hv Hw E L. cbn [In] in Hv, Hw.
  repeat match goal with H : _ \/ _ |- _ => destruct H | H : False |- _ => destruct H end; subst; try exact L; discriminate E.
Qed.

(** Whatever is built: the text is an expansion [t] of the builder, and if [t] keeps its placeholders apart, interpolating the numbered one
    puts the value of every placeholder in its place.  The question marks do so
    if the placeholders come in the order of the arguments. *)
Theorem c73_styles : forall ft n h b sq aq, lib hashable b = true -> forallb (lib_qb hashable) h = true ->
  fst (build_query n style_question h b) = ROk (sq, aq) ->
  exists t sd ad, means [builtins] h aq b t /\ sq = render qmark t /\ fst (build_query n style_dollar h b) = ROk (sd, ad) /\
    forall lit, clean_text t ->
      (placeholders t = seq 0 (List.length aq) -> (forall j v, nth_error aq j = Some v -> literal ft v (lit j)) ->
        interpolate ft sq aq = ROk (render lit t)) /\
      ((Z.of_nat (List.length ad) < 9223372036854775808)%Z ->
        (forall j v w, In j (placeholders t) -> nth_error aq j = Some v -> In w ad -> same_value v w -> literal ft w (lit j)) ->
        interpolate ft sd ad = ROk (render lit t)).
Proof. exact both_shown. Qed.
Print Assumptions c73_styles.
(** That order is not guaranteed (C36): with an argument in the select list and
    one in the conditions, the shown query has the two values exchanged. *)
Theorem c73_exchanged_refuted : forall ft v w x y, literal ft v x -> literal ft w y -> exists q,
  apply_ops (two_args v w) new_qb = ROk q /\
  forall n, 10 <= n -> exists s args, fst (build_query n style_question [q] (BQuery (Some 0))) = ROk (s, args) /\
    interpolate ft s args = ROk ("SELECT " ++ y ++ " AS x FROM a WHERE y=" ++ x).
Proof. exact order_shown. Qed.
Print Assumptions c73_exchanged_refuted.
(** And equal arguments need not have equal literals: -0 is shown as 0 with
    numbered placeholders. *)
Theorem c73_zero_refuted : forall ft, let b := BFrag (Fa "x=$1 AND y=$2" [VFloat "float64" (S754_zero false); VFloat "float64" (S754_zero true)]) in
  (exists s args, fst (build_query 10 style_dollar [] b) = ROk (s, args) /\ interpolate ft s args = ROk "x=0.000000 AND y=0.000000") /\
  (exists s args, fst (build_query 10 style_question [] b) = ROk (s, args) /\ interpolate ft s args = ROk "x=0.000000 AND y=-0.000000").
Proof. intros ft b. apply conj; eexists; eexists; (apply conj; [vm_compute; reflexivity|vm_compute; reflexivity]). Qed.
Print Assumptions c73_zero_refuted.
