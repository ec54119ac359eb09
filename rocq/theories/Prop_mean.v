(** Properties C14 and C15 (what the placeholders stand for).  The vocabulary is
    in RefSem.v ([text], [render], [placeholders], [lib], [tree]) and
    Spec_mean.v ([means]); the proofs are in Mean_proofs.v. *)
From Coq Require Import Strings.String Strings.Ascii NArith ZArith List Bool.
From Verif Require Import GoStr GoNum Syntax Value Util Model Sqlf Sqlb Spec_syntax RefSem Spec_build Spec_mean
  Prop_build Mean_proofs.
Import ListNotations.
Open Scope string_scope.

(** C14: Question style.  The text is an expansion of the builder in which
    placeholder number j stands for args[j], and no number occurs twice.
    Without query builders the placeholders occur in the order of the arguments, and if as many
    placeholders occur as there are arguments, the i-th placeholder is bound to
    the i-th argument. *)
Theorem c14_question_order : forall n style h b s args,
  style <> style_dollar -> lib all_values b = true -> forallb (lib_qb all_values) h = true ->
  fst (build_query n style h b) = ROk (s, args) ->
  exists t, means [builtins] h args b t /\ s = render qmark t /\
    NoDup (placeholders t) /\ (forall j, In j (placeholders t) -> j < List.length args) /\
    (tree all_values b = true -> increasing 0 (placeholders t) /\
      (List.length (placeholders t) = List.length args -> placeholders t = seq 0 (List.length args))).
Proof. exact question_values. Qed.
Print Assumptions c14_question_order.
Example c14_example : lib all_values sample = true /\ tree all_values sample = true /\
  fst (build_query 20 style_question [] sample) =
    ROk ("SELECT * FROM t WHERE a IN (?,?,?) AND b = ? OR c = ? OR x = ? OR y = ?",
         [I 1; I 7; I 2; T "a"; T "a"; I 7; T "a"]).
Proof. repeat apply conj; vm_compute; reflexivity. Qed.

(** C15: Dollar style.  Every placeholder standing for a value v in the
    expansion of the builder is shown as $k with args[k-1] equal to v. *)
Theorem c15_dollar_values : forall n h b s args,
  lib hashable b = true -> forallb (lib_qb hashable) h = true ->
  fst (build_query n style_dollar h b) = ROk (s, args) ->
  exists t log p, means [builtins] h log b t /\ s = render p t /\
    forall j, In j (placeholders t) -> exists v, nth_error log j = Some v /\ dollar_denotes args (p j) v.
Proof. exact dollar_values. Qed.
Print Assumptions c15_dollar_values.
Example c15_example : lib hashable sample = true /\
  fst (build_query 20 style_dollar [] sample) =
    ROk ("SELECT * FROM t WHERE a IN ($1,$2,$3) AND b = $4 OR c = $4 OR x = $2 OR y = $4",
         [I 1; I 7; I 2; T "a"]).
Proof. apply conj; vm_compute; reflexivity. Qed.
(** The same for query builders referring to each other. *)
Example c15_query_example : lib hashable (BQuery (Some 0)) = true /\ forallb (lib_qb hashable) sample_heap = true /\
  fst (build_query 20 style_dollar sample_heap (BQuery (Some 0))) =
    ROk ("SELECT f.id FROM foo AS f WHERE f.id = $1 UNION (SELECT DISTINCT bar.*, bar.n AS _order_1 FROM bar WHERE bar.id IN ($1, $2) ORDER BY _order_1 DESC)",
         [I 3; I 4]).
Proof. repeat apply conj; vm_compute; reflexivity. Qed.
