(** Property C107: which built statements are in the grammar of SQL.  The
    vocabulary is in Spec_sqlgram.v; the proofs are in Sqlgram_proofs.v. *)
From Coq Require Import Strings.String Strings.Ascii NArith ZArith List Bool Lia.
From Verif Require Import GoStr GoNum Syntax Value Util Model Sqlf Sqlb Spec_syntax RefSem Spec_build Spec_util Spec_eval Spec_query Spec_sql Spec_nest Spec_interp
  Sqlgram_proofs Prop_nexec Spec_sqltok Spec_read Spec_nread Spec_sqlgram.
Import ListNotations.
Open Scope string_scope.

(** C107: the text of a build is in the grammar exactly if no query of the
    statement that unites others has an order or bounds, and no list of values is
    empty. *)
Theorem c107_question : forall B oss style d id, style <> style_dollar -> book oss B -> Forall xnamed B -> complete B d id -> used_once B d id ->
  exists qs, made oss qs /\ forall n, size_of B d id <= n -> exists text args,
    fst (build_query n style qs (query id)) = ROk (text, args) /\ (in_sql text <-> in_grammar B d id).
Proof. exact grammar_question. Qed.
Print Assumptions c107_question.
Theorem c107_dollar : forall B oss d id, book oss B -> Forall xnamed B -> complete B d id -> used_once B d id -> forallb hashable (args_of B d id) = true ->
  exists qs, made oss qs /\ forall n, size_of B d id <= n -> exists text args,
    fst (build_query n style_dollar qs (query id)) = ROk (text, args) /\ (in_sql text <-> in_grammar B d id).
Proof. exact grammar_dollar. Qed.
Print Assumptions c107_dollar.

(** Interpolation does not change that. *)
Theorem c107_interpolated : forall ft B oss style d id lits, style <> style_dollar -> book oss B -> Forall xnamed B -> Forall plain_names B -> complete B d id -> used_once B d id ->
  Forall2 (literal ft) (args_of B d id) lits -> forallb (readable false ft) (args_of B d id) = true ->
  exists qs, made oss qs /\ forall n, size_of B d id <= n -> exists s args out,
    fst (build_query n style qs (query id)) = ROk (s, args) /\ interpolate ft s args = ROk out /\ (in_sql out <-> in_grammar B d id).
Proof. exact grammar_shown. Qed.
Print Assumptions c107_interpolated.
Theorem c107_interpolated_dollar : forall ft B oss d id lits, book oss B -> Forall xnamed B -> Forall plain_names B -> complete B d id -> used_once B d id -> forallb hashable (args_of B d id) = true ->
  (Z.of_nat (List.length (args_of B d id)) < 9223372036854775808)%Z -> Forall2 (literal ft) (args_of B d id) lits -> literal_by_value ft (args_of B d id) ->
  forallb (readable false ft) (args_of B d id) = true ->
  exists qs, made oss qs /\ forall n, size_of B d id <= n -> exists s args out,
    fst (build_query n style_dollar qs (query id)) = ROk (s, args) /\ interpolate ft s args = ROk out /\ (in_sql out <-> in_grammar B d id).
Proof. exact grammar_shown_dollar. Qed.
Print Assumptions c107_interpolated_dollar.

(** The statement of C106 is in the grammar. *)
Example c107_example : book calls3 book3 /\ Forall xnamed book3 /\ Forall plain_names book3 /\ complete book3 2 0 /\ used_once book3 2 0 /\ in_grammar book3 2 0 /\ in_sql text3.
Proof.
  split; [exact book3_calls|]. split; [exact book3_named|]. split; [repeat constructor|].
  split; [intros j Hj; cbn in Hj; destruct Hj as [<-|[<-|[<-|[]]]]; intros i []|]. split; [constructor|]. split.
  - intros j x Hj Hx. cbn in Hj. repeat destruct Hj as [<-|Hj]; try destruct Hj; cbn in Hx; injection Hx as <-; cbn;
      (split; [first [left; reflexivity|right; repeat split; discriminate]|repeat constructor]).
  - eexists. split; [vm_compute; reflexivity|]. cbn. repeat split; auto.
Qed.

(** Not every build gives a text in the grammar: with Union and OrderBy or Limit
    the order comes before the UNION, and WhereIn of an empty list gives empty
    parentheses. *)
Definition late : list (list qop) :=
  [[OSelect [column "" "id"]; OFrom ("users", ""); OUnion [query 1]; OOrderBy (column "" "id") 0; OLimit 5]; [OSelect [column "" "id"]; OFrom ("guests", "")]].
Definition nobody : list qop := [OSelect [column "" "id"]; OFrom ("users", ""); OWhereIn (column "" "id") (VSlice "[]int" (Some []))].
Theorem c107_union_refuted : exists qs text, made late qs /\ fst (build_query 20 style_question qs (query 0)) = ROk (text, []) /\
  text = "SELECT id FROM users ORDER BY id ASC LIMIT 5 UNION (SELECT id FROM guests)" /\ ~ in_sql text.
Proof.
  do 2 eexists. split; [unfold late; repeat constructor|]. split; [vm_compute; reflexivity|]. split; [reflexivity|].
  intros (q & H & G). vm_compute in H. injection H as <-. destruct G as [[G|[G _]] _]; discriminate G.
Qed.
Print Assumptions c107_union_refuted.
Theorem c107_empty_refuted : exists qs text, made [nobody] qs /\ fst (build_query 20 style_question qs (query 0)) = ROk (text, []) /\
  text = "SELECT id FROM users WHERE id IN ()" /\ ~ in_sql text.
Proof.
  do 2 eexists. split; [repeat constructor|]. split; [vm_compute; reflexivity|]. split; [reflexivity|].
  intros (q & H & G). vm_compute in H. injection H as <-. cbn in G. destruct G as (_ & _ & (G & _) & _). apply G. reflexivity.
Qed.
Print Assumptions c107_empty_refuted.
