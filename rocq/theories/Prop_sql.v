(** Property C66: whole queries.  The vocabulary is in Spec_sql.v; the proofs
    are in Sql_proofs.v. *)
From Coq Require Import Strings.String Strings.Ascii NArith ZArith List Bool.
From Verif Require Import GoStr GoNum Syntax Value Util Model Sqlf Sqlb Spec_syntax RefSem Spec_build Spec_eval Spec_query Spec_sql Sql_proofs.
Import ListNotations.
Open Scope string_scope.

(** C66: the calls that describe a statement succeed, and building gives the
    text of the statement, with the placeholders of its arguments. *)
Theorem c66_question : forall m os style, style <> style_dollar -> stmt_ok m -> describes os m ->
  exists q, apply_ops os new_qb = ROk q /\
    forall n, 5 + m_size m <= n ->
      fst (build_query n style [q] (BQuery (Some 0))) = ROk (sql m (map (fun _ => "?") (m_args m)), m_args m).
Proof. exact query_sql_question. Qed.
Print Assumptions c66_question.

Theorem c66_dollar : forall m os, stmt_ok m -> describes os m -> forallb hashable (m_args m) = true ->
  exists q phs, apply_ops os new_qb = ROk q /\ Forall2 (dollar_denotes (firsts [] (m_args m))) phs (m_args m) /\
    forall n, 5 + m_size m <= n ->
      fst (build_query n style_dollar [q] (BQuery (Some 0))) = ROk (sql m phs, firsts [] (m_args m)).
Proof. exact query_sql_dollar. Qed.
Print Assumptions c66_dollar.

Definition I (z : Z) : value := VInt "int" z.
Definition m1 : stmt :=
  mkStmt false [("u", "id"); ("o", "total"); ("", "now()")] ("users", "u")
    [mkJoin JLeft ("orders", "o") ("u", "id") ("o", "user_id"); mkJoin JInner ("shops", "") ("o", "shop") ("shops", "id")]
    [Compare ("u", "age") " >= " (I 18); Among ("o", "state") (VSlice "[]int" (Some [I 1; I 2; I 18])); NotAmong ("shops", "id") (I 9); Compare ("o", "total") "<" (I 2)]
    [("u", "id")] [(("o", "total"), 3%N); (("u", "id"), 1%N)] 10 20.
Definition os1 : list qop :=
  [OLimit 10; OWhere2 (column "u" "age") " >= " (I 18); OOrderBy (column "o" "total") 3; OFrom ("users", "u");
   OSelect [column "u" "name"]; OWhereIn (column "o" "state") (VSlice "[]int" (Some [I 1; I 2; I 18])); OWhere None;
   OLeftJoin ("orders", "o") (Some (Ff "#f1=#f2" [column "u" "id"; column "o" "user_id"]));
   OSelect [column "u" "id"; column "o" "total"; column "" "now()"]; OGroupBy [column "u" "id"];
   OInnerJoin ("shops", "") (Some (Ff "#f1=#f2" [column "o" "shop"; column "shops" "id"]));
   OWhereNotIn (column "shops" "id") (I 9); OOffset 20; OLimit 0; OWhere2 (column "o" "total") "<" (I 2); OOrderBy (column "u" "id") 1].
Ltac all_appear := intros j Hj; repeat (destruct Hj as [<-|Hj]; [split; [intros _; exact Logic.I|reflexivity]|]); destruct Hj.
Lemma ok1 : stmt_ok m1.
Proof.
  apply conj; [|all_appear]. apply conj; [discriminate|]. apply conj; [reflexivity|]. apply conj; [repeat (constructor; [reflexivity|]); constructor|].
  apply conj. { change (m_tables m1) with ["u"; "o"; "shops"]. repeat constructor; cbn; intuition discriminate. }
  apply conj. { change (m_tables m1) with ["u"; "o"; "shops"]. cbn [m_used m1 m_cols m_conds m_groups m_orders m_joins map app cond_col fst snd j_left j_right]. repeat (constructor; [split; [reflexivity|cbn; tauto]|]). constructor. }
  apply conj. { cbn [m1 m_conds]. repeat constructor; eexists; reflexivity. }
  cbn [m1 m_orders]. repeat (constructor; [discriminate|]). constructor.
Qed.
Example c66_example : stmt_ok m1 /\ describes os1 m1 /\ forallb hashable (m_args m1) = true /\
  sql m1 (map (fun _ => "?") (m_args m1)) =
    "SELECT u.id, o.total, now() FROM users AS u LEFT JOIN orders AS o ON u.id=o.user_id INNER JOIN shops ON o.shop=shops.id WHERE u.age >= ? AND o.state IN (?, ?, ?) AND shops.id NOT IN (?) AND o.total<? GROUP BY u.id ORDER BY o.total DESC, u.id ASC NULLS FIRST LIMIT 10 OFFSET 20" /\
  m_args m1 = [I 18; I 1; I 2; I 18; I 9; I 2] /\ firsts [] (m_args m1) = [I 18; I 1; I 2; I 9].
Proof.
  apply conj; [exact ok1|]. apply conj; [unfold describes; do 10 (apply conj; [reflexivity|]); reflexivity|].
  apply conj; [reflexivity|]. apply conj; [vm_compute; reflexivity|]. apply conj; vm_compute; reflexivity.
Qed.
(** SELECT DISTINCT with hidden ordering columns. *)
Example c66_distinct_example :
  let m := mkStmt true [("u", "id")] ("u", "") [] [] [] [(("u", "n"), 0%N); (("u", "x"), 5%N)] 0 0 in
  let os := [OFrom ("u", ""); OSelect [column "u" "id"]; OOrderBy (column "u" "n") 0; ODistinct; OOrderBy (column "u" "x") 5] in
  stmt_ok m /\ describes os m /\
  sql m [] = "SELECT DISTINCT u.id, u.n AS _order_1, u.x AS _order_2 FROM u ORDER BY _order_1 ASC, _order_2 DESC NULLS LAST".
Proof.
  intros m os. apply conj; [|apply conj; [unfold describes; do 10 (apply conj; [reflexivity|]); reflexivity|vm_compute; reflexivity]].
  apply conj; [|all_appear]. apply conj; [discriminate|]. apply conj; [reflexivity|]. apply conj; [constructor|].
  apply conj. { repeat constructor; cbn; tauto. }
  apply conj. { repeat (constructor; [split; [reflexivity|cbn; tauto]|]). constructor. }
  apply conj; [constructor|]. repeat (constructor; [discriminate|]). constructor.
Qed.
(** Optional joins of a SELECT DISTINCT: "o" is needed by a column, "s" by the
    condition of the join of "o", "x" and "y" are not needed. *)
Definition m2 : stmt :=
  mkStmt true [("u", "id")] ("users", "u")
    [mkJoin (JOptional true) ("shops", "s") ("u", "shop") ("s", "id"); mkJoin (JOptional false) ("x", "") ("s", "id") ("x", "id");
     mkJoin (JOptional true) ("orders", "o") ("o", "shop") ("s", "id"); mkJoin (JOptional false) ("ys", "y") ("x", "id") ("y", "id")]
    [Compare ("o", "total") ">" (I 2)] [] [] 0 0.
Definition os2 : list qop :=
  [OFrom ("users", "u"); OLeftJoinOptional ("shops", "s") (Some (Ff "#f1=#f2" [column "u" "shop"; column "s" "id"]));
   OLeftJoinOptional ("x", "") (Some (Ff "#f1=#f2" [column "s" "id"; column "x" "id"])); ODistinct;
   OLeftJoinOptional ("orders", "o") (Some (Ff "#f1=#f2" [column "o" "shop"; column "s" "id"])); OSelect [column "u" "id"];
   OLeftJoinOptional ("ys", "y") (Some (Ff "#f1=#f2" [column "x" "id"; column "y" "id"])); OWhere2 (column "o" "total") ">" (I 2)].
Lemma needs2 : forall t, needs m2 [("o", "total")] t <-> In t ["u"; "o"; "s"].
Proof.
  intros t. split; intro H.
  - induction H as [c [<-|[<-|[]]] _|j c _ IH Hj Hc _]; [left; reflexivity|right; left; reflexivity|].
    destruct Hj as [<-|[<-|[<-|[<-|[]]]]]; cbn in IH; destruct Hc as [-> | ->]; cbn; intuition discriminate.
  - destruct H as [<-|[<-|[<-|[]]]]; [apply (ns_col m2 [("o", "total")] ("u", "id")); [left; reflexivity|discriminate]|apply (ns_col m2 [("o", "total")] ("o", "total")); [right; left; reflexivity|discriminate]|].
    apply (ns_join m2 [("o", "total")] (mkJoin (JOptional true) ("orders", "o") ("o", "shop") ("s", "id")) ("s", "id"));
      [apply (ns_col m2 [("o", "total")] ("o", "total")); [right; left; reflexivity|discriminate]|right; right; left; reflexivity|right; reflexivity|discriminate].
Qed.
Example c66_optional_example : stmt_ok m2 /\ describes os2 m2 /\
  sql m2 ["?"] = "SELECT DISTINCT u.id FROM users AS u LEFT JOIN shops AS s ON u.shop=s.id LEFT JOIN orders AS o ON o.shop=s.id WHERE o.total>?".
Proof.
  apply conj; [|apply conj; [unfold describes; do 10 (apply conj; [reflexivity|]); reflexivity|vm_compute; reflexivity]].
  apply conj.
  - apply conj; [discriminate|]. apply conj; [reflexivity|]. apply conj; [repeat (constructor; [reflexivity|]); constructor|].
    apply conj. { change (m_tables m2) with ["u"; "s"; "x"; "o"; "y"]. repeat constructor; cbn; intuition discriminate. }
    apply conj. { change (m_tables m2) with ["u"; "s"; "x"; "o"; "y"]. cbn [m_used m2 m_cols m_conds m_groups m_orders m_joins map app cond_col fst snd j_left j_right]. repeat (constructor; [split; [reflexivity|cbn; tauto]|]). constructor. }
    apply conj; [repeat constructor|constructor].
  - intros j Hj. change (map cond_col (m_conds m2)) with [("o", "total")]. destruct Hj as [<-|[<-|[<-|[<-|[]]]]];
      (match goal with |- context [needs m2 ?c ?t] => change t with ltac:(let x := eval cbn in t in exact x) end; cbn [appears j_kind]; rewrite needs2; cbn; intuition discriminate).
Qed.
