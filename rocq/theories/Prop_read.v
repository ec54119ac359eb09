(** Property C101: the text of a query says which statement it is.  The
    vocabulary is in Spec_read.v, with statements as in Spec_sql.v and tokens as
    in Spec_sqltok.v; the proofs are in Read_proofs.v and Read2_proofs.v. *)
From Coq Require Import Strings.String Strings.Ascii NArith ZArith List Bool Lia.
From Verif Require Import GoStr GoNum Syntax Value Util Model Sqlf Sqlb Spec_syntax RefSem Spec_build Spec_eval Spec_query Spec_sql
  Read_proofs Read2_proofs Spec_sqltok Spec_read.
Import ListNotations.
Open Scope string_scope.

(** C101: the text of a statement is read as that statement. *)
Theorem c101_read : forall m phs, named m -> Forall mark phs -> List.length phs = List.length (m_args m) ->
  read_select (tokens false (sql m phs)) = Some (said m (map (tokens false) phs)).
Proof. exact stmt_read. Qed.
Print Assumptions c101_read.

(** The text of a built query is read as the statement its calls described. *)
Theorem c101_question : forall m os style, style <> style_dollar -> stmt_ok m -> named m -> describes os m ->
  exists q, apply_ops os new_qb = ROk q /\
    forall n, 5 + m_size m <= n -> exists text,
      fst (build_query n style [q] (BQuery (Some 0))) = ROk (text, m_args m) /\
      read_select (tokens false text) = Some (said m (map (fun _ => [TOp "?"]) (m_args m))).
Proof. exact question_read. Qed.
Print Assumptions c101_question.

Theorem c101_dollar : forall m os, stmt_ok m -> named m -> describes os m -> forallb hashable (m_args m) = true ->
  exists q phs, apply_ops os new_qb = ROk q /\ Forall2 (dollar_operand (firsts [] (m_args m))) phs (m_args m) /\
    forall n, 5 + m_size m <= n -> exists text,
      fst (build_query n style_dollar [q] (BQuery (Some 0))) = ROk (text, firsts [] (m_args m)) /\
      read_select (tokens false text) = Some (said m phs).
Proof. exact dollar_read. Qed.
Print Assumptions c101_dollar.

(** Two builders that come to the same text and the same arguments were given
    the same statement. *)
Theorem c101_determined_question : forall m m' os os' style n q q' text args, style <> style_dollar -> stmt_ok m -> stmt_ok m' -> named m -> named m' ->
  describes os m -> describes os' m' -> apply_ops os new_qb = ROk q -> apply_ops os' new_qb = ROk q' ->
  5 + m_size m <= n -> 5 + m_size m' <= n ->
  fst (build_query n style [q] (BQuery (Some 0))) = ROk (text, args) ->
  fst (build_query n style [q'] (BQuery (Some 0))) = ROk (text, args) -> same_stmt eq m m'.
Proof. exact question_same. Qed.
Print Assumptions c101_determined_question.

Theorem c101_determined_dollar : forall m m' os os' n q q' text args, stmt_ok m -> stmt_ok m' -> named m -> named m' ->
  describes os m -> describes os' m' -> forallb hashable (m_args m) = true -> forallb hashable (m_args m') = true ->
  apply_ops os new_qb = ROk q -> apply_ops os' new_qb = ROk q' -> 5 + m_size m <= n -> 5 + m_size m' <= n ->
  fst (build_query n style_dollar [q] (BQuery (Some 0))) = ROk (text, args) ->
  fst (build_query n style_dollar [q'] (BQuery (Some 0))) = ROk (text, args) -> same_stmt go_alike m m'.
Proof. exact dollar_same. Qed.
Print Assumptions c101_determined_dollar.

(** Not so when names and operators are not restricted: the builder writes them
    as they are.  The column "id" of "u" is also the column "u.id" of no table,
    and "a" compared by "<b=" is also "a<b" compared by "=". *)
Definition two : stmt := mkStmt false [("u", "id")] ("u", "") [] [Compare ("", "a") "<b=" (VInt "int" 1)] [] [] 0 0.
Definition one : stmt := mkStmt false [("", "u.id")] ("u", "") [] [Compare ("", "a<b") "=" (VInt "int" 1)] [] [] 0 0.
Ltac ok_stmt := apply conj; [|intros j []]; apply conj; [discriminate|]; apply conj; [reflexivity|]; apply conj; [constructor|];
  apply conj; [repeat constructor; cbn; intuition discriminate|];
  apply conj; [repeat (constructor; [split; [reflexivity|cbn; tauto]|]); constructor|];
  apply conj; repeat constructor.
Theorem c101_names_refuted : exists m m' os os' q q',
  stmt_ok m /\ stmt_ok m' /\ describes os m /\ describes os' m' /\ apply_ops os new_qb = ROk q /\ apply_ops os' new_qb = ROk q' /\
  fst (build_query 20 style_question [q] (BQuery (Some 0))) = ROk ("SELECT u.id FROM u WHERE a<b=?", [VInt "int" 1]) /\
  fst (build_query 20 style_question [q'] (BQuery (Some 0))) = ROk ("SELECT u.id FROM u WHERE a<b=?", [VInt "int" 1]) /\
  m_cols m <> m_cols m' /\ ~ Forall2 (same_cond eq) (m_conds m) (m_conds m').
Proof.
  exists two, one, [OFrom ("u", ""); OWhere2 (column "" "a") "<b=" (VInt "int" 1); OSelect [column "u" "id"]],
    [OFrom ("u", ""); OSelect [column "" "u.id"]; OWhere2 (column "" "a<b") "=" (VInt "int" 1)]. do 2 eexists.
  apply conj; [ok_stmt|]. apply conj; [ok_stmt|].
  do 2 (apply conj; [unfold describes; do 10 (apply conj; [reflexivity|]); reflexivity|]).
  do 2 (apply conj; [cbv; reflexivity|]). do 2 (apply conj; [vm_compute; reflexivity|]). apply conj; [discriminate|].
  intros F. inversion F as [|x y l l' H]; subst. inversion H.
Qed.
Print Assumptions c101_names_refuted.

Definition I (z : Z) : value := VInt "int" z.
Definition m1 : stmt :=
  mkStmt true [("u", "id"); ("o", "*"); ("", "x")] ("users", "u")
    [mkJoin JLeft ("orders", "o") ("u", "id") ("o", "user_id"); mkJoin JInner ("shops", "") ("o", "shop") ("shops", "id")]
    [Compare ("u", "age") " >= " (I 18); Among ("o", "state") (VSlice "[]int" (Some [I 1; I 2; I 18])); NotAmong ("shops", "id") (I 9); Compare ("o", "total") "<" (I 2);
     Compare ("u", "nick") " LIKE " (VStr "string" "a%")]
    [("u", "id")] [(("o", "total"), 3%N); (("u", "id"), 1%N)] 10 20.
Ltac is_name := split; [reflexivity|split; [reflexivity|cbn; intuition discriminate]].
Ltac is_col := split; [first [left; reflexivity|right; is_name]|first [left; reflexivity|right; is_name]].
Lemma named1 : named m1.
Proof.
  apply conj; [discriminate|]. apply conj; [cbn [m1 m_cols]; repeat (constructor; [is_col|]); constructor|].
  apply conj; [split; [is_name|right; is_name]|].
  apply conj. { cbn [m1 m_joins]. repeat (constructor; [split; [split; [is_name|first [left; reflexivity|right; is_name]]|split; is_col]|]). constructor. }
  apply conj. { cbn [m1 m_conds]. repeat (constructor; [split; [is_col|first [exact Logic.I|left; split; reflexivity|right; exists "LIKE"; split; [reflexivity|is_name]]]|]). constructor. }
  apply conj; [cbn [m1 m_groups]; constructor; [is_col|constructor]|].
  cbn [m1 m_orders]. repeat (constructor; [split; [is_col|discriminate]|]). constructor.
Qed.
Definition os1 : list qop :=
  [OLimit 10; OWhere2 (column "u" "age") " >= " (I 18); OOrderBy (column "o" "total") 3; OFrom ("users", "u");
   ODistinct; OWhereIn (column "o" "state") (VSlice "[]int" (Some [I 1; I 2; I 18]));
   OLeftJoin ("orders", "o") (Some (Ff "#f1=#f2" [column "u" "id"; column "o" "user_id"]));
   OSelect [column "u" "id"; column "o" "*"; column "" "x"]; OGroupBy [column "u" "id"];
   OInnerJoin ("shops", "") (Some (Ff "#f1=#f2" [column "o" "shop"; column "shops" "id"]));
   OWhereNotIn (column "shops" "id") (I 9); OOffset 20; OWhere2 (column "o" "total") "<" (I 2);
   OWhere2 (column "u" "nick") " LIKE " (VStr "string" "a%"); OOrderBy (column "u" "id") 1].
Ltac all_appear := intros j Hj; repeat (destruct Hj as [<-|Hj]; [split; [intros _; exact Logic.I|reflexivity]|]); destruct Hj.
Lemma ok1 : stmt_ok m1.
Proof.
  apply conj; [|all_appear]. apply conj; [discriminate|]. apply conj; [reflexivity|]. apply conj; [repeat (constructor; [reflexivity|]); constructor|].
  apply conj. { change (m_tables m1) with ["u"; "o"; "shops"]. repeat constructor; cbn; intuition discriminate. }
  apply conj. { change (m_tables m1) with ["u"; "o"; "shops"]. cbn [m_used m1 m_cols m_conds m_groups m_orders m_joins map app cond_col fst snd j_left j_right]. repeat (constructor; [split; [reflexivity|cbn; tauto]|]). constructor. }
  apply conj. { cbn [m1 m_conds]. repeat constructor; eexists; reflexivity. }
  cbn [m1 m_orders]. repeat (constructor; [discriminate|]). constructor.
Qed.
Example c101_example :
  let phs := map (fun _ => "?") (m_args m1) in
  named m1 /\ stmt_ok m1 /\ describes os1 m1 /\ forallb hashable (m_args m1) = true /\
  sql m1 phs = "SELECT DISTINCT u.id, o.*, x, o.total AS _order_1, u.id AS _order_2 FROM users AS u LEFT JOIN orders AS o ON u.id=o.user_id INNER JOIN shops ON o.shop=shops.id WHERE u.age >= ? AND o.state IN (?, ?, ?) AND shops.id NOT IN (?) AND o.total<? AND u.nick LIKE ? GROUP BY u.id ORDER BY _order_1 DESC, _order_2 ASC NULLS FIRST LIMIT 10 OFFSET 20" /\
  read_select (tokens false (sql m1 phs)) = Some (mkReading true
    [(("u", "id"), ""); (("o", "*"), ""); (("", "x"), ""); (("o", "total"), "_order_1"); (("u", "id"), "_order_2")] ("users", "u")
    [("LEFT", ("orders", "o"), ("u", "id"), ("o", "user_id")); ("INNER", ("shops", ""), ("o", "shop"), ("shops", "id"))]
    [(("u", "age"), Compares [TOp ">"; TOp "="], [[TOp "?"]]); (("o", "state"), IsIn, [[TOp "?"]; [TOp "?"]; [TOp "?"]]); (("shops", "id"), IsNotIn, [[TOp "?"]]);
     (("o", "total"), Compares [TOp "<"], [[TOp "?"]]); (("u", "nick"), Compares [TWord "LIKE"], [[TOp "?"]])]
    [("u", "id")] [(("", "_order_1"), [TWord "DESC"]); (("", "_order_2"), [TWord "ASC"; TWord "NULLS"; TWord "FIRST"])] (Some "10") (Some "20")).
Proof.
  apply conj; [exact named1|]. apply conj; [exact ok1|]. apply conj; [unfold describes; do 10 (apply conj; [reflexivity|]); reflexivity|].
  apply conj; [reflexivity|]. apply conj; vm_compute; reflexivity.
Qed.
