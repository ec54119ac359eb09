(** Property C102: the interpolated text of a query says which statement it is,
    with which values.  The vocabulary is in Spec_read.v; the proofs are in
    Read2_proofs.v. *)
From Coq Require Import Strings.String Strings.Ascii NArith ZArith List Bool Lia.
From Verif Require Import GoStr GoNum Syntax Value Util Model Sqlf Sqlb Spec_syntax RefSem Spec_build Spec_util Spec_eval Spec_query Spec_sql Spec_interp
  Read2_proofs Spec_sqltok Spec_read Prop_read.
Import ListNotations.
Open Scope string_scope.

(** C102: whatever the values are, the text with their literals is read as the
    statement, with each literal as the operand it was inserted for. *)
Theorem c102_read : forall ft m lits, named m -> Forall2 (literal ft) (m_args m) lits -> forallb (readable false ft) (m_args m) = true ->
  exists vs, Forall2 (stands ft) (m_args m) vs /\ read_select (tokens false (sql m lits)) = Some (said m vs).
Proof. exact shown_read. Qed.
Print Assumptions c102_read.

(** For the text util.Interpolate returns for a built query, in Question style ... *)
Theorem c102_question : forall ft m os style lits, style <> style_dollar -> stmt_ok m -> named m -> describes os m ->
  Forall2 (literal ft) (m_args m) lits -> forallb (readable false ft) (m_args m) = true ->
  exists q vs, apply_ops os new_qb = ROk q /\ Forall2 (stands ft) (m_args m) vs /\
    forall n, 5 + m_size m <= n -> exists s args out, fst (build_query n style [q] (BQuery (Some 0))) = ROk (s, args) /\
      interpolate ft s args = ROk out /\ read_select (tokens false out) = Some (said m vs).
Proof. exact question_shown_read. Qed.
Print Assumptions c102_question.

(** ... and in Dollar style, if equal arguments have equal literals. *)
Theorem c102_dollar : forall ft m os lits, stmt_ok m -> named m -> describes os m -> forallb hashable (m_args m) = true ->
  (Z.of_nat (List.length (m_args m)) < 9223372036854775808)%Z -> Forall2 (literal ft) (m_args m) lits -> literal_by_value ft (m_args m) ->
  forallb (readable false ft) (m_args m) = true ->
  exists q vs, apply_ops os new_qb = ROk q /\ Forall2 (stands ft) (m_args m) vs /\
    forall n, 5 + m_size m <= n -> exists s args out, fst (build_query n style_dollar [q] (BQuery (Some 0))) = ROk (s, args) /\
      interpolate ft s args = ROk out /\ read_select (tokens false out) = Some (said m vs).
Proof. exact dollar_shown_read. Qed.
Print Assumptions c102_dollar.

(** So one text stands for one statement, with values that are shown alike. *)
Theorem c102_determined : forall ft m m' os os' style n q q' lits lits' s args s' args' out, style <> style_dollar -> stmt_ok m -> stmt_ok m' -> named m -> named m' ->
  describes os m -> describes os' m' ->
  Forall2 (literal ft) (m_args m) lits -> Forall2 (literal ft) (m_args m') lits' ->
  forallb (readable false ft) (m_args m) = true -> forallb (readable false ft) (m_args m') = true ->
  apply_ops os new_qb = ROk q -> apply_ops os' new_qb = ROk q' -> 5 + m_size m <= n -> 5 + m_size m' <= n ->
  fst (build_query n style [q] (BQuery (Some 0))) = ROk (s, args) -> interpolate ft s args = ROk out ->
  fst (build_query n style [q'] (BQuery (Some 0))) = ROk (s', args') -> interpolate ft s' args' = ROk out -> same_stmt (show_alike ft) m m'.
Proof. exact interpolated_same. Qed.
Print Assumptions c102_determined.

(** Not so for every operator: after a minus sign a negative number begins a
    comment, and the conditions behind it are gone. *)
Definition minus : stmt := mkStmt false [("", "x")] ("t", "") [] [Compare ("", "a") " > 10-" (VInt "int" (-5)); Compare ("", "b") "=" (VInt "int" 1)] [] [] 0 0.
Theorem c102_minus_refuted : forall ft, exists os q s args, stmt_ok minus /\ describes os minus /\ apply_ops os new_qb = ROk q /\
  Forall2 (literal ft) (m_args minus) ["-5"; "1"] /\
  fst (build_query 20 style_question [q] (BQuery (Some 0))) = ROk (s, args) /\
  interpolate ft s args = ROk "SELECT x FROM t WHERE a > 10--5 AND b=1" /\
  tokens false "SELECT x FROM t WHERE a > 10--5 AND b=1" =
    [TWord "SELECT"; TWord "x"; TWord "FROM"; TWord "t"; TWord "WHERE"; TWord "a"; TOp ">"; TNum "10"; TComment "5 AND b=1"].
Proof.
  intros ft. exists [OFrom ("t", ""); OWhere2 (column "" "a") " > 10-" (VInt "int" (-5)); OSelect [column "" "x"]; OWhere2 (column "" "b") "=" (VInt "int" 1)].
  do 3 eexists. apply conj; [ok_stmt|]. apply conj; [unfold describes; do 10 (apply conj; [reflexivity|]); reflexivity|].
  apply conj; [cbv; reflexivity|]. apply conj; [constructor; [apply (lt_int ft "int" (-5))|constructor; [apply (lt_int ft "int" 1)|constructor]]|].
  apply conj; [vm_compute; reflexivity|]. apply conj; vm_compute; reflexivity.
Qed.
Print Assumptions c102_minus_refuted.

(** A string that looks like SQL stays one string. *)
Definition attack : string := "' OR 1=1 --".
Definition m2 : stmt :=
  mkStmt false [("", "id")] ("users", "") [] [Compare ("", "name") " = " (VStr "string" attack); Among ("", "age") (VSlice "[]any" (Some [I (-1); VNil; VBool "bool" true])); Compare ("", "state") "<>" (I 2)]
    [] [] 1 0.
Definition os2 : list qop :=
  [OFrom ("users", ""); OLimit 1; OWhere2 (column "" "name") " = " (VStr "string" attack); OWhereIn (column "" "age") (VSlice "[]any" (Some [I (-1); VNil; VBool "bool" true]));
   OWhere2 (column "" "state") "<>" (I 2); OSelect [column "" "id"]].
Definition lits2 : list string := ["''' OR 1=1 --'"; "-1"; "NULL"; "TRUE"; "2"].
Lemma ok2 : stmt_ok m2.
Proof.
  apply conj; [|intros j []]. apply conj; [discriminate|]. apply conj; [reflexivity|]. apply conj; [constructor|].
  apply conj. { repeat constructor. intros []. }
  apply conj. { cbn [m_used m2 m_cols m_conds m_groups m_orders m_joins map app cond_col fst snd flat_map]. repeat (constructor; [split; [reflexivity|cbn; tauto]|]). constructor. }
  apply conj. { cbn [m2 m_conds]. repeat constructor; eexists; reflexivity. }
  constructor.
Qed.
Lemma named2 : named m2.
Proof.
  apply conj; [discriminate|]. apply conj; [constructor; [is_col|constructor]|].
  apply conj; [split; [is_name|left; reflexivity]|]. apply conj; [constructor|].
  apply conj. { cbn [m2 m_conds]. repeat (constructor; [split; [is_col|first [exact Logic.I|left; split; reflexivity]]|]). constructor. }
  apply conj; constructor.
Qed.
Example c102_example : forall ft,
  stmt_ok m2 /\ named m2 /\ describes os2 m2 /\ forallb hashable (m_args m2) = true /\
  Forall2 (literal ft) (m_args m2) lits2 /\ literal_by_value ft (m_args m2) /\ forallb (readable false ft) (m_args m2) = true /\
  sql m2 lits2 = "SELECT id FROM users WHERE name = ''' OR 1=1 --' AND age IN (-1, NULL, TRUE) AND state<>2 LIMIT 1" /\
  read_select (tokens false (sql m2 lits2)) = Some (mkReading false [(("", "id"), "")] ("users", "") []
    [(("", "name"), Compares [TOp "="], [[TStr attack]]); (("", "age"), IsIn, [[TOp "-"; TNum "1"]; [TWord "NULL"]; [TWord "TRUE"]]); (("", "state"), Compares [TOp "<"; TOp ">"], [[TNum "2"]])]
    [] [] (Some "1") None).
Proof.
  intros ft. apply conj; [exact ok2|]. apply conj; [exact named2|]. apply conj; [unfold describes; do 10 (apply conj; [reflexivity|]); reflexivity|].
  apply conj; [reflexivity|]. change (m_args m2) with [VStr "string" attack; I (-1); VNil; VBool "bool" true; I 2].
  apply conj. { unfold lits2. constructor; [apply (lt_str ft "string" attack)|]. constructor; [apply (lt_int ft "int" (-1))|]. constructor; [constructor|]. constructor; [constructor|]. constructor; [apply (lt_int ft "int" 2)|constructor]. }
  apply conj.
  { intros v w s Hv Hw E L. cbn [In] in Hv, Hw.
    repeat match goal with H : _ \/ _ |- _ => destruct H | H : False |- _ => destruct H end; subst; try exact L; discriminate E. }
  apply conj; [reflexivity|]. apply conj; vm_compute; reflexivity.
Qed.
