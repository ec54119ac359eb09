(** Property C105: executing what was built gives the answers of the statement
    that was described.  The vocabulary is in Spec_exec.v; the proofs are in
    Exec_proofs.v. *)
From Coq Require Import Strings.String Strings.Ascii NArith ZArith List Bool Lia Floats.SpecFloat Sorting.Permutation Sorting.Sorted.
From Verif Require Import GoStr GoNum Syntax Value Util Model Sqlf Sqlb Spec_syntax RefSem Spec_build Spec_util Spec_eval Spec_query Spec_sql Spec_interp Spec_answer
  Exec_proofs Spec_sqltok Spec_read Spec_exec.
Import ListNotations.
Open Scope string_scope.

(** C105: executing the text with the arguments gives the answers of the
    statement, without the optional joins that do not appear, in Question style
    on any database ... *)
Theorem c105_question : forall m os style, style <> style_dollar -> stmt_ok m -> named m -> describes os m ->
  exists q, apply_ops os new_qb = ROk q /\ forall n, 5 + m_size m <= n -> exists text args,
    fst (build_query n style [q] (BQuery (Some 0))) = ROk (text, args) /\ forall E rows, executes E args text rows <-> listed_answers E (trimmed m) rows.
Proof. exact exec_question. Qed.
Print Assumptions c105_question.

(** ... and in Dollar style on those that do not tell values apart that are equal
    in Go. *)
Theorem c105_dollar : forall m os, stmt_ok m -> named m -> describes os m -> forallb hashable (m_args m) = true ->
  exists q, apply_ops os new_qb = ROk q /\ forall n, 5 + m_size m <= n -> exists text args,
    fst (build_query n style_dollar [q] (BQuery (Some 0))) = ROk (text, args) /\ forall E rows, by_value E -> executes E args text rows <-> listed_answers E (trimmed m) rows.
Proof. exact exec_dollar. Qed.
Print Assumptions c105_dollar.

(** These are the answers of the whole statement, under the conditions of C76. *)
Theorem c105_all_joins : forall m, stmt_ok m -> closed m -> by_groups m -> forall E, tableless (database_of E) m ->
  forall rows, listed_answers E (trimmed m) rows <-> listed_answers E m rows.
Proof. exact listed_trimmed. Qed.
Print Assumptions c105_all_joins.

(** The two styles give the same answers. *)
Theorem c105_styles : forall m os style, style <> style_dollar -> stmt_ok m -> named m -> describes os m -> forallb hashable (m_args m) = true ->
  exists q, apply_ops os new_qb = ROk q /\ forall n, 5 + m_size m <= n -> exists s args s' args',
    fst (build_query n style [q] (BQuery (Some 0))) = ROk (s, args) /\ fst (build_query n style_dollar [q] (BQuery (Some 0))) = ROk (s', args') /\
    forall E rows, by_value E -> executes E args s rows <-> executes E args' s' rows.
Proof. exact exec_styles. Qed.
Print Assumptions c105_styles.

(** And so does the interpolated text, with any arguments, if the literals have
    the values of the arguments they are written for. *)
Theorem c105_interpolated : forall ft m os style lits, style <> style_dollar -> stmt_ok m -> named m -> describes os m ->
  Forall2 (literal ft) (m_args m) lits -> forallb (readable false ft) (m_args m) = true ->
  exists q, apply_ops os new_qb = ROk q /\ forall n, 5 + m_size m <= n -> exists s args out,
    fst (build_query n style [q] (BQuery (Some 0))) = ROk (s, args) /\ interpolate ft s args = ROk out /\
    forall E any rows, reads_literals E ft (m_args m) -> executes E any out rows <-> executes E args s rows.
Proof. exact exec_shown. Qed.
Print Assumptions c105_interpolated.
Theorem c105_interpolated_dollar : forall ft m os lits, stmt_ok m -> named m -> describes os m -> forallb hashable (m_args m) = true ->
  (Z.of_nat (List.length (m_args m)) < 9223372036854775808)%Z -> Forall2 (literal ft) (m_args m) lits -> literal_by_value ft (m_args m) ->
  forallb (readable false ft) (m_args m) = true ->
  exists q, apply_ops os new_qb = ROk q /\ forall n, 5 + m_size m <= n -> exists s args out,
    fst (build_query n style_dollar [q] (BQuery (Some 0))) = ROk (s, args) /\ interpolate ft s args = ROk out /\
    forall E any rows, by_value E -> reads_literals E ft (m_args m) -> executes E any out rows <-> executes E args s rows.
Proof. exact exec_shown_dollar. Qed.
Print Assumptions c105_interpolated_dollar.

(** A database of numbers: two users, three orders. *)
Definition fields (l : list (string * Z)) : row_of Z := fun c => match find (fun p => String.eqb (fst p) c) l with Some p => snd p | None => 0%Z end.
Definition tables (t : string) : list (row_of Z) :=
  if String.eqb t "users" then [fields [("id", 1%Z)]; fields [("id", 2%Z)]]
  else if String.eqb t "orders" then [fields [("user", 1%Z); ("total", 5%Z)]; fields [("user", 2%Z); ("total", 20%Z)]; fields [("user", 1%Z); ("total", 30%Z)]] else [].
Definition down (os : list N) (a b : list Z) : Prop := match os with 3%N :: _ => (hd 0 b <= hd 0 a)%Z | _ => True end.
Definition numbers : database := mkDB Z 0%Z Z.eqb tables Z.eqb (fun _ _ => true) (fun _ _ => 0%Z) down Z.eqb_eq.
Definition engine1 : engine :=
  mkEngine numbers (fun v => match v with VInt _ z => z | _ => 0%Z end)
    (fun ts => match ts with [TNum d] => match digits_val 0 d with Some n => Z.of_N n | None => 0%Z end | _ => 0%Z end)
    (fun t v l => match t, l with Compares [TOp ">"], [w] => (w <? v)%Z | IsIn, _ => existsb (Z.eqb v) l | _, _ => false end).
Definition m1 : stmt :=
  mkStmt false [("u", "id"); ("o", "total")] ("users", "u") [mkJoin JLeft ("orders", "o") ("u", "id") ("o", "user")]
    [Compare ("o", "total") ">" (VInt "int" 10); Among ("u", "id") (VSlice "[]int" (Some [VInt "int" 1; VInt "int" 10; VInt "int" 2]))] [] [(("o", "total"), 3%N)] 1 0.
Definition os1 : list qop :=
  [OSelect [column "u" "id"; column "o" "total"]; OFrom ("users", "u"); OLeftJoin ("orders", "o") (join_on (mkJoin JLeft ("orders", "o") ("u", "id") ("o", "user"))); OLimit 1;
   OWhere2 (column "o" "total") ">" (VInt "int" 10); OWhereIn (column "u" "id") (VSlice "[]int" (Some [VInt "int" 1; VInt "int" 10; VInt "int" 2])); OOrderBy (column "o" "total") 3].
Ltac is_name := split; [reflexivity|split; [reflexivity|cbn; intuition discriminate]].
Ltac is_col := split; [first [left; reflexivity|right; is_name]|first [left; reflexivity|right; is_name]].
Lemma by_value1 : by_value engine1.
Proof.
  intros v w [->|H]; [reflexivity|]. destruct v, w; try reflexivity; cbn in H |- *; try discriminate.
  apply andb_prop in H. destruct H as [_ H]. apply Z.eqb_eq in H. exact H.
Qed.
Lemma reads1 : forall ft, reads_literals engine1 ft (m_args m1).
Proof.
  intros ft v ts H S. cbn in H. repeat destruct H as [<-|H]; try (inversion S; subst; reflexivity). destruct H.
Qed.
Definition text1 : string := "SELECT u.id, o.total FROM users AS u LEFT JOIN orders AS o ON u.id=o.user WHERE o.total>? AND u.id IN (?, ?, ?) ORDER BY o.total DESC LIMIT 1".
Example c105_example : forall ft,
  stmt_ok m1 /\ named m1 /\ describes os1 m1 /\ closed m1 /\ by_groups m1 /\ tableless (database_of engine1) m1 /\ by_value engine1 /\ reads_literals engine1 ft (m_args m1) /\
  sql m1 ["?"; "?"; "?"; "?"] = text1 /\ executes engine1 (m_args m1) text1 [[1%Z; 30%Z]] /\
  Forall2 (literal ft) (m_args m1) ["10"; "1"; "10"; "2"] /\ forallb (readable false ft) (m_args m1) = true.
Proof.
  intros ft. apply conj.
  { apply conj; [|intros j [<-|[]]; split; [intros _; exact Logic.I|reflexivity]].
    apply conj; [discriminate|]. apply conj; [reflexivity|]. apply conj; [repeat (constructor; [reflexivity|]); constructor|].
    apply conj; [cbn; repeat constructor; cbn; intuition discriminate|].
    apply conj; [cbn [m_used m1 m_cols m_conds m_groups m_orders m_joins map app cond_col fst snd j_left j_right flat_map]; repeat (constructor; [split; [reflexivity|cbn; tauto]|]); constructor|].
    apply conj; [cbn [m1 m_conds]; repeat constructor; eexists; reflexivity|]. repeat (constructor; [discriminate|]). constructor. }
  apply conj.
  { apply conj; [discriminate|]. apply conj; [repeat (constructor; [is_col|]); constructor|]. apply conj; [split; [is_name|right; is_name]|].
    apply conj; [constructor; [split; [split; [is_name|right; is_name]|split; is_col]|constructor]|].
    apply conj; [cbn [m1 m_conds]; repeat (constructor; [split; [is_col|first [exact Logic.I|left; split; reflexivity]]|]); constructor|].
    apply conj; [constructor|]. constructor; [split; [is_col|discriminate]|constructor]. }
  apply conj; [unfold describes; do 10 (apply conj; [reflexivity|]); reflexivity|].
  apply conj; [intros j i Hj [<-|[]]; reflexivity|]. apply conj; [left; reflexivity|].
  apply conj. { intros c g g' Hc. cbn in Hc. intros Z. reflexivity. }
  apply conj; [exact by_value1|]. apply conj; [apply reads1|]. apply conj; [vm_compute; reflexivity|].
  apply conj.
  { do 4 eexists. apply conj; [vm_compute; reflexivity|]. apply conj; [vm_compute; reflexivity|]. apply conj; [cbn; reflexivity|].
    apply conj; [exists [([1%Z; 30%Z], [30%Z]); ([2%Z; 20%Z], [20%Z])]|]. 2: { instantiate (1 := [([1%Z; 30%Z], [30%Z])]). reflexivity. }
    apply conj; [cbn; apply perm_swap || apply Permutation_refl|]. apply conj; [|reflexivity].
    repeat constructor; cbn; lia. }
  apply conj; [|reflexivity]. repeat (constructor; [apply (lt_int ft "int")|]). constructor.
Qed.

(** Not so in Dollar style on every database: the zeros of Go are equal, so they
    share a placeholder, and a database that tells them apart answers
    differently. *)
Definition zero (s : bool) : value := VFloat "float64" (S754_zero s).
Definition zeros : engine :=
  mkEngine (mkDB Z 0%Z Z.eqb (fun _ => [fields [("x", 7%Z); ("a", 0%Z); ("b", 1%Z)]]) Z.eqb (fun _ _ => true) (fun c g => hd (fun _ _ => 0%Z) g "t" c) (fun _ _ _ => True) Z.eqb_eq)
    (fun v => match v with VFloat _ (S754_zero true) => 1%Z | _ => 0%Z end) (fun _ => 0%Z) (fun _ v l => existsb (Z.eqb v) l).
Definition m2 : stmt := mkStmt false [("", "x")] ("t", "") [] [Compare ("", "a") "=" (zero false); Compare ("", "b") "=" (zero true)] [] [] 0 0.
Definition os2 : list qop := [OSelect [column "" "x"]; OFrom ("t", ""); OWhere2 (column "" "a") "=" (zero false); OWhere2 (column "" "b") "=" (zero true)].
Theorem c105_zero_refuted : exists q s args s' args', describes os2 m2 /\ apply_ops os2 new_qb = ROk q /\
  fst (build_query 20 style_question [q] (BQuery (Some 0))) = ROk (s, args) /\ fst (build_query 20 style_dollar [q] (BQuery (Some 0))) = ROk (s', args') /\
  executes zeros args s [[7%Z]] /\ ~ executes zeros args' s' [[7%Z]].
Proof.
  do 5 eexists. apply conj; [unfold describes; do 10 (apply conj; [reflexivity|]); reflexivity|]. apply conj; [cbv; reflexivity|].
  apply conj; [vm_compute; reflexivity|]. apply conj; [vm_compute; reflexivity|]. apply conj.
  - do 4 eexists. apply conj; [vm_compute; reflexivity|]. apply conj; [vm_compute; reflexivity|]. apply conj; [cbn; reflexivity|].
    apply conj; [exists [([7%Z], [])]|]. 2: { instantiate (1 := [([7%Z], [])]). reflexivity. }
    apply conj; [cbn; apply Permutation_refl|]. apply conj; [repeat constructor|reflexivity].
  - intros (r & m & ts & l & H1 & H2 & H3 & (s & H4 & _ & ->) & H5). vm_compute in H1. injection H1 as <-. vm_compute in H2. injection H2 as <-. cbn in H3. injection H3 as <-.
    cbn in H4. apply Permutation_sym, Permutation_nil in H4. subst s. discriminate H5.
Qed.
Print Assumptions c105_zero_refuted.
