(** Property C122: conditions on lists of values.  The vocabulary is in
    Spec_exec.v and Spec_inlist.v; the proofs are in Inlist_proofs.v. *)
From Coq Require Import Strings.String Strings.Ascii NArith ZArith List Bool Lia Sorting.Permutation Sorting.Sorted.
From Verif Require Import GoStr GoNum Syntax Value Util Model Sqlf Sqlb Spec_syntax RefSem Spec_build Spec_util Spec_eval Spec_query Spec_sql Spec_interp Spec_answer
  Inlist_proofs Prop_pages Spec_sqltok Spec_read Spec_exec Spec_inlist.
Import ListNotations.
Open Scope string_scope.

(** C122: the order and repetition of the values given to WhereIn and WhereNotIn
    are irrelevant; WhereIn one value is Where2 with =; WhereNotIn is Where2 with
    <> for each of the values. *)
Theorem c122_question : forall m m' os os' style, style <> style_dollar -> stmt_ok m -> named m -> describes os m -> stmt_ok m' -> named m' -> describes os' m' -> conds_alike m m' ->
  exists q q', apply_ops os new_qb = ROk q /\ apply_ops os' new_qb = ROk q' /\ forall n, 5 + m_size m <= n -> 5 + m_size m' <= n -> exists s args s' args',
    fst (build_query n style [q] (BQuery (Some 0))) = ROk (s, args) /\ fst (build_query n style [q'] (BQuery (Some 0))) = ROk (s', args') /\
    forall E rows, lists_compare E -> executes E args' s' rows <-> executes E args s rows.
Proof. exact alike_question. Qed.
Print Assumptions c122_question.
Theorem c122_dollar : forall m m' os os', stmt_ok m -> named m -> describes os m -> stmt_ok m' -> named m' -> describes os' m' -> conds_alike m m' -> forallb hashable (m_args m) = true -> forallb hashable (m_args m') = true ->
  exists q q', apply_ops os new_qb = ROk q /\ apply_ops os' new_qb = ROk q' /\ forall n, 5 + m_size m <= n -> 5 + m_size m' <= n -> exists s args s' args',
    fst (build_query n style_dollar [q] (BQuery (Some 0))) = ROk (s, args) /\ fst (build_query n style_dollar [q'] (BQuery (Some 0))) = ROk (s', args') /\
    forall E rows, by_value E -> lists_compare E -> executes E args' s' rows <-> executes E args s rows.
Proof. exact alike_dollar. Qed.
Print Assumptions c122_dollar.

(** The users of C108, except two of them. *)
Definition comparing : engine :=
  mkEngine (e_data users) (fun v => match v with VInt _ z => z | _ => 0%Z end) (fun _ => 0%Z)
    (fun t v l => match t with
       | IsIn => existsb (Z.eqb v) l
       | IsNotIn => forallb (fun w => negb (Z.eqb v w)) l
       | Compares [TOp "="] => match l with [w] => Z.eqb v w | _ => false end
       | Compares [TOp "<"; TOp ">"] => match l with [w] => negb (Z.eqb v w) | _ => false end
       | _ => false end).
Definition i (z : Z) : value := VInt "int" z.
Definition ints (l : list Z) : value := VSlice "[]int" (Some (map i l)).
Definition id : col := ("u", "id").
Definition picked (xs : list cond) : stmt := mkStmt false [id] ("users", "u") [] xs [] [] 0 0.
Definition picked_calls (os : list qop) : list qop := ([OSelect [column "u" "id"]; OFrom ("users", "u")] ++ os)%list.
Ltac ok_picked := split; [apply conj; [discriminate|]; apply conj; [reflexivity|]; apply conj; [repeat constructor|]; apply conj; [repeat (constructor; [cbn; intuition discriminate|]); constructor|];
    apply conj; [cbn; repeat (constructor; [split; [reflexivity|right; cbn; tauto]|]); constructor|]; apply conj; [repeat constructor; eexists; reflexivity|constructor]|intros j []].
Ltac named_picked := unfold picked, id; apply conj; [discriminate|]; apply conj; [repeat (constructor; [is_col|]); constructor|]; apply conj; [split; [is_name|right; is_name]|];
    apply conj; [constructor|]; apply conj; [repeat (constructor; [split; [is_col|first [exact Logic.I|left; split; reflexivity]]|]); constructor|]; apply conj; [constructor|constructor].
Example c122_example :
  let a := picked [NotAmong id (ints [1; 3]%Z); Among id (ints [2]%Z)] in let b := picked [Compare id "<>" (i 1); Compare id "<>" (i 3); Compare id "=" (i 2)] in
  let c := picked [NotAmong id (ints [3; 1; 3]%Z); Among id (ints [2; 2]%Z)] in
  stmt_ok a /\ stmt_ok b /\ stmt_ok c /\ named a /\ named b /\ named c /\
  describes (picked_calls [OWhereNotIn (column "u" "id") (ints [1; 3]%Z); OWhereIn (column "u" "id") (ints [2]%Z)]) a /\
  describes (picked_calls [OWhere2 (column "u" "id") "<>" (i 1); OWhere2 (column "u" "id") "<>" (i 3); OWhere2 (column "u" "id") "=" (i 2)]) b /\
  describes (picked_calls [OWhereNotIn (column "u" "id") (ints [3; 1; 3]%Z); OWhereIn (column "u" "id") (ints [2; 2]%Z)]) c /\
  conds_alike a b /\ conds_alike a c /\ lists_compare comparing /\ by_value comparing /\ forallb hashable (m_args a ++ m_args b ++ m_args c) = true /\
  executes comparing [i 1; i 3; i 2] "SELECT u.id FROM users AS u WHERE u.id NOT IN (?, ?) AND u.id IN (?)" [[2]]%Z /\
  executes comparing [i 1; i 3; i 2] "SELECT u.id FROM users AS u WHERE u.id<>? AND u.id<>? AND u.id=?" [[2]]%Z /\
  executes comparing [i 3; i 1; i 3; i 2; i 2] "SELECT u.id FROM users AS u WHERE u.id NOT IN (?, ?, ?) AND u.id IN (?, ?)" [[2]]%Z.
Proof.
  cbv zeta. do 3 (apply conj; [ok_picked|]). do 3 (apply conj; [named_picked|]).
  do 3 (apply conj; [unfold describes; do 10 (apply conj; [reflexivity|]); reflexivity|]).
  apply conj. { split; [|repeat split]. apply (al_each id (ints [1; 3]%Z)). apply al_one; [reflexivity|constructor]. }
  apply conj. { split; [|repeat split]. apply al_not_in; [intros v; cbn; tauto|]. apply al_in; [intros v; cbn; tauto|constructor]. }
  apply conj. { split; intros v l; reflexivity. }
  apply conj. { intros v w [->|H]; [reflexivity|]. destruct v, w; try reflexivity; cbn in H |- *; try discriminate. apply andb_prop in H. destruct H as [_ H]. apply Z.eqb_eq in H. exact H. }
  apply conj; [reflexivity|].
  do 2 (apply conj; [runs [([2], [] : list Z)]%Z; apply Permutation_refl|]). runs [([2], [] : list Z)]%Z. apply Permutation_refl.
Qed.
