(** Property C118: tables can change sides.  The vocabulary is in Spec_exec.v and
    Spec_sides.v; the proofs are in Sides_proofs.v. *)
From Coq Require Import Strings.String Strings.Ascii NArith ZArith List Bool Lia Sorting.Permutation Sorting.Sorted.
From Verif Require Import GoStr GoNum Syntax Value Util Model Sqlf Sqlb Spec_syntax RefSem Spec_build Spec_util Spec_eval Spec_query Spec_sql Spec_interp Spec_answer
  Sides_proofs Prop_pages Spec_sqltok Spec_read Spec_exec Spec_sides.
Import ListNotations.
Open Scope string_scope.

(** C118: From one table and a join of another gives the answers of From the
    other and the join of the one: InnerJoin and FullJoin stay, LeftJoin becomes
    RightJoin and RightJoin becomes LeftJoin. *)
Theorem c118_question : forall m m' os os' style, style <> style_dollar -> stmt_ok m -> named m -> describes os m -> stmt_ok m' -> named m' -> describes os' m' -> sides_changed m m' -> by_groups m ->
  exists q q', apply_ops os new_qb = ROk q /\ apply_ops os' new_qb = ROk q' /\ forall n, 5 + m_size m <= n -> 5 + m_size m' <= n -> exists s args s' args',
    fst (build_query n style [q] (BQuery (Some 0))) = ROk (s, args) /\ fst (build_query n style [q'] (BQuery (Some 0))) = ROk (s', args') /\
    forall E rows, tableless (database_of E) m -> executes E args' s' rows <-> executes E args s rows.
Proof. exact sides_question. Qed.
Print Assumptions c118_question.
Theorem c118_dollar : forall m m' os os', stmt_ok m -> named m -> describes os m -> stmt_ok m' -> named m' -> describes os' m' -> sides_changed m m' -> by_groups m -> forallb hashable (m_args m) = true ->
  exists q q', apply_ops os new_qb = ROk q /\ apply_ops os' new_qb = ROk q' /\ forall n, 5 + m_size m <= n -> 5 + m_size m' <= n -> exists s args s' args',
    fst (build_query n style_dollar [q] (BQuery (Some 0))) = ROk (s, args) /\ fst (build_query n style_dollar [q'] (BQuery (Some 0))) = ROk (s', args') /\
    forall E rows, by_value E -> tableless (database_of E) m -> executes E args' s' rows <-> executes E args s rows.
Proof. exact sides_dollar. Qed.
Print Assumptions c118_dollar.

(** Two users, an order of the first and an order of nobody. *)
Definition account (i : Z) : row_of Z := fun c => if String.eqb c "id" then i else 0%Z.
Definition purchase (u t : Z) : row_of Z := fun c => if String.eqb c "user" then u else t.
Definition shop : engine :=
  mkEngine (mkDB Z 0%Z Z.eqb (fun t => if String.eqb t "users" then [account 1; account 2] else [purchase 1 5; purchase 9 6]) Z.eqb (fun _ _ => true) (fun _ _ => 0%Z) (fun _ _ _ => True) Z.eqb_eq)
    (fun v => match v with VInt _ z => z | _ => 0%Z end) (fun _ => 0%Z) (fun _ v l => existsb (fun w => (w <? v)%Z) l).
Definition with_join (k : join_kind) (t t' : tname) : stmt := mkStmt false [("u", "id"); ("o", "total")] t [mkJoin k t' ("u", "id") ("o", "user")] [] [] [] 0 0.
Definition with_call (t : tname) (j : qop) : list qop := [OSelect [column "u" "id"; column "o" "total"]; OFrom t; j].
Definition tu : tname := ("users", "u").
Definition tord : tname := ("orders", "o").
Definition on (t : tname) := join_on (mkJoin JInner t ("u", "id") ("o", "user")).
Ltac ok_with := split; [apply conj; [discriminate|]; apply conj; [reflexivity|]; apply conj; [repeat constructor|]; apply conj; [repeat (constructor; [cbn; intuition discriminate|]); constructor|];
    apply conj; [cbn; repeat (constructor; [split; [reflexivity|right; cbn; tauto]|]); constructor|]; apply conj; [constructor|constructor]|intros j [<-|[]]; (split; [intros _; exact Logic.I|reflexivity])].
Ltac named_with := unfold with_join, tu, tord; apply conj; [discriminate|]; apply conj; [repeat (constructor; [is_col|]); constructor|]; apply conj; [split; [is_name|right; is_name]|];
    apply conj; [constructor; [apply conj; [split; [is_name|right; is_name]|split; is_col]|constructor]|]; apply conj; [constructor|]; apply conj; [constructor|constructor].
Ltac all_rows l := do 4 eexists; apply conj; [vm_compute; reflexivity|]; apply conj; [vm_compute; reflexivity|]; apply conj; [cbn; reflexivity|];
  apply conj; [exists l; apply conj; [cbn|apply conj; [repeat constructor|reflexivity]]|reflexivity].
Example c118_example :
  let a := with_join JLeft tu tord in let b := with_join JRight tord tu in let c := with_join JFull tu tord in let d := with_join JFull tord tu in
  stmt_ok a /\ stmt_ok b /\ stmt_ok c /\ stmt_ok d /\ named a /\ named b /\ named c /\ named d /\
  describes (with_call tu (OLeftJoin tord (on tord))) a /\ describes (with_call tord (ORightJoin tu (on tu))) b /\
  describes (with_call tu (OFullJoin tord (on tord))) c /\ describes (with_call tord (OFullJoin tu (on tu))) d /\
  sides_changed a b /\ sides_changed b a /\ sides_changed c d /\ by_groups a /\ tableless (database_of shop) a /\ by_value shop /\ forallb hashable (m_args a) = true /\
  executes shop [] "SELECT u.id, o.total FROM users AS u LEFT JOIN orders AS o ON u.id=o.user" [[1; 5]; [2; 0]]%Z /\
  executes shop [] "SELECT u.id, o.total FROM orders AS o RIGHT JOIN users AS u ON u.id=o.user" [[1; 5]; [2; 0]]%Z /\
  executes shop [] "SELECT u.id, o.total FROM users AS u FULL JOIN orders AS o ON u.id=o.user" [[1; 5]; [2; 0]; [0; 6]]%Z /\
  executes shop [] "SELECT u.id, o.total FROM orders AS o FULL JOIN users AS u ON u.id=o.user" [[1; 5]; [2; 0]; [0; 6]]%Z.
Proof.
  cbv zeta. do 4 (apply conj; [ok_with|]). do 4 (apply conj; [named_with|]).
  do 4 (apply conj; [unfold describes; do 10 (apply conj; [reflexivity|]); reflexivity|]).
  apply conj; [split; [exists JLeft, JRight, tu, tord, ("u", "id"), ("o", "user"); repeat split|repeat split]|].
  apply conj; [split; [exists JRight, JLeft, tord, tu, ("u", "id"), ("o", "user"); repeat split|repeat split]|].
  apply conj; [split; [exists JFull, JFull, tu, tord, ("u", "id"), ("o", "user"); repeat split|repeat split]|].
  apply conj; [left; reflexivity|]. apply conj; [intros c g g' _ _; reflexivity|].
  apply conj. { intros v w [->|H]; [reflexivity|]. destruct v, w; try reflexivity; cbn in H |- *; try discriminate. apply andb_prop in H. destruct H as [_ H]. apply Z.eqb_eq in H. exact H. }
  apply conj; [reflexivity|].
  apply conj; [all_rows [([1; 5], [] : list Z); ([2; 0], [] : list Z)]%Z; apply Permutation_refl|].
  apply conj; [all_rows [([1; 5], [] : list Z); ([2; 0], [] : list Z)]%Z; apply Permutation_refl|].
  apply conj; [all_rows [([1; 5], [] : list Z); ([2; 0], [] : list Z); ([0; 6], [] : list Z)]%Z; apply Permutation_refl|].
  all_rows [([1; 5], [] : list Z); ([2; 0], [] : list Z); ([0; 6], [] : list Z)]%Z. apply perm_skip, perm_swap.
Qed.
