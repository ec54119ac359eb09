(** Property C76: the answers of statements with optional joins.  The vocabulary
    is in Spec_answer.v; the proofs are in Answer_proofs.v. *)
From Coq Require Import Strings.String NArith ZArith List Bool Arith Sorting.Sorted.
From Verif Require Import GoStr GoNum Syntax Value Util Model Sqlf Sqlb Spec_syntax RefSem Spec_build Spec_eval Spec_query Spec_sql Sql_proofs Spec_answer Answer_proofs.
Import ListNotations.
Open Scope string_scope.

(** C76: leaving out the optional joins that are not needed changes no answer,
    on any database, if the other joins mention only tables that appear, if what
    is selected and ordered by is grouped by (if anything is), and if the
    expressions without table do not depend on the tables. *)
Theorem c76_same_answers : forall m, stmt_ok m -> closed m -> by_groups m -> forall D, tableless D m ->
  forall l, answers D (trimmed m) l <-> answers D m l.
Proof. exact trimmed_answers. Qed.
Print Assumptions c76_same_answers.
(** The text that is built (C66) is that of the trimmed statement. *)
Theorem c76_text : forall m os style, style <> style_dollar -> stmt_ok m -> describes os m ->
  exists q, apply_ops os new_qb = ROk q /\
    forall n, 5 + m_size m <= n ->
      fst (build_query n style [q] (BQuery (Some 0))) = ROk (sql (trimmed m) (map (fun _ => "?") (m_args m)), m_args m).
Proof. exact trimmed_text. Qed.
Print Assumptions c76_text.

(** A database: two users, the first with two orders. *)
Definition user (i : nat) : string -> nat := fun c => if String.eqb c "id" then i else 0.
Definition order (i u : nat) : string -> nat := fun c => if String.eqb c "id" then i else if String.eqb c "user_id" then u else 0.
Definition tables (t : string) : list (string -> nat) :=
  if String.eqb t "users" then [user 1; user 2] else if String.eqb t "orders" then [order 7 1; order 8 1] else [].
Definition count (e : string) (g : list (string -> string -> nat)) : nat := if String.eqb e "count(*)" then List.length g else 0.
Definition db : database :=
  mkDB nat 0 Nat.eqb tables (fun a b => Nat.eqb a b && negb (Nat.eqb a 0)) (fun _ v => negb (Nat.eqb v 2)) count (fun _ _ _ => True) Nat.eqb_eq.

(** SELECT DISTINCT u.id FROM users AS u LEFT JOIN orders AS o ON u.id=o.user_id WHERE u.id<>2 *)
Definition a1 : stmt :=
  mkStmt true [("u", "id")] ("users", "u") [mkJoin (JOptional false) ("orders", "o") ("u", "id") ("o", "user_id")]
    [Compare ("u", "id") "<>" (VInt "int" 2)] [] [] 0 0.
(** SELECT DISTINCT u.id, and the number of rows, ... GROUP BY u.id *)
Definition a2 : stmt :=
  mkStmt true [("u", "id"); ("", "count(*)")] ("users", "u") [mkJoin (JOptional false) ("orders", "o") ("u", "id") ("o", "user_id")]
    [] [("u", "id")] [] 0 0.
(** SELECT DISTINCT u.id FROM users AS u ... INNER JOIN users AS v ON v.id=o.user_id *)
Definition a3 : stmt :=
  mkStmt true [("u", "id")] ("users", "u")
    [mkJoin (JOptional false) ("orders", "o") ("u", "id") ("o", "user_id"); mkJoin JInner ("users", "v") ("v", "id") ("o", "user_id")] [] [] [] 0 0.
Ltac names := apply conj; [discriminate|]; apply conj; [reflexivity|]; apply conj; [repeat (constructor; [reflexivity|]); constructor|];
  apply conj; [cbn [m_tables a1 a2 a3]; repeat constructor; cbn; intuition discriminate|];
  apply conj; [cbn [m_used a1 a2 a3 m_cols m_conds m_groups m_orders m_joins map app cond_col fst snd j_left j_right]; repeat (constructor; [split; [reflexivity|cbn; tauto]|]); constructor|];
  apply conj; [repeat constructor|repeat constructor].
Lemma only_u : forall m cs t, m_joins m = m_joins a1 \/ m_joins m = m_joins a3 ->
  (forall c, In c (m_cols m ++ cs ++ m_groups m ++ map fst (m_orders m))%list -> fst c = "" \/ fst c = "u") -> needs m cs t -> t = "u".
Proof.
  intros m cs t Hj Hc H. induction H as [c Hi Hn|j c _ IH Hi _ _]; [destruct (Hc c Hi); [congruence|assumption]|].
  destruct Hj as [E|E]; rewrite E in Hi; cbn in Hi; destruct Hi as [<-|Hi]; try discriminate IH; try (destruct Hi as [<-|Hi]; try discriminate IH); destruct Hi.
Qed.
Lemma left_out : forall m cs, m_joins m = m_joins a1 \/ m_joins m = m_joins a3 ->
  (forall c, In c (m_cols m ++ cs ++ m_groups m ++ map fst (m_orders m))%list -> fst c = "" \/ fst c = "u") -> m_distinct m = true -> shown_ok m cs.
Proof.
  intros m cs Hj Hc Hd j Hi. assert (N : ~ needs m cs "o") by (intro K; apply only_u in K; [discriminate K|exact Hj|exact Hc]).
  destruct Hj as [E|E]; rewrite E in Hi; destruct Hi as [<-|Hi].
  - split; [discriminate|]. intro K. destruct (N (K Hd)).
  - destruct Hi.
  - split; [discriminate|]. intro K. destruct (N (K Hd)).
  - destruct Hi as [<-|[]]. split; [intros _; exact I|reflexivity].
Qed.
Ltac not_needed := apply left_out; [auto|cbn; intros c Hc; repeat (destruct Hc as [<-|Hc]; [cbn; auto|]); destruct Hc|reflexivity].
Lemma ok1 : stmt_ok a1. Proof. apply conj; [names|not_needed]. Qed.
Lemma ok2 : stmt_ok a2. Proof. apply conj; [names|not_needed]. Qed.
Lemma ok3 : stmt_ok a3. Proof. apply conj; [names|not_needed]. Qed.
Example c76_example : stmt_ok a1 /\ closed a1 /\ by_groups a1 /\ tableless db a1 /\
  trimmed a1 <> a1 /\ results db a1 = [([1], []); ([1], [])] /\ results db (trimmed a1) = [([1], [])] /\
  answers db a1 [([1], [])] /\
  sql (trimmed a1) ["?"] = "SELECT DISTINCT u.id FROM users AS u WHERE u.id<>?".
Proof.
  apply conj; [exact ok1|]. apply conj. { intros j i [<-|[]] _ []. } apply conj; [left; reflexivity|].
  apply conj. { intros c g g' Hc E. repeat (destruct Hc as [<-|Hc]; [discriminate E|]). destruct Hc. }
  apply conj; [discriminate|]. apply conj; [vm_compute; reflexivity|]. apply conj; [vm_compute; reflexivity|].
  apply conj; [|vm_compute; reflexivity]. exists [([1], [])]. apply conj.
  - change (results db a1) with [([1], @nil nat); ([1], [])]. split; [repeat constructor; intros []|]. intro x. cbn. tauto.
  - apply conj; [|reflexivity]. repeat constructor.
Qed.

(** Without the condition on groups and expressions it is false: count. *)
Theorem c76_counting_refuted : ~ (forall m, stmt_ok m -> closed m -> forall D l, answers D (trimmed m) l -> answers D m l).
Proof.
  intro H. destruct (H a2 ok2 ltac:(intros j i [<-|[]] _ []) db [([1; 1], []); ([2; 1], [])]) as (s & [_ S] & _ & E).
  - exists [([1; 1], []); ([2; 1], [])]. change (results db (trimmed a2)) with [([1; 1], @nil nat); ([2; 1], [])]. split; [split|split; [|reflexivity]].
    + repeat constructor; cbn; intuition discriminate.
    + intro x. tauto.
    + repeat constructor.
  - cbn in E. subst s. change (results db a2) with [([1; 2], @nil nat); ([2; 1], [])] in S. pose proof (proj1 (S ([1; 1], [])) (or_introl eq_refl)) as K. cbn in K. intuition discriminate.
Qed.
Print Assumptions c76_counting_refuted.
(** Without the condition on the other joins it is false (and the text mentions
    a table that is not there, C38). *)
Theorem c76_open_refuted : ~ (forall m, stmt_ok m -> by_groups m -> forall D, tableless D m -> forall l, answers D m l -> answers D (trimmed m) l).
Proof.
  intro H. destruct (H a3 ok3 ltac:(left; reflexivity) db) with (l := [([1], @nil nat)]) as (s & [_ S] & _ & E).
  - intros c g g' Hc E. repeat (destruct Hc as [<-|Hc]; [discriminate E|]). destruct Hc.
  - exists [([1], [])]. change (results db a3) with [([1], @nil nat); ([1], [])]. split; [split|split; [|reflexivity]].
    + repeat constructor. intros [].
    + intro x. cbn. tauto.
    + repeat constructor.
  - cbn in E. subst s. change (results db (trimmed a3)) with (@nil (list nat * list nat)) in S. exact (proj1 (S ([1], [])) (or_introl eq_refl)).
Qed.
Print Assumptions c76_open_refuted.
