(** Property C95: the answers of statements made of several queries.  The
    vocabulary is in Spec_views.v; the proofs are in Views_proofs.v. *)
From Coq Require Import Strings.String NArith ZArith List Bool Arith Sorting.Permutation Sorting.Sorted.
From Verif Require Import GoStr GoNum Syntax Value Util Model Sqlf Sqlb Spec_syntax RefSem Spec_build Spec_eval Spec_query Spec_sql Spec_nest Nest_proofs Spec_answer Spec_views Views_proofs.
Import ListNotations.
Open Scope string_scope.

(** C95: leaving out optional joins and common table expressions, in every query
    of a statement, changes no answer, on any database: if the common table
    expressions read by others are declared as their dependencies, those read by
    subqueries and united queries are used by the query itself, and every query
    meets the conditions of C76. *)
Theorem c95_same_answers : forall D sub_holds B d id, orderly D -> Forall xstmt_ok B -> Forall (declared B) B -> Forall (sensible D) B -> whole B d id ->
  forall l, answer D sub_holds (map lean B) d (d_rows D) id l <-> answer D sub_holds B d (d_rows D) id l.
Proof. exact (fun D sub_holds B d id Ho Hok Hd Hs => lean_answers D sub_holds Ho B Hok Hd Hs d (d_rows D) id). Qed.
Print Assumptions c95_same_answers.
(** There is an answer. *)
Theorem c95_answered : forall D sub_holds B d id, orderly D -> whole B d id -> exists l, answer D sub_holds B d (d_rows D) id l.
Proof. exact (fun D sub_holds B d id Ho => answer_exists D sub_holds Ho B d (d_rows D) id). Qed.
Print Assumptions c95_answered.
(** The text that is built is that of the statement without what is left out. *)
Theorem c95_question : forall B oss style d id, style <> style_dollar -> book oss B -> complete B d id -> used_once B d id ->
  exists qs, made oss qs /\ forall n, size_of B d id <= n ->
    fst (build_query n style qs (query id)) =
      ROk (text_of (map lean B) d id (map (fun _ => "?") (args_of (map lean B) d id)), args_of (map lean B) d id).
Proof. exact lean_question. Qed.
Print Assumptions c95_question.
Theorem c95_dollar : forall B oss d id, book oss B -> complete B d id -> used_once B d id -> forallb hashable (args_of (map lean B) d id) = true ->
  exists qs phs, made oss qs /\ Forall2 (dollar_denotes (firsts [] (args_of (map lean B) d id))) phs (args_of (map lean B) d id) /\
    forall n, size_of B d id <= n ->
      fst (build_query n style_dollar qs (query id)) = ROk (text_of (map lean B) d id phs, firsts [] (args_of (map lean B) d id)).
Proof. exact lean_dollar. Qed.
Print Assumptions c95_dollar.

(** A database: three users, the first with two orders. *)
Definition user (i : nat) : string -> nat := fun c => if String.eqb c "id" then i else 0.
Definition order (i u : nat) : string -> nat := fun c => if String.eqb c "id" then i else if String.eqb c "user_id" then u else 0.
Definition tables (t : string) : list (string -> nat) :=
  if String.eqb t "users" then [user 1; user 2; user 3] else if String.eqb t "orders" then [order 7 1; order 8 1] else [].
Definition db : database :=
  mkDB nat 0 Nat.eqb tables (fun a b => Nat.eqb a b && negb (Nat.eqb a 0)) (fun _ _ => true) (fun _ _ => 0) (fun _ _ _ => True) Nat.eqb_eq.
Definition is_in (op : string) (v : nat) (l : list (list nat)) : bool := existsb (fun r => match r with [x] => Nat.eqb x v | _ => false end) l.
Lemma db_orderly : orderly db.
Proof. intro os. split; [intros a b; left; exact I|intros a b c _ _; exact I]. Qed.

Definition one (c : col) (t : tname) : stmt := mkStmt false [c] t [] [] [] [] 0 0.
Definition leaf (c : col) (t : tname) : xstmt := mkX (one c t) [] [] [].
(** With active AS (SELECT u.id FROM users AS u) SELECT DISTINCT a.id FROM active AS a
    WHERE a.id IN (SELECT o.user_id FROM orders AS o); the optional join of the
    common table expression "recent" is left out, and so is the expression. *)
Definition y0 : xstmt :=
  mkX (mkStmt true [("a", "id")] ("active", "a") [mkJoin (JOptional false) ("recent", "r") ("a", "id") ("r", "user_id")] [] [] [] 0 0)
    [mkWith "recent" [] 1 false; mkWith "active" [] 2 true] [Sub ("a", "id") " IN " 3] [].
Definition y1 : xstmt := leaf ("o", "user_id") ("orders", "o").
Definition y2 : xstmt := leaf ("u", "id") ("users", "u").
Definition book1 : list xstmt := [y0; y1; y2; y1].
Lemma stmt_names : forall m, m_cols m <> [] -> table_ok (m_main m) = true -> forallb (fun j => table_ok (j_table j)) (m_joins m) = true -> NoDup (m_tables m) ->
  forallb (fun c => col_ok c && (is_empty (fst c) || existsb (String.eqb (fst c)) (m_tables m))) (m_used m) = true -> m_conds m = [] -> m_orders m = [] -> names_ok m.
Proof.
  intros m H1 H2 H3 H4 H5 H6 H7. unfold names_ok. rewrite H6, H7. repeat split; try assumption; try constructor.
  - rewrite Forall_forall. rewrite forallb_forall in H3. exact H3.
  - rewrite Forall_forall. rewrite forallb_forall in H5. intros c Hc. specialize (H5 c Hc). apply andb_prop in H5 as [A B]. split; [exact A|].
    apply orb_prop in B as [B|B]; [left; destruct (fst c); [reflexivity|discriminate B]|right]. apply existsb_exists in B as (y & Hy & E). apply String.eqb_eq in E. rewrite E. exact Hy.
Qed.
Lemma leaf_ok : forall c t, table_ok t = true -> col_ok c = true -> fst c = known_as t -> xstmt_ok (leaf c t).
Proof.
  intros c t Ht Hc E. split; [|split; [reflexivity|split; [constructor|split; [constructor|split]]]].
  - apply stmt_names; try reflexivity; [discriminate|exact Ht|constructor; [intros []|constructor]|]. cbn. rewrite Hc, E, String.eqb_refl. cbn. rewrite orb_true_r. reflexivity.
  - split; [constructor|]. right. split; intros w [].
  - intros j [].
Qed.
Lemma leaf_declared : forall B c t, declared B (leaf c t).
Proof. intros B c t. split; [intros d w v []|intros d id v []]. Qed.
Lemma leaf_sensible : forall c t, fst c <> "" -> sensible db (leaf c t).
Proof.
  intros c t H. split; [intros j i []|]. split; [left; reflexivity|]. intros x g g' Hx E. reflexivity.
Qed.
Lemma y0_needs : forall t, needs (x_stmt y0) [("a", "id")] t -> t = "a".
Proof.
  intros t H. induction H as [c Hc _|j c _ IH Hj _ _].
  - destruct Hc as [<-|[<-|[]]]; reflexivity.
  - destruct Hj as [<-|[]]. discriminate IH.
Qed.
Lemma y0_wanted : forall a, wanted y0 a -> a = "active".
Proof.
  intros a H. induction H as [t w T W N|w v _ IH W V Dp].
  - destruct T as [<-|[]]. exact N.
  - destruct W as [<-|[<-|[]]]; destruct Dp.
Qed.
Lemma y0_withs : withs_ok y0.
Proof.
  apply conj; [constructor; [intros [E|[]]; discriminate E|constructor; [intros []|constructor]]|]. right. apply conj.
  - intros w [<-|[<-|[]]] [H|[H|[]]]; discriminate H.
  - intros w [<-|[<-|[]]]; cbn [w_emitted w_name]; (split; [intro E|intro W]); [discriminate E|apply y0_wanted in W; discriminate W| |reflexivity].
    apply (wt_table y0 ("active", "a") (mkWith "active" [] 2 true)); [left; reflexivity|right; left; reflexivity|reflexivity].
Qed.
Lemma y0_ok : xstmt_ok y0.
Proof.
  split; [|split; [reflexivity|split; [|split; [|split; [exact y0_withs|]]]]].
  - apply stmt_names; try reflexivity; [discriminate|]. constructor; [intros [E|[]]; discriminate E|constructor; [intros []|constructor]].
  - constructor; [split; reflexivity|constructor].
  - constructor; [right; left; reflexivity|constructor].
  - intros j [<-|[]]. split; [discriminate|]. intro H. specialize (H eq_refl). apply y0_needs in H. discriminate H.
Qed.
Lemma book1_ok : Forall xstmt_ok book1.
Proof. constructor; [exact y0_ok|]. do 3 (constructor; [apply leaf_ok; reflexivity|]). constructor. Qed.
Lemma book1_reads : forall d id a, In a (reads book1 d id) -> id <> 0 -> a = "orders" \/ a = "users".
Proof.
  intros [|d] id a H N; [destruct H|]. destruct id as [|[|[|[|id]]]]; [congruence|..]; cbn in H; try (destruct H as [<-|[]]; auto). destruct id; destruct H.
Qed.
Lemma book1_declared : Forall (declared book1) book1.
Proof.
  constructor; [|do 3 (constructor; [apply leaf_declared|]); constructor]. split.
  - intros d w v Hw Hv Hr. apply book1_reads in Hr; [|destruct Hw as [<-|[<-|[]]]; discriminate]. destruct Hv as [<-|[<-|[]]]; destruct Hr as [E|E]; discriminate E.
  - intros d id v Hw Hv Hr. apply book1_reads in Hr; [|destruct Hw as [<-|[]]; discriminate]. destruct Hv as [<-|[<-|[]]]; destruct Hr as [E|E]; discriminate E.
Qed.
Lemma book1_sensible : Forall (sensible db) book1.
Proof.
  constructor; [|do 3 (constructor; [apply leaf_sensible; discriminate|]); constructor]. split; [intros j i [<-|[]] _ []|]. split; [left; reflexivity|]. intros x g g' Hx E. reflexivity.
Qed.
Lemma book1_whole : whole book1 2 0.
Proof. intros j Hj. cbn in Hj. destruct Hj as [<-|[<-|[<-|[]]]]; intros i []. Qed.
Definition calls1 : list (list qop) :=
  [[OWith "recent" (query 1) []; OWith "active" (query 2) []; ODistinct; OSelect [column "a" "id"]; OFrom ("active", "a");
    OLeftJoinOptional ("recent", "r") (Some (Ff "#f1=#f2" [column "a" "id"; column "r" "user_id"])); OWhere (Some (Ff "#f1 IN (#f2)" [column "a" "id"; query 3]))];
   [OSelect [column "o" "user_id"]; OFrom ("orders", "o")]; [OSelect [column "u" "id"]; OFrom ("users", "u")]; [OSelect [column "o" "user_id"]; OFrom ("orders", "o")]].
Lemma book1_calls : book calls1 book1.
Proof.
  constructor; [split; [exact y0_ok|unfold xdescribes; repeat (split; [reflexivity|]); reflexivity]|].
  do 3 (constructor; [split; [apply leaf_ok; reflexivity|unfold xdescribes; repeat (split; [reflexivity|]); reflexivity]|]). constructor.
Qed.
Lemma leaf_answer : forall B d E id c t rs, nth_error B id = Some (leaf c t) -> map (fun r => [col_value (with_rows db E) [bind (with_rows db E) (known_as t) r (no_rows (with_rows db E))] c]) (E (fst t)) = rs ->
  answer db is_in B (S d) E id rs.
Proof.
  intros B d E id c t rs Hn <-. cbn [answer]. rewrite Hn. exists E, [], (map (fun r => ([col_value (with_rows db E) [bind (with_rows db E) (known_as t) r (no_rows (with_rows db E))] c], [])) (E (fst t))), [].
  split; [reflexivity|]. split; [constructor|]. split.
  - eexists. split; [|split; [|reflexivity]].
    + change (Permutation ?a ?b) with (Permutation a b). cbn [m_distinct leaf x_stmt one]. unfold results_where, groups_of, where_rows, from_rows. cbn [m_groups m_cols m_orders m_joins m_main leaf x_stmt one fold_left forallb map]. change (d_rows (with_rows db E)) with E.
      match goal with |- Permutation ?a ?b => replace b with a; [apply Permutation_refl|] end.
      induction (E (fst t)) as [|r rs IH]; [reflexivity|]. cbn [map filter]. f_equal. exact IH.
    + induction (E (fst t)) as [|r rs IH]; constructor; [exact IH|]. apply Forall_forall. intros x _. exact I.
  - split; [constructor|]. cbn [together]. rewrite map_map. reflexivity.
Qed.
Example c95_example : orderly db /\ Forall xstmt_ok book1 /\ Forall (declared book1) book1 /\ Forall (sensible db) book1 /\ whole book1 2 0 /\
  book calls1 book1 /\ complete book1 2 0 /\ used_once book1 2 0 /\ map lean book1 <> book1 /\
  text_of (map lean book1) 2 0 [] =
    "With active AS (SELECT u.id FROM users AS u) SELECT DISTINCT a.id FROM active AS a WHERE a.id IN (SELECT o.user_id FROM orders AS o)" /\
  answer db is_in book1 2 (d_rows db) 0 [[1]].
Proof.
  split; [exact db_orderly|]. split; [exact book1_ok|]. split; [exact book1_declared|]. split; [exact book1_sensible|]. split; [exact book1_whole|].
  split; [exact book1_calls|]. split; [intros j Hj; cbn in Hj; destruct Hj as [<-|[<-|[]]]; intros i []|]. split; [constructor|]. split; [discriminate|]. split; [vm_compute; reflexivity|].
  cbn [answer]. change (nth_error book1 0) with (Some y0). cbn [x_withs x_conds x_unions y0].
  exists (bind_table db "active" (map (named db ["id"]) [[1]; [2]; [3]]) (bind_table db "recent" (map (named db ["user_id"]) [[1]; [1]]) tables)).
  exists [(("a", "id"), fun v => is_in " IN " v [[1]; [1]])], [([1], [])], [].
  split.
  - cbn [with_tables]. exists [[1]; [1]]. split; [apply (leaf_answer book1 0 _ 1 ("o", "user_id") ("orders", "o")); reflexivity|].
    exists [[1]; [2]; [3]]. split; [apply (leaf_answer book1 0 _ 2 ("u", "id") ("users", "u")); reflexivity|]. reflexivity.
  - split; [constructor; [|constructor]; exists [[1]; [1]]; split; [apply (leaf_answer book1 0 _ 3 ("o", "user_id") ("orders", "o")); reflexivity|reflexivity]|].
    split; [|split; [constructor|reflexivity]]. exists [([1], [])]. split; [|split; [repeat constructor|reflexivity]].
    match goal with |- context [results_where ?D ?m ?ts] => replace (results_where D m ts) with [([1], @nil nat); ([1], [])] by (vm_compute; reflexivity) end.
    split; [constructor; [intros []|constructor]|]. intro x. cbn. tauto.
Qed.

(** Without the condition on what united queries read it is false: the common
    table expression is left out although it is read.
    With v AS (SELECT u.id FROM users AS u) SELECT o.id FROM orders AS o UNION (SELECT v.id FROM v) *)
Definition u0 : xstmt := mkX (one ("o", "id") ("orders", "o")) [mkWith "v" [] 1 false] [] [2].
Definition book2 : list xstmt := [u0; leaf ("u", "id") ("users", "u"); leaf ("v", "id") ("v", "")].
Lemma u0_ok : xstmt_ok u0.
Proof.
  split; [|split; [reflexivity|split; [constructor|split; [constructor|split]]]].
  - apply stmt_names; try reflexivity; [discriminate|]. constructor; [intros []|constructor].
  - split; [constructor; [intros []|constructor]|]. right. split; [intros w [<-|[]] [E|[]]; discriminate E|]. intros w [<-|[]]. split; [discriminate|]. intro W.
    inversion W as [t w T Hw N E|w v W' Hw Hv Dp E]; subst; [destruct T as [<-|[]]; destruct Hw as [<-|[]]; discriminate N|destruct Hw as [<-|[]]; destruct Dp].
  - intros j [].
Qed.
Theorem c95_undeclared_refuted : ~ (forall D sub_holds B d id, orderly D -> Forall xstmt_ok B -> Forall (sensible D) B -> whole B d id ->
  forall l, answer D sub_holds (map lean B) d (d_rows D) id l -> answer D sub_holds B d (d_rows D) id l).
Proof.
  intro H. assert (A : answer db is_in book2 2 (d_rows db) 0 [[7]; [8]]).
  { apply H; [exact db_orderly|constructor; [exact u0_ok|do 2 (constructor; [apply leaf_ok; reflexivity|]); constructor]| | |].
    - constructor; [split; [intros j i []|split; [left; reflexivity|intros x g g' Hx E; reflexivity]]|]. do 2 (constructor; [apply leaf_sensible; discriminate|]). constructor.
    - intros j Hj. cbn in Hj. destruct Hj as [<-|[<-|[]]]; intros i [].
    - cbn [answer]. change (nth_error (map lean book2) 0) with (Some (lean u0)). exists tables, [], [([7], []); ([8], [])], [[]].
      split; [reflexivity|]. split; [constructor|]. split; [|split].
      + exists [([7], []); ([8], [])]. split; [vm_compute; apply Permutation_refl|]. split; [repeat constructor|reflexivity].
      + constructor; [|constructor]. apply (leaf_answer (map lean book2) 0 _ 2 ("v", "id") ("v", "")); reflexivity.
      + split; [repeat constructor; cbn; intuition discriminate|]. intro v. split; [intro Hv; exists [[7]; [8]]; split; [left; reflexivity|exact Hv]|].
        intros (a & [<-|[<-|[]]] & Hv); [exact Hv|destruct Hv]. }
  cbn [answer] in A. change (nth_error book2 0) with (Some u0) in A. destruct A as (E' & ts & a & us & (b & Hb & W) & T & _ & U & O).
  inversion U as [|? r ? r' Hr U']; subst. inversion U'; subst. cbn [together] in O. destruct O as [_ O].
  assert (P : forall E c t x, answer db is_in book2 1 E 1 x -> E = d_rows db -> c = ("u", "id") -> t = ("users", "u") -> In [1] x).
  { intros E c t x K -> _ _. cbn in K. destruct K as (E2 & ts2 & a2 & us2 & -> & T2 & (s & K1 & _ & ->) & U2 & O2). inversion T2; subst. inversion U2; subst. cbn [together] in O2. subst x.
    apply in_map_iff. exists ([1], []). split; [reflexivity|]. apply (Permutation_in _ (Permutation_sym K1)). vm_compute. auto. }
  specialize (P _ ("u", "id") ("users", "u") b Hb eq_refl eq_refl eq_refl). cbn [with_tables u0 x_withs] in W. subst E'.
  assert (Q : In [1] r).
  { cbn in Hr. destruct Hr as (E2 & ts2 & a2 & us2 & -> & T2 & (s & K1 & _ & ->) & U2 & O2). inversion T2; subst. inversion U2; subst. cbn [together] in O2. subst r.
    apply in_map_iff. exists ([1], []). split; [reflexivity|]. apply (Permutation_in _ (Permutation_sym K1)). unfold results_where, groups_of, where_rows, from_rows. cbn [m_groups m_cols m_orders m_joins m_main leaf x_stmt one fold_left forallb map].
    apply in_split in P as (p1 & p2 & ->). cbn. unfold bind_table. cbn [String.eqb Ascii.eqb Bool.eqb fst]. rewrite !map_app. cbn [map]. rewrite filter_app. cbn [filter]. rewrite !map_app. cbn [map].
    apply in_or_app. right. left. reflexivity. }
  assert (N : In [1] [[7]; [8]]) by (apply O; exists r; split; [right; left; reflexivity|exact Q]). cbn in N. intuition discriminate.
Qed.
Print Assumptions c95_undeclared_refuted.
