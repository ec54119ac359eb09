(** Property C124: Distinct and OrderBy in queries that are united change nothing.  The
    vocabulary is in Spec_undistinct.v; the proofs are in Undistinct_proofs.v. *)
From Coq Require Import Strings.String Strings.Ascii NArith ZArith List Bool Lia Sorting.Permutation Sorting.Sorted.
From Verif Require Import GoStr GoNum Syntax Value Util Model Sqlf Sqlb Spec_syntax RefSem Spec_build Spec_util Spec_eval Spec_query Spec_sql Spec_nest Spec_interp Spec_answer Spec_views
  Nexec_proofs Undistinct_proofs Prop_exec Prop_nexec Prop_reunite Spec_sqltok Spec_read Spec_nread Spec_exec Spec_nexec Spec_undistinct.
Import ListNotations.
Open Scope string_scope.

(** C124: executing gives the same answers with and without Distinct or OrderBy in
    queries that have unions or are nothing but united, without the other of the
    two and without bounds. *)
Theorem c124_question : forall B B' oss oss' style d id, style <> style_dollar -> book oss B -> book oss' B' -> Forall xnamed B -> Forall xnamed B' -> complete B d id -> used_once B d id -> used_once B' d id ->
  redistinct_book B B' -> kept B B' id ->
  exists qs qs', made oss qs /\ made oss' qs' /\ forall n, size_of B d id <= n -> size_of B' d id <= n -> exists s args s' args',
    fst (build_query n style qs (query id)) = ROk (s, args) /\ fst (build_query n style qs' (query id)) = ROk (s', args') /\
    forall E sub_test rows, orderly (database_of E) -> executes_all E sub_test args s rows <-> executes_all E sub_test args' s' rows.
Proof. exact undistinct_question. Qed.
Print Assumptions c124_question.
Theorem c124_dollar : forall B B' oss oss' d id, book oss B -> book oss' B' -> Forall xnamed B -> Forall xnamed B' -> complete B d id -> used_once B d id -> used_once B' d id ->
  redistinct_book B B' -> kept B B' id -> forallb hashable (args_of B d id) = true ->
  exists qs qs', made oss qs /\ made oss' qs' /\ forall n, size_of B d id <= n -> size_of B' d id <= n -> exists s args s' args',
    fst (build_query n style_dollar qs (query id)) = ROk (s, args) /\ fst (build_query n style_dollar qs' (query id)) = ROk (s', args') /\
    forall E sub_test rows, by_value E -> orderly (database_of E) -> executes_all E sub_test args s rows <-> executes_all E sub_test args' s' rows.
Proof. exact undistinct_dollar. Qed.
Print Assumptions c124_dollar.

(** Two united queries, with Distinct in the one or in the other. *)
Definition high (d : bool) (us : list nat) : xstmt := mkX (mkStmt d [("o", "total")] ("orders", "o") [] [] [] [] 0 0) [] [above ("o", "total") 100] us.
Definition buyers (d : bool) (n : Z) : xstmt := mkX (mkStmt d [("o", "user")] ("orders", "o") [] [] [] [] n 0) [] [] [].
Definition calls_high (d d' : bool) (n : Z) : list (list qop) :=
  [((if d then [ODistinct] else []) ++ calls_of ("o", "total") ("orders", "o") ("o", "total") 100 ++ [OUnion [query 1]])%list;
   ((if d' then [ODistinct] else []) ++ [OSelect [column "o" "user"]; OFrom ("orders", "o"); OLimit n])%list].
Lemma high_book : forall d d' n, n = 0%Z \/ n = 2%Z -> book (calls_high d d' n) [high d [1]; buyers d' n].
Proof.
  assert (N : forall d c n, col_ok c = true -> fst c = "o" -> names_ok (mkStmt d [c] ("orders", "o") [] [] [] [] n 0)).
  { intros d c n Hc K. apply conj; [discriminate|]. apply conj; [reflexivity|]. apply conj; [constructor|]. apply conj; [constructor; [intros []|constructor]|].
    apply conj; [constructor; [split; [exact Hc|right; left; symmetry; exact K]|constructor]|]. apply conj; constructor. }
  intros d d' n Hn. constructor; [split|constructor; [split|constructor]].
  - split; [apply N; reflexivity|]. split; [reflexivity|]. split; [constructor; [split; reflexivity|constructor]|]. split; [constructor; [right; left; reflexivity|constructor]|].
    split; [split; [constructor|left; split; [intros j []|intros w []]]|]. intros j [].
  - destruct d; unfold xdescribes; repeat (split; [reflexivity|]); reflexivity.
  - split; [apply N; reflexivity|]. split; [reflexivity|]. split; [constructor|]. split; [constructor|].
    split; [split; [constructor|left; split; [intros j []|intros w []]]|]. intros j [].
  - destruct d', Hn as [-> | ->]; unfold xdescribes; repeat (split; [reflexivity|]); reflexivity.
Qed.
Lemma high_named : forall d d' n, Forall xnamed [high d [1]; buyers d' n].
Proof. intros d d' n. repeat (constructor; [is_xnamed|]); constructor. Qed.
Lemma high_complete : forall d d' n, complete [high d [1]; buyers d' n] 2 0.
Proof. intros d d' n j Hj. cbn in Hj. destruct Hj as [<-|[]]. intros i []. Qed.
Lemma high_once : forall d d' n, used_once [high d [1]; buyers d' n] 2 0.
Proof. intros [] [] n; constructor. Qed.
Example c124_example :
  let B := [high false [1]; buyers true 0] in let B' := [high true [1]; buyers false 0] in
  book (calls_high false true 0) B /\ book (calls_high true false 0) B' /\ Forall xnamed B /\ Forall xnamed B' /\ complete B 2 0 /\ used_once B 2 0 /\ used_once B' 2 0 /\
  redistinct_book B B' /\ kept B B' 0 /\ forallb hashable (args_of B 2 0) = true /\ orderly (database_of engine1) /\
  (exists qs, made (calls_high false true 0) qs /\ fst (build_query 60 style_question qs (query 0)) =
    ROk ("SELECT o.total FROM orders AS o WHERE o.total>? UNION (SELECT DISTINCT o.user FROM orders AS o)", [VInt "int" 100])) /\
  (exists qs, made (calls_high true false 0) qs /\ fst (build_query 60 style_question qs (query 0)) =
    ROk ("SELECT DISTINCT o.total FROM orders AS o WHERE o.total>? UNION (SELECT o.user FROM orders AS o)", [VInt "int" 100])).
Proof.
  cbv zeta. apply conj; [apply high_book; auto|]. apply conj; [apply high_book; auto|]. apply conj; [apply high_named|]. apply conj; [apply high_named|]. apply conj; [apply high_complete|]. apply conj; [apply high_once|]. apply conj; [apply high_once|].
  apply conj; [split; [repeat (constructor; [split; [reflexivity|split; [reflexivity|split; [reflexivity|right; left; repeat split]]]|]); constructor|]|].
  { intros x i [<-|[<-|[]]] [H|(c & o & H)]; cbn in H; repeat (destruct H as [H|H]; [discriminate H|]); destruct H. }
  apply conj; [right; discriminate|]. apply conj; [reflexivity|]. apply conj; [exact down_orderly|].
  split; eexists; (split; [repeat (constructor; [cbv; reflexivity|]); constructor|vm_compute; reflexivity]).
Qed.

(** The united query with and without an order. *)
Definition sorted_buyers : xstmt := mkX (mkStmt false [("o", "user")] ("orders", "o") [] [] [] [(("o", "total"), 3%N)] 0 0) [] [] [].
Definition calls_sorted : list (list qop) := [hd [] (calls_high false false 0); [OSelect [column "o" "user"]; OFrom ("orders", "o"); OOrderBy (column "o" "total") 3]].
Example c124_orders_example :
  let B := [high false [1]; sorted_buyers] in let B' := [high false [1]; buyers false 0] in
  book calls_sorted B /\ book (calls_high false false 0) B' /\ Forall xnamed B /\ Forall xnamed B' /\ complete B 2 0 /\ used_once B 2 0 /\ used_once B' 2 0 /\
  redistinct_book B B' /\ kept B B' 0 /\ forallb hashable (args_of B 2 0) = true /\
  (exists qs, made calls_sorted qs /\ fst (build_query 60 style_question qs (query 0)) =
    ROk ("SELECT o.total FROM orders AS o WHERE o.total>? UNION (SELECT o.user FROM orders AS o ORDER BY o.total DESC)", [VInt "int" 100])).
Proof.
  cbv zeta. pose proof (high_book false false 0 (or_introl eq_refl)) as H0.
  apply conj. { inversion_clear H0 as [|? ? ? ? H1 _]. constructor; [exact H1|]. constructor; [split|constructor].
    - split; [|split; [reflexivity|split; [constructor|split; [constructor|split; [split; [constructor|left; split; [intros j []|intros w []]]|intros j []]]]]].
      apply conj; [discriminate|]. apply conj; [reflexivity|]. apply conj; [constructor|]. apply conj; [constructor; [intros []|constructor]|].
      apply conj; [cbn; repeat (constructor; [split; [reflexivity|right; left; reflexivity]|]); constructor|]. apply conj; repeat constructor; cbn; lia.
    - unfold xdescribes; repeat (split; [reflexivity|]); reflexivity. }
  apply conj; [exact H0|].
  apply conj. { pose proof (high_named false false 0) as N. inversion_clear N as [|? ? N1 _]. constructor; [exact N1|]. constructor; [|constructor]. split; [|split; [reflexivity|split; constructor]].
    apply conj; [discriminate|]; apply conj; [repeat (constructor; [is_col|]); constructor|]; apply conj; [split; [is_name|right; is_name]|].
    apply conj; [constructor|]; apply conj; [constructor|]; apply conj; [constructor|]. constructor; [split; [is_col|cbn; lia]|constructor]. }
  apply conj; [apply high_named|]. apply conj; [intros j Hj; cbn in Hj; destruct Hj as [<-|[]]; intros i []|]. apply conj; [constructor|]. apply conj; [apply high_once|].
  apply conj; [split; [constructor; [repeat (split; [reflexivity|]); left; reflexivity|constructor; [repeat (split; [reflexivity|]); right; right; repeat split|constructor]]|]|].
  { intros x i [<-|[<-|[]]] [H|(c & o & H)]; cbn in H; repeat (destruct H as [H|H]; [discriminate H|]); destruct H. }
  apply conj; [left; reflexivity|]. apply conj; [reflexivity|].
  eexists; (split; [repeat (constructor; [cbv; reflexivity|]); constructor|vm_compute; reflexivity]).
Qed.

(** With bounds it can matter: two of the users of the orders may be the same
    user, but not with Distinct. *)
Theorem c124_limit_refuted :
  let B := [high false [1]; buyers false 2] in let B' := [high false [1]; buyers true 2] in
  book (calls_high false false 2) B /\ book (calls_high false true 2) B' /\ Forall xnamed B /\ Forall xnamed B' /\ complete B 2 0 /\ used_once B 2 0 /\ used_once B' 2 0 /\ kept B B' 0 /\
  exists qs qs' s args s' args', made (calls_high false false 2) qs /\ made (calls_high false true 2) qs' /\
    fst (build_query 60 style_question qs (query 0)) = ROk (s, args) /\ fst (build_query 60 style_question qs' (query 0)) = ROk (s', args') /\
    executes_all engine1 among args s [[1%Z]] /\ ~ executes_all engine1 among args' s' [[1%Z]].
Proof.
  cbv zeta. apply conj; [apply high_book; auto|]. apply conj; [apply high_book; auto|]. apply conj; [apply high_named|]. apply conj; [apply high_named|]. apply conj; [apply high_complete|]. apply conj; [apply high_once|]. apply conj; [apply high_once|].
  apply conj; [left; reflexivity|].
  destruct (nexec_question _ _ style_question 2 0 ltac:(discriminate) (high_book false false 2 (or_intror eq_refl)) (high_named _ _ _) (high_complete _ _ _) (high_once _ _ _)) as (qs & A & H).
  destruct (nexec_question _ _ style_question 2 0 ltac:(discriminate) (high_book false true 2 (or_intror eq_refl)) (high_named _ _ _) (high_complete _ _ _) (high_once _ _ _)) as (qs' & A' & H').
  destruct (H 60 ltac:(vm_compute; lia)) as (s & args & R & I). destruct (H' 60 ltac:(vm_compute; lia)) as (s' & args' & R' & I').
  exists qs, qs', s, args, s', args'. apply conj; [exact A|]. apply conj; [exact A'|]. apply conj; [exact R|]. apply conj; [exact R'|]. rewrite I, I'. split.
  - exists (d_rows numbers). eexists. exists [], [[[1%Z]; [1%Z]]]. split; [reflexivity|]. split; [constructor; [reflexivity|constructor]|].
    split; [exists []; split; [apply Permutation_refl|split; [constructor|reflexivity]]|].
    split; [|split; [repeat constructor; cbn; intuition discriminate|]].
    + constructor; [|constructor]. exists (d_rows numbers), [], [([1%Z], []); ([1%Z], [])], []. split; [reflexivity|]. split; [constructor|]. split; [|split; [constructor|reflexivity]].
      exists [([1%Z], []); ([1%Z], []); ([2%Z], [])]. split; [vm_compute; apply perm_skip, perm_swap|]. split; [repeat constructor|reflexivity].
    + intro v. split; [intros [<-|[]]; exists [[1%Z]; [1%Z]]; cbn; tauto|intros (a & [<-|[<-|[]]] & G); cbn in G; cbn; tauto].
  - intros (E' & ts & a & us & W & T & (z & P & _ & L) & U & G). cbn in W. subst E'. inversion U as [|? u ? us' Hu U' E3 E4]. subst us. inversion U'. subst us'. destruct G as (_ & G).
    destruct Hu as (E' & ts' & a' & us & W' & T5 & (y & (N & M) & _ & L') & U5 & J). inversion U5. subst us. inversion T5. subst ts'. cbn in W'. subst E'. cbn in J. subst u.
    vm_compute in M. assert (Y : In ([2%Z], []) y) by (apply M; cbn; tauto).
    assert (Q : List.length y <= 2). { apply (NoDup_incl_length N (l' := [([1%Z], []); ([2%Z], [])])). intros r Hr. apply M in Hr. cbn in Hr. cbn. tauto. }
    assert (K : cut (x_stmt (lean (buyers true 2))) y = y) by exact (firstn_all2 y Q). rewrite K in L'. subst a'.
    assert (F : In [2%Z] [[1%Z]]). { apply G. eexists. split; [right; left; reflexivity|]. apply in_map_iff. exists ([2%Z], []). split; [reflexivity|exact Y]. }
    destruct F as [F|[]]. discriminate F.
Qed.
Print Assumptions c124_limit_refuted.
