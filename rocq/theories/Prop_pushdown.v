(** Property C126: conditions on the columns of a common table expression can be
    put into its query.  The vocabulary is in Spec_pushdown.v and Spec_inline.v;
    the proofs are in Pushdown_proofs.v. *)
From Coq Require Import Strings.String Strings.Ascii NArith ZArith List Bool Lia Sorting.Permutation Sorting.Sorted.
From Verif Require Import GoStr GoNum Syntax Value Util Model Sqlf Sqlb Spec_syntax RefSem Spec_build Spec_util Spec_eval Spec_query Spec_sql Spec_nest Spec_interp Spec_answer Spec_views
  Nread2_proofs Nexec_proofs Pushdown_proofs Prop_exec Prop_nexec Spec_sqltok Spec_read Spec_nread Spec_exec Spec_nexec Spec_inline Spec_pushdown.
Import ListNotations.
Open Scope string_scope.

(** C126: executing a query that selects all columns of a common table expression
    under conditions gives the answers of the query of the common table expression
    with these conditions added to its own. *)
Theorem c126_question : forall B oss style d id i k w a, style <> style_dollar -> book oss B -> Forall xnamed B -> complete B (S (S d)) id -> used_once B (S (S d)) id -> used_once B (S d) k -> pushes B id i k w a ->
  exists qs, made oss qs /\ forall n, size_of B (S (S d)) id <= n -> size_of B (S d) k <= n -> exists s args s' args',
    fst (build_query n style qs (query id)) = ROk (s, args) /\ fst (build_query n style qs (query k)) = ROk (s', args') /\
    forall E sub_test rows, orderless E -> executes_all E sub_test args s rows <-> executes_all E sub_test args' s' rows.
Proof. exact push_question. Qed.
Print Assumptions c126_question.
Theorem c126_dollar : forall B oss d id i k w a, book oss B -> Forall xnamed B -> complete B (S (S d)) id -> used_once B (S (S d)) id -> used_once B (S d) k -> pushes B id i k w a -> forallb hashable (args_of B (S d) k) = true ->
  exists qs, made oss qs /\ forall n, size_of B (S (S d)) id <= n -> size_of B (S d) k <= n -> exists s args s' args',
    fst (build_query n style_dollar qs (query id)) = ROk (s, args) /\ fst (build_query n style_dollar qs (query k)) = ROk (s', args') /\
    forall E sub_test rows, by_value E -> orderless E -> executes_all E sub_test args s rows <-> executes_all E sub_test args' s' rows.
Proof. exact push_dollar. Qed.
Print Assumptions c126_dollar.

(** Orders of more than 5, and among them those of the users after the first. *)
Definition cols_big : list col := [("o", "user"); ("o", "total")].
Definition big_orders (cs : list xcond) (n : Z) : xstmt := mkX (mkStmt false cols_big ("orders", "o") [] [] [] [] n 0) [] cs [].
Definition from_big (x : xcond) : xstmt := mkX (mkStmt false [("b", "user"); ("b", "total")] ("big", "b") [] [] [] [] 0 0) [mkWith "big" [] 1 true] [x] [].
Definition big_calls (cs : list xcond) (n : Z) : list qop := ([OSelect [column "o" "user"; column "o" "total"]; OFrom ("orders", "o"); OLimit n] ++ map xcond_call cs)%list.
Definition from_calls (x : xcond) : list qop := [OWith "big" (query 1) []; OSelect [column "b" "user"; column "b" "total"]; OFrom ("big", "b"); xcond_call x].
Definition book_of (x x' : xcond) (cs : list xcond) (n : Z) : list xstmt := [from_big x; big_orders cs n; big_orders (cs ++ [x'])%list n].
Definition book_calls (x x' : xcond) (cs : list xcond) (n : Z) : list (list qop) := [from_calls x; big_calls cs n; big_calls (cs ++ [x'])%list n].
Definition usual (x : xcond) : Prop := x = above ("o", "user") 1 \/ x = above ("o", "total") 5 \/ x = above ("o", "total") 20.
Lemma big_ok : forall cs n, Forall usual cs -> xstmt_ok (big_orders cs n).
Proof.
  intros cs n F. split; [|split; [reflexivity|split; [eapply Forall_impl; [|exact F]; intros x [-> |[-> | ->]]; split; reflexivity|split; [eapply Forall_impl; [|exact F]; intros x [-> |[-> | ->]]; right; left; reflexivity|
    split; [split; [constructor|left; split; [intros j []|intros v []]]|intros j []]]]]].
  apply conj; [discriminate|]. apply conj; [reflexivity|]. apply conj; [constructor|]. apply conj; [constructor; [intros []|constructor]|].
  apply conj; [repeat (constructor; [split; [reflexivity|right; left; reflexivity]|]); constructor|]. apply conj; constructor.
Qed.
Lemma from_ok : forall x, x = above ("b", "user") 1 \/ x = above ("b", "total") 20 -> xstmt_ok (from_big x).
Proof.
  intros x H. split; [|split; [reflexivity|split; [destruct H as [-> | ->]; repeat constructor|split; [destruct H as [-> | ->]; (constructor; [right; left; reflexivity|constructor])|
    split; [split; [constructor; [intros []|constructor]|left; split; [intros j []|intros v [<-|[]]; split; [reflexivity|exists ("big", "b"); split; [left; reflexivity|reflexivity]]]]|intros j []]]]]].
  apply conj; [discriminate|]. apply conj; [reflexivity|]. apply conj; [constructor|]. apply conj; [constructor; [intros []|constructor]|].
  apply conj; [repeat (constructor; [split; [reflexivity|right; left; reflexivity]|]); constructor|]. apply conj; constructor.
Qed.
Example c126_example :
  let B := book_of (above ("b", "user") 1) (above ("o", "user") 1) [above ("o", "total") 5] 0 in let oss := book_calls (above ("b", "user") 1) (above ("o", "user") 1) [above ("o", "total") 5] 0 in
  book oss B /\ Forall xnamed B /\ complete B 2 0 /\ used_once B 2 0 /\ used_once B 1 2 /\ pushes B 0 1 2 "big" "b" /\ forallb hashable (args_of B 1 2) = true /\ orderless engine1 /\
  (exists qs, made oss qs /\
    fst (build_query 60 style_question qs (query 0)) = ROk ("With big AS (SELECT o.user, o.total FROM orders AS o WHERE o.total>?) SELECT b.user, b.total FROM big AS b WHERE b.user>?", map (VInt "int") [5; 1]%Z) /\
    fst (build_query 60 style_question qs (query 2)) = ROk ("SELECT o.user, o.total FROM orders AS o WHERE o.total>? AND o.user>?", map (VInt "int") [5; 1]%Z)).
Proof.
  cbv zeta. apply conj.
  { constructor; [split; [apply from_ok; auto|unfold xdescribes; repeat (split; [reflexivity|]); reflexivity]|].
    constructor; [split; [apply big_ok; unfold usual; repeat (constructor; [tauto|]); constructor|unfold xdescribes; repeat (split; [reflexivity|]); reflexivity]|].
    constructor; [split; [apply big_ok; unfold usual; repeat (constructor; [tauto|]); constructor|unfold xdescribes; repeat (split; [reflexivity|]); reflexivity]|constructor]. }
  apply conj; [unfold book_of; repeat (constructor; [is_xnamed|]); constructor|].
  apply conj; [intros j [<-|[]]; intros i []|]. apply conj; [constructor|]. apply conj; [constructor|].
  apply conj. { split; [discriminate|]. exists (mkStmt false cols_big ("orders", "o") [] [] [] [] 0 0), [], [above ("o", "total") 5], [(("o", "user"), Compare ("o", "user") ">" (VInt "int" 1))], [].
    repeat (split; [reflexivity|]). split; [repeat (constructor; [cbn; intuition discriminate|]); constructor|]. split; [intros c x [H|[]]; injection H as <- <-; left; reflexivity|]. repeat split. }
  apply conj; [reflexivity|]. apply conj; [intros x y; exact I|].
  eexists. split; [repeat (constructor; [cbv; reflexivity|]); constructor|]. split; vm_compute; reflexivity.
Qed.

(** Not so with a limit: the first order need not be one of more than 20, but the
    first order of more than 20 is. *)
Theorem c126_limit_refuted :
  let B := book_of (above ("b", "total") 20) (above ("o", "total") 20) [] 1 in let oss := book_calls (above ("b", "total") 20) (above ("o", "total") 20) [] 1 in
  book oss B /\ Forall xnamed B /\ complete B 2 0 /\ used_once B 2 0 /\ used_once B 1 2 /\ orderless engine1 /\
  exists qs s args s' args', made oss qs /\
    fst (build_query 60 style_question qs (query 0)) = ROk (s, args) /\ fst (build_query 60 style_question qs (query 2)) = ROk (s', args') /\
    executes_all engine1 among args s [] /\ ~ executes_all engine1 among args' s' [].
Proof.
  cbv zeta. set (B := book_of _ _ _ _). set (oss := book_calls _ _ _ _).
  assert (Hb : book oss B).
  { constructor; [split; [apply from_ok; auto|unfold xdescribes; repeat (split; [reflexivity|]); reflexivity]|].
    constructor; [split; [apply big_ok; unfold usual; repeat (constructor; [tauto|]); constructor|unfold xdescribes; repeat (split; [reflexivity|]); reflexivity]|].
    constructor; [split; [apply big_ok; unfold usual; repeat (constructor; [tauto|]); constructor|unfold xdescribes; repeat (split; [reflexivity|]); reflexivity]|constructor]. }
  assert (N : Forall xnamed B) by (unfold B, book_of; repeat (constructor; [is_xnamed|]); constructor).
  assert (C : complete B 2 0) by (intros j [<-|[]]; intros i []). assert (C' : complete B 1 2) by (intros i []).
  assert (U : used_once B 2 0) by constructor. assert (U' : used_once B 1 2) by constructor.
  apply conj; [exact Hb|]. apply conj; [exact N|]. apply conj; [exact C|]. apply conj; [exact U|]. apply conj; [exact U'|]. apply conj; [intros x y; exact I|].
  destruct (nexec_question B oss style_question 2 0 ltac:(discriminate) Hb N C U) as (qs & A & H). destruct (nexec_question B oss style_question 1 2 ltac:(discriminate) Hb N C' U') as (qs' & A' & H').
  rewrite (made_unique _ _ _ A' A) in H'. destruct (H 60 ltac:(vm_compute; lia)) as (s & args & R & Q). destruct (H' 60 ltac:(vm_compute; lia)) as (s' & args' & R' & Q').
  exists qs, s, args, s', args'. apply conj; [exact A|]. apply conj; [exact R|]. apply conj; [exact R'|]. rewrite Q, Q'. split.
  - exists (bind_table numbers "big" (map (Spec_views.named numbers ["user"; "total"]) [[1%Z; 5%Z]]) (d_rows numbers)). eexists. exists [], []. split; [|split; [constructor; [reflexivity|constructor]|split; [exists []; split; [vm_compute; constructor|split; [constructor|reflexivity]]|split; [constructor|reflexivity]]]].
    exists [[1%Z; 5%Z]]. split; [|reflexivity]. exists (d_rows numbers), [], [([1%Z; 5%Z], [])], []. split; [reflexivity|]. split; [constructor|]. split; [|split; [constructor|reflexivity]].
    eexists. split; [vm_compute; apply Permutation_refl|]. split; [repeat constructor|reflexivity].
  - intros (E' & ts & a & us & W & T & (z & P & _ & L) & V & G). cbn in W. subst E'. inversion T as [|? t ? ts' Tt T' E1 E2]. subst ts. inversion T'. subst ts'. cbn in Tt. subst t. inversion V. subst us. cbn [together] in G.
    vm_compute in P. apply Permutation_sym, Permutation_length_1_inv in P. subst z. cbn in L. subst a. discriminate G.
Qed.
Print Assumptions c126_limit_refuted.
