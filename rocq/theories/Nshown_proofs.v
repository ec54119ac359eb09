(** Proofs for Prop_nshown.v: interpolated statements of several queries are read
    back. *)
From Coq Require Import Strings.String Strings.Ascii NArith ZArith List Bool Lia.
From Verif Require Import GoStr GoNum Syntax Value Util Model Sqlf Sqlb Spec_syntax Num_proofs RefSem Spec_build
  Spec_util Spec_eval Spec_query Spec_sql Spec_nest Spec_interp Sql_proofs Nest_proofs Interp_proofs Ninterp_proofs Sqltok_proofs Read_proofs Read2_proofs Nread_proofs Nread2_proofs
  Spec_sqltok Spec_read Spec_nread.
Import ListNotations.
Open Scope string_scope.
Open Scope list_scope.

Theorem nshown_read : forall ft B d id lits, Forall xnamed B -> complete B d id -> Forall2 (literal ft) (args_of B d id) lits -> forallb (readable false ft) (args_of B d id) = true ->
  exists vs, Forall2 (stands ft) (args_of B d id) vs /\ read_statement (tokens false (text_of B d id lits)) = Some (statement_said B d id vs).
Proof.
  intros ft B d id lits Nb Hc F R. destruct (literals_ok ft _ _ F R) as (X & L & V). exists (map (tokens false) lits). split; [exact V|]. apply read_text; assumption.
Qed.
Theorem nshown_question : forall ft B oss style d id lits, style <> style_dollar -> book oss B -> Forall xnamed B -> Forall plain_names B -> complete B d id -> used_once B d id ->
  Forall2 (literal ft) (args_of B d id) lits -> forallb (readable false ft) (args_of B d id) = true ->
  exists qs vs, made oss qs /\ Forall2 (stands ft) (args_of B d id) vs /\ forall n, size_of B d id <= n -> exists s args out,
    fst (build_query n style qs (query id)) = ROk (s, args) /\ interpolate ft s args = ROk out /\ read_statement (tokens false out) = Some (statement_said B d id vs).
Proof.
  intros ft B oss style d id lits Hs Hb Nb Np Hc Hu F R. destruct (nshown_read ft B d id lits Nb Hc F R) as (vs & V & E).
  destruct (nest_shown_question ft B oss style d id lits Hs Hb Np Hc Hu F) as (qs & M & H). exists qs, vs. split; [exact M|]. split; [exact V|].
  intros n Hn. destruct (H n Hn) as (s & args & H1 & H2). exists s, args, (text_of B d id lits). auto.
Qed.
Theorem nshown_dollar : forall ft B oss d id lits, book oss B -> Forall xnamed B -> Forall plain_names B -> complete B d id -> used_once B d id -> forallb hashable (args_of B d id) = true ->
  (Z.of_nat (List.length (args_of B d id)) < 9223372036854775808)%Z -> Forall2 (literal ft) (args_of B d id) lits -> literal_by_value ft (args_of B d id) ->
  forallb (readable false ft) (args_of B d id) = true ->
  exists qs vs, made oss qs /\ Forall2 (stands ft) (args_of B d id) vs /\ forall n, size_of B d id <= n -> exists s args out,
    fst (build_query n style_dollar qs (query id)) = ROk (s, args) /\ interpolate ft s args = ROk out /\ read_statement (tokens false out) = Some (statement_said B d id vs).
Proof.
  intros ft B oss d id lits Hb Nb Np Hc Hu Hh Hz F Hv R. destruct (nshown_read ft B d id lits Nb Hc F R) as (vs & V & E).
  destruct (nest_shown_dollar ft B oss d id lits Hb Np Hc Hu Hh Hz F Hv) as (qs & M & H). exists qs, vs. split; [exact M|]. split; [exact V|].
  intros n Hn. destruct (H n Hn) as (s & args & H1 & H2). exists s, args, (text_of B d id lits). auto.
Qed.
Theorem nshown_same : forall ft B B' d d' id id' lits lits', Forall xnamed B -> Forall xnamed B' -> complete B d id -> complete B' d' id' ->
  Forall2 (literal ft) (args_of B d id) lits -> Forall2 (literal ft) (args_of B' d' id') lits' ->
  forallb (readable false ft) (args_of B d id) = true -> forallb (readable false ft) (args_of B' d' id') = true ->
  text_of B d id lits = text_of B' d' id' lits' -> same_query (show_alike ft) B B' id id'.
Proof.
  intros ft B B' d d' id id' lits lits' Nb Nb' Hc Hc' F F' R R' E.
  destruct (nshown_read ft B d id lits Nb Hc F R) as (vs & V & X). destruct (nshown_read ft B' d' id' lits' Nb' Hc' F' R') as (vs' & V' & X').
  rewrite E in X. rewrite X in X'. injection X' as X'.
  destruct (statement_same B B' Nb Nb' d d' id id' vs vs' Hc Hc' (eq_sym (f2_len _ _ _ V)) (eq_sym (f2_len _ _ _ V')) X') as [<- K]. apply K. eapply stand_alike; eassumption.
Qed.
Theorem ninterpolated_same : forall ft B B' oss oss' style d d' id id' n qs qs' lits lits' s args s' args' out, style <> style_dollar -> book oss B -> book oss' B' ->
  Forall xnamed B -> Forall xnamed B' -> Forall plain_names B -> Forall plain_names B' -> complete B d id -> complete B' d' id' -> used_once B d id -> used_once B' d' id' -> made oss qs -> made oss' qs' ->
  Forall2 (literal ft) (args_of B d id) lits -> Forall2 (literal ft) (args_of B' d' id') lits' ->
  forallb (readable false ft) (args_of B d id) = true -> forallb (readable false ft) (args_of B' d' id') = true -> size_of B d id <= n -> size_of B' d' id' <= n ->
  fst (build_query n style qs (query id)) = ROk (s, args) -> interpolate ft s args = ROk out ->
  fst (build_query n style qs' (query id')) = ROk (s', args') -> interpolate ft s' args' = ROk out -> same_query (show_alike ft) B B' id id'.
Proof.
  intros ft B B' oss oss' style d d' id id' n qs qs' lits lits' s args s' args' out Hs Hb Hb' Nb Nb' Np Np' Hc Hc' Hu Hu' M M' F F' R R' Hn Hn' B1 I1 B2 I2.
  destruct (nest_shown_question ft B oss style d id lits Hs Hb Np Hc Hu F) as (q1 & M1 & H1).
  destruct (nest_shown_question ft B' oss' style d' id' lits' Hs Hb' Np' Hc' Hu' F') as (q2 & M2 & H2).
  rewrite (made_unique _ _ _ M1 M) in H1. rewrite (made_unique _ _ _ M2 M') in H2.
  destruct (H1 n Hn) as (s1 & a1 & X1 & Y1). destruct (H2 n Hn') as (s2 & a2 & X2 & Y2). rewrite B1 in X1. rewrite B2 in X2. injection X1 as <- <-. injection X2 as <- <-.
  rewrite I1 in Y1. rewrite I2 in Y2. injection Y1 as Y1. injection Y2 as Y2. eapply (nshown_same ft B B' d d'); try eassumption. congruence.
Qed.
Theorem ninterpolated_same_dollar : forall ft B B' oss oss' d d' id id' n qs qs' lits lits' s args s' args' out, book oss B -> book oss' B' ->
  Forall xnamed B -> Forall xnamed B' -> Forall plain_names B -> Forall plain_names B' -> complete B d id -> complete B' d' id' -> used_once B d id -> used_once B' d' id' -> made oss qs -> made oss' qs' ->
  forallb hashable (args_of B d id) = true -> forallb hashable (args_of B' d' id') = true ->
  (Z.of_nat (List.length (args_of B d id)) < 9223372036854775808)%Z -> (Z.of_nat (List.length (args_of B' d' id')) < 9223372036854775808)%Z ->
  literal_by_value ft (args_of B d id) -> literal_by_value ft (args_of B' d' id') ->
  Forall2 (literal ft) (args_of B d id) lits -> Forall2 (literal ft) (args_of B' d' id') lits' ->
  forallb (readable false ft) (args_of B d id) = true -> forallb (readable false ft) (args_of B' d' id') = true -> size_of B d id <= n -> size_of B' d' id' <= n ->
  fst (build_query n style_dollar qs (query id)) = ROk (s, args) -> interpolate ft s args = ROk out ->
  fst (build_query n style_dollar qs' (query id')) = ROk (s', args') -> interpolate ft s' args' = ROk out -> same_query (show_alike ft) B B' id id'.
Proof.
  intros ft B B' oss oss' d d' id id' n qs qs' lits lits' s args s' args' out Hb Hb' Nb Nb' Np Np' Hc Hc' Hu Hu' M M' Hh Hh' Hz Hz' Hv Hv' F F' R R' Hn Hn' B1 I1 B2 I2.
  destruct (nest_shown_dollar ft B oss d id lits Hb Np Hc Hu Hh Hz F Hv) as (q1 & M1 & H1).
  destruct (nest_shown_dollar ft B' oss' d' id' lits' Hb' Np' Hc' Hu' Hh' Hz' F' Hv') as (q2 & M2 & H2).
  rewrite (made_unique _ _ _ M1 M) in H1. rewrite (made_unique _ _ _ M2 M') in H2.
  destruct (H1 n Hn) as (s1 & a1 & X1 & Y1). destruct (H2 n Hn') as (s2 & a2 & X2 & Y2). rewrite B1 in X1. rewrite B2 in X2. injection X1 as <- <-. injection X2 as <- <-.
  rewrite I1 in Y1. rewrite I2 in Y2. injection Y1 as Y1. injection Y2 as Y2. eapply (nshown_same ft B B' d d'); try eassumption. congruence.
Qed.
