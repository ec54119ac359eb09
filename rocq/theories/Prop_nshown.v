(** Property C104: the interpolated text of a statement of several queries says
    which statement it is, with which values.  The reader is in Spec_nread.v; the
    proofs are in Ninterp_proofs.v and Nshown_proofs.v. *)
From Coq Require Import Strings.String Strings.Ascii NArith ZArith List Bool Lia.
From Verif Require Import GoStr GoNum Syntax Value Util Model Sqlf Sqlb Spec_syntax RefSem Spec_build Spec_util Spec_eval Spec_query Spec_sql Spec_nest Spec_interp
  Ninterp_proofs Nshown_proofs Spec_sqltok Spec_read Spec_nread Prop_nest Prop_nread.
Import ListNotations.
Open Scope string_scope.

(** C104: util.Interpolate puts the literal of every value at its place, in
    whichever of the queries it stands ... *)
Theorem c104_text_question : forall ft B oss style d id lits, style <> style_dollar -> book oss B -> Forall plain_names B -> complete B d id -> used_once B d id ->
  Forall2 (literal ft) (args_of B d id) lits ->
  exists qs, made oss qs /\ forall n, size_of B d id <= n -> exists s args,
    fst (build_query n style qs (query id)) = ROk (s, args) /\ interpolate ft s args = ROk (text_of B d id lits).
Proof. exact nest_shown_question. Qed.
Print Assumptions c104_text_question.
Theorem c104_text_dollar : forall ft B oss d id lits, book oss B -> Forall plain_names B -> complete B d id -> used_once B d id -> forallb hashable (args_of B d id) = true ->
  (Z.of_nat (List.length (args_of B d id)) < 9223372036854775808)%Z -> Forall2 (literal ft) (args_of B d id) lits -> literal_by_value ft (args_of B d id) ->
  exists qs, made oss qs /\ forall n, size_of B d id <= n -> exists s args,
    fst (build_query n style_dollar qs (query id)) = ROk (s, args) /\ interpolate ft s args = ROk (text_of B d id lits).
Proof. exact nest_shown_dollar. Qed.
Print Assumptions c104_text_dollar.

(** ... and the result is read as the statement, with each literal as the operand
    it was inserted for, in Question style ... *)
Theorem c104_question : forall ft B oss style d id lits, style <> style_dollar -> book oss B -> Forall xnamed B -> Forall plain_names B -> complete B d id -> used_once B d id ->
  Forall2 (literal ft) (args_of B d id) lits -> forallb (readable false ft) (args_of B d id) = true ->
  exists qs vs, made oss qs /\ Forall2 (stands ft) (args_of B d id) vs /\ forall n, size_of B d id <= n -> exists s args out,
    fst (build_query n style qs (query id)) = ROk (s, args) /\ interpolate ft s args = ROk out /\ read_statement (tokens false out) = Some (statement_said B d id vs).
Proof. exact nshown_question. Qed.
Print Assumptions c104_question.

(** ... and in Dollar style, if equal arguments have equal literals. *)
Theorem c104_dollar : forall ft B oss d id lits, book oss B -> Forall xnamed B -> Forall plain_names B -> complete B d id -> used_once B d id -> forallb hashable (args_of B d id) = true ->
  (Z.of_nat (List.length (args_of B d id)) < 9223372036854775808)%Z -> Forall2 (literal ft) (args_of B d id) lits -> literal_by_value ft (args_of B d id) ->
  forallb (readable false ft) (args_of B d id) = true ->
  exists qs vs, made oss qs /\ Forall2 (stands ft) (args_of B d id) vs /\ forall n, size_of B d id <= n -> exists s args out,
    fst (build_query n style_dollar qs (query id)) = ROk (s, args) /\ interpolate ft s args = ROk out /\ read_statement (tokens false out) = Some (statement_said B d id vs).
Proof. exact nshown_dollar. Qed.
Print Assumptions c104_dollar.

(** So one text stands for one statement, with values that are shown alike. *)
Theorem c104_determined_question : forall ft B B' oss oss' style d d' id id' n qs qs' lits lits' s args s' args' out, style <> style_dollar -> book oss B -> book oss' B' ->
  Forall xnamed B -> Forall xnamed B' -> Forall plain_names B -> Forall plain_names B' -> complete B d id -> complete B' d' id' -> used_once B d id -> used_once B' d' id' -> made oss qs -> made oss' qs' ->
  Forall2 (literal ft) (args_of B d id) lits -> Forall2 (literal ft) (args_of B' d' id') lits' ->
  forallb (readable false ft) (args_of B d id) = true -> forallb (readable false ft) (args_of B' d' id') = true -> size_of B d id <= n -> size_of B' d' id' <= n ->
  fst (build_query n style qs (query id)) = ROk (s, args) -> interpolate ft s args = ROk out ->
  fst (build_query n style qs' (query id')) = ROk (s', args') -> interpolate ft s' args' = ROk out -> same_query (show_alike ft) B B' id id'.
Proof. exact ninterpolated_same. Qed.
Print Assumptions c104_determined_question.
Theorem c104_determined_dollar : forall ft B B' oss oss' d d' id id' n qs qs' lits lits' s args s' args' out, book oss B -> book oss' B' ->
  Forall xnamed B -> Forall xnamed B' -> Forall plain_names B -> Forall plain_names B' -> complete B d id -> complete B' d' id' -> used_once B d id -> used_once B' d' id' -> made oss qs -> made oss' qs' ->
  forallb hashable (args_of B d id) = true -> forallb hashable (args_of B' d' id') = true ->
  (Z.of_nat (List.length (args_of B d id)) < 9223372036854775808)%Z -> (Z.of_nat (List.length (args_of B' d' id')) < 9223372036854775808)%Z ->
  literal_by_value ft (args_of B d id) -> literal_by_value ft (args_of B' d' id') ->
  Forall2 (literal ft) (args_of B d id) lits -> Forall2 (literal ft) (args_of B' d' id') lits' ->
  forallb (readable false ft) (args_of B d id) = true -> forallb (readable false ft) (args_of B' d' id') = true -> size_of B d id <= n -> size_of B' d' id' <= n ->
  fst (build_query n style_dollar qs (query id)) = ROk (s, args) -> interpolate ft s args = ROk out ->
  fst (build_query n style_dollar qs' (query id')) = ROk (s', args') -> interpolate ft s' args' = ROk out -> same_query (show_alike ft) B B' id id'.
Proof. exact ninterpolated_same_dollar. Qed.
Print Assumptions c104_determined_dollar.

(** A string that looks like the end of its query stays one string, in a common
    table expression, in a subquery and in a united query. *)
Definition tricky : string := "') UNION (SELECT x FROM y) --".
Definition t0 : xstmt := mkX (one [("", "id")] ("w", "")) [mkWith "w" [] 1 true] [Sub ("", "k") " IN " 2; Plain (Compare ("", "z") "=" (I (-1)))] [3].
Definition t_on (t c : string) (v : value) : xstmt := mkX (one [("", "id")] (t, "")) [] [Plain (Compare ("", c) "=" v)] [].
Definition book2 : list xstmt := [t0; t_on "a" "p" (VStr "string" tricky); t_on "b" "q" (VStr "string" "?"); t_on "c" "r" (VStr "string" tricky)].
Definition calls_on (t c : string) (v : value) : list qop := [OFrom (t, ""); OWhere2 (column "" c) "=" v; OSelect [column "" "id"]].
Definition calls2 : list (list qop) :=
  [[OWith "w" (query 1) []; OUnion [query 3]; OSelect [column "" "id"]; OFrom ("w", ""); OWhere (Some (Ff "#f1 IN (#f2)" [column "" "k"; query 2])); OWhere2 (column "" "z") "=" (I (-1))];
   calls_on "a" "p" (VStr "string" tricky); calls_on "b" "q" (VStr "string" "?"); calls_on "c" "r" (VStr "string" tricky)].
Lemma withs2 : withs_ok t0.
Proof.
  apply conj; [repeat constructor; cbn; tauto|]. left. apply conj; [intros j []|]. intros w [<-|[]]. split; [reflexivity|]. exists ("w", ""). split; [left; reflexivity|reflexivity].
Qed.
Lemma book2_ok : book calls2 book2.
Proof.
  unfold book, calls2, book2, t_on. constructor; [apply conj; [plain_ok; exact withs2|described]|].
  do 3 (constructor; [apply conj; [plain_ok; apply no_withs|described]|]). constructor.
Qed.
Example c104_example : forall ft,
  let quoted := "''') UNION (SELECT x FROM y) --'" in
  let lits := [quoted; "'?'"; "-1"; quoted] in
  let said_of (t c : string) (v : list token) := NR [] (plain_head [(("", "id"), "")] (t, "")) [NSimple (("", c), Compares [TOp "="], [v])] [] in
  book calls2 book2 /\ Forall xnamed book2 /\ Forall plain_names book2 /\ complete book2 2 0 /\ used_once book2 2 0 /\ forallb hashable (args_of book2 2 0) = true /\
  Forall2 (literal ft) (args_of book2 2 0) lits /\ literal_by_value ft (args_of book2 2 0) /\ forallb (readable false ft) (args_of book2 2 0) = true /\
  text_of book2 2 0 lits =
    "With w AS (SELECT id FROM a WHERE p=''') UNION (SELECT x FROM y) --') SELECT id FROM w WHERE k IN (SELECT id FROM b WHERE q='?') AND z=-1 UNION (SELECT id FROM c WHERE r=''') UNION (SELECT x FROM y) --')" /\
  read_statement (tokens false (text_of book2 2 0 lits)) = Some (NR [("w", said_of "a" "p" [TStr tricky])] (plain_head [(("", "id"), "")] ("w", ""))
    [NSub ("", "k") [TWord "IN"] (said_of "b" "q" [TStr "?"]); NSimple (("", "z"), Compares [TOp "="], [[TOp "-"; TNum "1"]])] [said_of "c" "r" [TStr tricky]]).
Proof.
  intros ft. cbv zeta. apply conj; [exact book2_ok|]. apply conj. { unfold book2, t_on, t0. repeat (constructor; [is_xnamed|]). constructor. }
  apply conj. { unfold book2, t_on, t0. repeat (constructor; [unfold plain_names; cbn [x_withs]; repeat (constructor; [reflexivity|]); constructor|]). constructor. }
  apply conj. { intros j [<-|[<-|[<-|[]]]]; intros i []. } apply conj; [constructor|]. apply conj; [reflexivity|].
  change (args_of book2 2 0) with [VStr "string" tricky; VStr "string" "?"; I (-1); VStr "string" tricky].
  apply conj. { constructor; [apply (lt_str ft "string" tricky)|]. constructor; [apply (lt_str ft "string" "?")|]. constructor; [apply (lt_int ft "int" (-1))|]. constructor; [apply (lt_str ft "string" tricky)|constructor]. }
  apply conj.
  { intros v w s Hv Hw E L. cbn [In] in Hv, Hw.
    repeat match goal with H : _ \/ _ |- _ => destruct H | H : False |- _ => destruct H end; subst; try exact L; discriminate E. }
  apply conj; [reflexivity|]. apply conj; vm_compute; reflexivity.
Qed.

(** Not so for every name of a common table expression: a dollar sign followed by
    a number in it is replaced as well. *)
Definition n0 : xstmt := mkX (one [("k", "z")] ("b", "k")) [mkWith "a$1" [] 1 true; mkWith "b" ["a$1"] 2 true] [] [].
Definition n_calls : list (list qop) :=
  [[OSelect [column "k" "z"]; OFrom ("b", "k"); OWith "a$1" (query 1) []; OWith "b" (query 2) ["a$1"]]; calls_on "v" "y" (I 5); from_calls "z" "c"].
Theorem c104_names_refuted : forall ft, exists oss B qs s args, book oss B /\ Forall xnamed B /\ complete B 2 0 /\ used_once B 2 0 /\ forallb hashable (args_of B 2 0) = true /\
  Forall2 (literal ft) (args_of B 2 0) ["5"] /\ made oss qs /\ fst (build_query (size_of B 2 0) style_dollar qs (query 0)) = ROk (s, args) /\
  text_of B 2 0 ["5"] = "With a$1 AS (SELECT id FROM v WHERE y=5), b AS (SELECT z FROM c) SELECT k.z FROM b AS k" /\
  interpolate ft s args = ROk "With a5 AS (SELECT id FROM v WHERE y=5), b AS (SELECT z FROM c) SELECT k.z FROM b AS k".
Proof.
  intros ft. exists n_calls, [n0; t_on "v" "y" (I 5); from "z" "c"]. do 3 eexists.
  assert (Cb : wanted n0 "b") by (apply (wt_table n0 ("b", "k") (mkWith "b" ["a$1"] 2 true)); cbn; auto).
  assert (Ca : wanted n0 "a$1") by (apply (wt_dep n0 (mkWith "b" ["a$1"] 2 true) (mkWith "a$1" [] 1 true)); cbn; auto).
  assert (W : withs_ok n0).
  { apply conj; [repeat constructor; cbn; intuition discriminate|]. right. apply conj; [intros w [<-|[<-|[]]] [H|[]]; discriminate H|].
    intros w [<-|[<-|[]]]; cbn [w_emitted w_name]; tauto. }
  apply conj. { unfold book, n_calls, t_on, from. constructor; [apply conj; [plain_ok; exact W|described]|]. do 2 (constructor; [apply conj; [plain_ok; apply no_withs|described]|]). constructor. }
  apply conj. { unfold t_on, from, n0. repeat (constructor; [is_xnamed|]). constructor. }
  apply conj. { intros j [<-|[<-|[]]]; intros i []. } apply conj; [constructor|]. apply conj; [reflexivity|].
  apply conj. { constructor; [apply (lt_int ft "int" 5)|constructor]. }
  apply conj. { unfold n_calls. repeat (constructor; [cbv; reflexivity|]). constructor. }
  apply conj; [vm_compute; reflexivity|]. apply conj; vm_compute; reflexivity.
Qed.
Print Assumptions c104_names_refuted.
