(** Property C103: the text of a statement of several queries says which
    statement it is.  The reader is in Spec_nread.v; the proofs are in
    Nread_proofs.v and Nread2_proofs.v. *)
From Coq Require Import Strings.String Strings.Ascii NArith ZArith List Bool Lia.
From Verif Require Import GoStr GoNum Syntax Value Util Model Sqlf Sqlb Spec_syntax RefSem Spec_build Spec_util Spec_eval Spec_query Spec_sql Spec_nest Spec_interp
  Nread_proofs Nread2_proofs Spec_sqltok Spec_read Spec_nread Prop_nest.
Import ListNotations.
Open Scope string_scope.

(** C103: the text is read as the statement, with its common table expressions,
    subqueries and united queries, whatever stands for the values. *)
Theorem c103_read : forall B d id phs, Forall xnamed B -> complete B d id -> Forall operand phs -> List.length phs = List.length (args_of B d id) ->
  read_statement (tokens false (text_of B d id phs)) = Some (statement_said B d id (map (tokens false) phs)).
Proof. exact read_text. Qed.
Print Assumptions c103_read.

(** For the text of a build, in Question style ... *)
Theorem c103_question : forall B oss style d id, style <> style_dollar -> book oss B -> Forall xnamed B -> complete B d id -> used_once B d id ->
  exists qs, made oss qs /\ forall n, size_of B d id <= n -> exists text,
    fst (build_query n style qs (query id)) = ROk (text, args_of B d id) /\
    read_statement (tokens false text) = Some (statement_said B d id (map (fun _ => [TOp "?"]) (args_of B d id))).
Proof. exact nread_question. Qed.
Print Assumptions c103_question.

(** ... and in Dollar style. *)
Theorem c103_dollar : forall B oss d id, book oss B -> Forall xnamed B -> complete B d id -> used_once B d id -> forallb hashable (args_of B d id) = true ->
  exists qs phs, made oss qs /\ Forall2 (dollar_operand (firsts [] (args_of B d id))) phs (args_of B d id) /\ forall n, size_of B d id <= n -> exists text,
    fst (build_query n style_dollar qs (query id)) = ROk (text, firsts [] (args_of B d id)) /\
    read_statement (tokens false text) = Some (statement_said B d id phs).
Proof. exact nread_dollar. Qed.
Print Assumptions c103_dollar.

(** So a text with its arguments comes from one statement only. *)
Theorem c103_determined_question : forall B B' oss oss' style d d' id id' n qs qs' text args, style <> style_dollar -> book oss B -> book oss' B' ->
  Forall xnamed B -> Forall xnamed B' -> complete B d id -> complete B' d' id' -> used_once B d id -> used_once B' d' id' -> made oss qs -> made oss' qs' ->
  size_of B d id <= n -> size_of B' d' id' <= n ->
  fst (build_query n style qs (query id)) = ROk (text, args) -> fst (build_query n style qs' (query id')) = ROk (text, args) -> same_query eq B B' id id'.
Proof. exact nsame_question. Qed.
Print Assumptions c103_determined_question.
Theorem c103_determined_dollar : forall B B' oss oss' d d' id id' n qs qs' text args, book oss B -> book oss' B' ->
  Forall xnamed B -> Forall xnamed B' -> complete B d id -> complete B' d' id' -> used_once B d id -> used_once B' d' id' -> made oss qs -> made oss' qs' ->
  forallb hashable (args_of B d id) = true -> forallb hashable (args_of B' d' id') = true -> size_of B d id <= n -> size_of B' d' id' <= n ->
  fst (build_query n style_dollar qs (query id)) = ROk (text, args) -> fst (build_query n style_dollar qs' (query id')) = ROk (text, args) -> same_query go_alike B B' id id'.
Proof. exact nsame_dollar. Qed.
Print Assumptions c103_determined_dollar.

Ltac is_name := split; [reflexivity|split; [reflexivity|cbn; intuition discriminate]].
Ltac is_col := split; [first [left; reflexivity|right; is_name]|first [left; reflexivity|right; is_name]].
Ltac is_table := split; [is_name|first [left; reflexivity|right; is_name]].
Ltac is_named := apply conj; [discriminate|]; cbn [x0 x1 x2 x3 x4 x5 x_stmt one m_cols m_main m_joins m_conds m_groups m_orders];
  apply conj; [repeat (constructor; [is_col|]); constructor|]; apply conj; [is_table|];
  apply conj; [repeat (constructor; [split; [is_table|split; is_col]|]); constructor|];
  apply conj; [constructor|]; apply conj; [repeat (constructor; [is_col|]); constructor|];
  repeat (constructor; [split; [is_col|discriminate]|]); constructor.
Ltac is_xnamed := apply conj; [is_named|]; apply conj; [reflexivity|]; apply conj; [repeat (constructor; [is_name|]); constructor|];
  repeat (constructor; [split; [is_col|first [exact Logic.I|left; split; reflexivity|right; left; reflexivity]]|]); constructor.
Lemma named0 : Forall xnamed book0.
Proof. unfold book0. repeat (constructor; [is_xnamed|]). constructor. Qed.
(** The statement of C74. *)
Definition plain_head (items : list (col * string)) (t : tname) : reading unit := mkReading false items t [] [] [] [] None None.
Example c103_example :
  let phs := map (fun _ => "?") (args_of book0 3 0) in
  let one_said (c n : string) (t : tname) (x : simple) := NR [] (plain_head [((c, n), "")] t) [NSimple x] [] in
  book calls0 book0 /\ Forall xnamed book0 /\ complete book0 3 0 /\ used_once book0 3 0 /\ forallb hashable (args_of book0 3 0) = true /\
  text_of book0 3 0 phs =
    "With recent AS (SELECT id FROM users WHERE kind IN (?, ?)), active AS (SELECT r.id FROM recent AS r WHERE r.age>?) SELECT a.id FROM active AS a LEFT JOIN orders AS o ON a.id=o.user_id WHERE o.state = ? AND o.shop IN (SELECT id FROM shops WHERE city=?) ORDER BY a.id ASC NULLS LAST LIMIT 5 UNION (SELECT id FROM admins WHERE level>=?)" /\
  read_statement (tokens false (text_of book0 3 0 phs)) = Some (NR
    [("recent", one_said "" "id" ("users", "") (("", "kind"), IsIn, [[TOp "?"]; [TOp "?"]]));
     ("active", one_said "r" "id" ("recent", "r") (("r", "age"), Compares [TOp ">"], [[TOp "?"]]))]
    (mkReading false [(("a", "id"), "")] ("active", "a") [("LEFT", ("orders", "o"), ("a", "id"), ("o", "user_id"))] [] []
       [(("a", "id"), [TWord "ASC"; TWord "NULLS"; TWord "LAST"])] (Some "5") None)
    [NSimple (("o", "state"), Compares [TOp "="], [[TOp "?"]]);
     NSub ("o", "shop") [TWord "IN"] (one_said "" "id" ("shops", "") (("", "city"), Compares [TOp "="], [[TOp "?"]]))]
    [one_said "" "id" ("admins", "") (("", "level"), Compares [TOp ">"; TOp "="], [[TOp "?"]])]) /\
  sub_operator " = ANY " /\ sub_operator " NOT IN " /\ sub_operator "<".
Proof.
  apply conj; [exact book0_ok|]. apply conj; [exact named0|]. apply conj; [exact (proj1 (proj2 c74_example))|].
  apply conj; [exact (proj1 (proj2 (proj2 c74_example)))|]. apply conj; [reflexivity|]. apply conj; [vm_compute; reflexivity|]. apply conj; [vm_compute; reflexivity|].
  apply conj. { right. right. right. exists " = ", "ANY". split; [reflexivity|]. split; [reflexivity|]. split; [reflexivity|is_name]. }
  apply conj; [right; right; left; reflexivity|left; left; split; reflexivity].
Qed.

(** Not so when the names of common table expressions are not restricted: they
    are written as they are, and one name can say what two expressions say. *)
Definition a0 : xstmt := mkX (one [("k", "z")] ("c", "k")) [mkWith "a" [] 1 true; mkWith "b" [] 2 true; mkWith "c" ["a"; "b"] 3 true] [] [].
Definition b0 : xstmt := mkX (one [("k", "z")] ("c", "k")) [mkWith "a AS (SELECT x FROM v), b" [] 1 true; mkWith "c" ["a AS (SELECT x FROM v), b"] 2 true] [] [].
Definition from (c t : string) : xstmt := mkX (one [("", c)] (t, "")) [] [] [].
Definition two_books : list xstmt * list xstmt := ([a0; from "x" "v"; from "y" "w"; from "z" "b"], [b0; from "y" "w"; from "z" "b"]).
Definition from_calls (c t : string) : list qop := [OSelect [column "" c]; OFrom (t, "")].
Definition two_calls : list (list qop) * list (list qop) :=
  ([[OSelect [column "k" "z"]; OFrom ("c", "k"); OWith "a" (query 1) []; OWith "b" (query 2) []; OWith "c" (query 3) ["a"; "b"]];
    from_calls "x" "v"; from_calls "y" "w"; from_calls "z" "b"],
   [[OSelect [column "k" "z"]; OFrom ("c", "k"); OWith "a AS (SELECT x FROM v), b" (query 1) []; OWith "c" (query 2) ["a AS (SELECT x FROM v), b"]];
    from_calls "y" "w"; from_calls "z" "b"]).
Lemma two_ok : book (fst two_calls) (fst two_books) /\ book (snd two_calls) (snd two_books).
Proof.
  assert (Ca : wanted a0 "c") by (apply (wt_table a0 ("c", "k") (mkWith "c" ["a"; "b"] 3 true)); cbn; auto).
  assert (Cb : wanted b0 "c") by (apply (wt_table b0 ("c", "k") (mkWith "c" ["a AS (SELECT x FROM v), b"] 2 true)); cbn; auto).
  assert (A1 : wanted a0 "a") by (apply (wt_dep a0 (mkWith "c" ["a"; "b"] 3 true) (mkWith "a" [] 1 true)); cbn; auto).
  assert (A2 : wanted a0 "b") by (apply (wt_dep a0 (mkWith "c" ["a"; "b"] 3 true) (mkWith "b" [] 2 true)); cbn; auto).
  assert (B1 : wanted b0 "a AS (SELECT x FROM v), b") by (apply (wt_dep b0 (mkWith "c" ["a AS (SELECT x FROM v), b"] 2 true) (mkWith "a AS (SELECT x FROM v), b" [] 1 true)); cbn; auto).
  assert (Wa : withs_ok a0).
  { apply conj; [repeat constructor; cbn; intuition discriminate|]. right. apply conj; [intros w [<-|[<-|[<-|[]]]] [H|[]]; discriminate H|].
    intros w [<-|[<-|[<-|[]]]]; cbn [w_emitted w_name]; tauto. }
  assert (Wb : withs_ok b0).
  { apply conj; [repeat constructor; cbn; intuition discriminate|]. right. apply conj; [intros w [<-|[<-|[]]] [H|[]]; discriminate H|].
    intros w [<-|[<-|[]]]; cbn [w_emitted w_name]; tauto. }
  unfold book, two_calls, two_books, from. cbn [fst snd]. split.
  - constructor; [apply conj; [plain_ok; exact Wa|described]|]. do 3 (constructor; [apply conj; [plain_ok; apply no_withs|described]|]). constructor.
  - constructor; [apply conj; [plain_ok; exact Wb|described]|]. do 2 (constructor; [apply conj; [plain_ok; apply no_withs|described]|]). constructor.
Qed.
Theorem c103_names_refuted : exists oss oss' B B' qs qs', book oss B /\ book oss' B' /\ complete B 2 0 /\ complete B' 2 0 /\ used_once B 2 0 /\ used_once B' 2 0 /\
  made oss qs /\ made oss' qs' /\
  fst (build_query (size_of B 2 0) style_question qs (query 0)) =
    ROk ("With a AS (SELECT x FROM v), b AS (SELECT y FROM w), c AS (SELECT z FROM b) SELECT k.z FROM c AS k", []) /\
  fst (build_query (size_of B' 2 0) style_question qs' (query 0)) =
    ROk ("With a AS (SELECT x FROM v), b AS (SELECT y FROM w), c AS (SELECT z FROM b) SELECT k.z FROM c AS k", []) /\
  ~ same_query eq B B' 0 0.
Proof.
  exists (fst two_calls), (snd two_calls), (fst two_books), (snd two_books). do 2 eexists.
  apply conj; [exact (proj1 two_ok)|]. apply conj; [exact (proj2 two_ok)|].
  apply conj. { intros j [<-|[<-|[<-|[]]]]; intros i []. } apply conj. { intros j [<-|[<-|[]]]; intros i []. }
  apply conj; [constructor|]. apply conj; [constructor|].
  apply conj. { cbn [fst two_calls]. repeat (constructor; [cbv; reflexivity|]). constructor. }
  apply conj. { cbn [snd two_calls]. repeat (constructor; [cbv; reflexivity|]). constructor. }
  apply conj; [vm_compute; reflexivity|]. apply conj; [vm_compute; reflexivity|].
  intros H. inversion H as [id id' x x' X X' W S C U]; subst. injection X as <-. injection X' as <-.
  inversion W as [|? ? ? ? _ W1]; subst. inversion W1 as [|? ? ? ? _ W2]; subst. inversion W2.
Qed.
Print Assumptions c103_names_refuted.
