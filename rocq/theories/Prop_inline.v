(** Property C125: selecting everything from a common table expression gives the
    answers of its query.  The vocabulary is in Spec_inline.v; the proofs are in
    Inline_proofs.v. *)
From Coq Require Import Strings.String Strings.Ascii NArith ZArith List Bool Lia Sorting.Permutation Sorting.Sorted.
From Verif Require Import GoStr GoNum Syntax Value Util Model Sqlf Sqlb Spec_syntax RefSem Spec_build Spec_util Spec_eval Spec_query Spec_sql Spec_nest Spec_interp Spec_answer Spec_views
  Inline_proofs Prop_exec Prop_nexec Spec_sqltok Spec_read Spec_nread Spec_exec Spec_nexec Spec_inline.
Import ListNotations.
Open Scope string_scope.

(** C125: executing a query that selects all columns of a common table expression,
    and nothing else, gives the answers of the query of the common table
    expression, in any order. *)
Theorem c125_question : forall B oss style d id i w a, style <> style_dollar -> book oss B -> Forall xnamed B -> complete B (S d) id -> used_once B (S d) id -> selects_all B id i w a -> matching B d i ->
  exists qs, made oss qs /\ forall n, size_of B (S d) id <= n -> exists s args s' args',
    fst (build_query n style qs (query id)) = ROk (s, args) /\ fst (build_query n style qs (query i)) = ROk (s', args') /\
    forall E sub_test rows, orderless E -> executes_all E sub_test args s rows <-> exists rows', executes_all E sub_test args' s' rows' /\ Permutation rows rows'.
Proof. exact inline_question. Qed.
Print Assumptions c125_question.
Theorem c125_dollar : forall B oss d id i w a, book oss B -> Forall xnamed B -> complete B (S d) id -> used_once B (S d) id -> selects_all B id i w a -> matching B d i -> forallb hashable (args_of B d i) = true ->
  exists qs, made oss qs /\ forall n, size_of B (S d) id <= n -> exists s args s' args',
    fst (build_query n style_dollar qs (query id)) = ROk (s, args) /\ fst (build_query n style_dollar qs (query i)) = ROk (s', args') /\
    forall E sub_test rows, by_value E -> orderless E -> executes_all E sub_test args s rows <-> exists rows', executes_all E sub_test args' s' rows' /\ Permutation rows rows'.
Proof. exact inline_dollar. Qed.
Print Assumptions c125_dollar.

(** Everything from two united queries, the second of which has another column
    name. *)
Definition everything : xstmt := mkX (mkStmt false [("b", "total")] ("big", "b") [] [] [] [] 0 0) [mkWith "big" [] 1 true] [] [].
Definition big : xstmt := mkX (mkStmt false [("o", "total")] ("orders", "o") [] [] [] [] 0 0) [] [above ("o", "total") 20] [2].
Definition book_big : list xstmt := [everything; big; q1].
Definition calls_big : list (list qop) :=
  [[OWith "big" (query 1) []; OSelect [column "b" "total"]; OFrom ("big", "b")]; (calls_of ("o", "total") ("orders", "o") ("o", "total") 20 ++ [OUnion [query 2]])%list; nth 1 calls3 []].
Example c125_example :
  book calls_big book_big /\ Forall xnamed book_big /\ complete book_big 3 0 /\ used_once book_big 3 0 /\ selects_all book_big 0 1 "big" "b" /\ matching book_big 2 1 /\
  forallb hashable (args_of book_big 2 1) = true /\ orderless engine1 /\
  (exists qs, made calls_big qs /\
    fst (build_query 60 style_question qs (query 0)) =
      ROk ("With big AS (SELECT o.total FROM orders AS o WHERE o.total>? UNION (SELECT u.id FROM users AS u WHERE u.id>?)) SELECT b.total FROM big AS b", map (VInt "int") [20; 1]%Z) /\
    fst (build_query 60 style_question qs (query 1)) = ROk ("SELECT o.total FROM orders AS o WHERE o.total>? UNION (SELECT u.id FROM users AS u WHERE u.id>?)", map (VInt "int") [20; 1]%Z)).
Proof.
  apply conj.
  { pose proof book3_calls as H. inversion_clear H as [|? ? ? ? _ H1]. inversion_clear H1 as [|? ? ? ? A1 _]. constructor; [split|constructor; [split|constructor; [exact A1|constructor]]].
    - split; [apply names3; reflexivity|]. split; [reflexivity|]. split; [constructor|]. split; [constructor|].
      split; [split; [constructor; [intros []|constructor]|left; split; [intros j []|intros w [<-|[]]; split; [reflexivity|exists ("big", "b"); split; [left; reflexivity|reflexivity]]]]|]. intros j [].
    - unfold xdescribes; repeat (split; [reflexivity|]); reflexivity.
    - split; [apply names3; reflexivity|]. split; [reflexivity|]. split; [constructor; [split; reflexivity|constructor]|]. split; [constructor; [right; left; reflexivity|constructor]|].
      split; [split; [constructor|left; split; [intros j []|intros w []]]|]. intros j [].
    - unfold xdescribes; repeat (split; [reflexivity|]); reflexivity. }
  apply conj; [unfold book_big; repeat (constructor; [is_xnamed|]); constructor|].
  apply conj; [intros j [<-|[]]; intros k [<-|[]]; intros i []|]. apply conj; [constructor|].
  apply conj; [split; [discriminate|split; [constructor; [intros []|constructor]|exists []; reflexivity]]|].
  apply conj; [intros j [<-|[]]; split; [reflexivity|intros k []]|]. apply conj; [reflexivity|]. apply conj; [intros x y; exact I|].
  eexists. split; [repeat (constructor; [cbv; reflexivity|]); constructor|]. split; vm_compute; reflexivity.
Qed.
