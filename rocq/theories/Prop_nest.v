(** Property C74: statements made of several queries.  The vocabulary is in
    Spec_nest.v; the proofs are in Nest_proofs.v. *)
From Coq Require Import Strings.String Strings.Ascii NArith ZArith List Bool.
From Verif Require Import GoStr GoNum Syntax Value Util Model Sqlf Sqlb Spec_syntax RefSem Spec_build Spec_eval Spec_query Spec_sql Spec_nest Nest_proofs.
Import ListNotations.
Open Scope string_scope.

(** C74: queries using other queries as common table expressions, subqueries in
    conditions and united queries give the text of the whole statement, and the
    arguments are numbered through it in the order of the text. *)
Theorem c74_question : forall B oss style d id, style <> style_dollar -> book oss B -> complete B d id -> used_once B d id ->
  exists qs, made oss qs /\ forall n, size_of B d id <= n ->
    fst (build_query n style qs (query id)) = ROk (text_of B d id (map (fun _ => "?") (args_of B d id)), args_of B d id).
Proof. exact nest_question. Qed.
Print Assumptions c74_question.

Theorem c74_dollar : forall B oss d id, book oss B -> complete B d id -> used_once B d id -> forallb hashable (args_of B d id) = true ->
  exists qs phs, made oss qs /\ Forall2 (dollar_denotes (firsts [] (args_of B d id))) phs (args_of B d id) /\
    forall n, size_of B d id <= n -> fst (build_query n style_dollar qs (query id)) = ROk (text_of B d id phs, firsts [] (args_of B d id)).
Proof. exact nest_dollar. Qed.
Print Assumptions c74_dollar.

(** Query 0 reads the common table expression "active" (query 1), which depends
    on "recent" (query 2); "unused" (query 3) is left out.  A condition uses
    query 4, and query 5 is united. *)
Definition I (z : Z) : value := VInt "int" z.
Definition one (cols : list col) (t : tname) : stmt := mkStmt false cols t [] [] [] [] 0 0.
Definition x0 : xstmt :=
  mkX (mkStmt false [("a", "id")] ("active", "a") [mkJoin JLeft ("orders", "o") ("a", "id") ("o", "user_id")] [] [] [(("a", "id"), 2%N)] 5 0)
    [mkWith "unused" [] 3 false; mkWith "recent" [] 2 true; mkWith "active" ["recent"; "nosuch"] 1 true]
    [Plain (Compare ("o", "state") " = " (I 7)); Sub ("o", "shop") " IN " 4] [5].
Definition x1 : xstmt := mkX (one [("r", "id")] ("recent", "r")) [] [Plain (Compare ("r", "age") ">" (I 18))] [].
Definition x2 : xstmt := mkX (one [("", "id")] ("users", "")) [] [Plain (Among ("", "kind") (VSlice "[]int" (Some [I 1; I 7])))] [].
Definition x3 : xstmt := mkX (one [("", "x")] ("gone", "")) [] [Plain (Compare ("", "y") "=" (I 99))] [].
Definition x4 : xstmt := mkX (one [("", "id")] ("shops", "")) [] [Plain (Compare ("", "city") "=" (I 3))] [].
Definition x5 : xstmt := mkX (one [("", "id")] ("admins", "")) [] [Plain (Compare ("", "level") ">=" (I 18))] [].
Definition book0 : list xstmt := [x0; x1; x2; x3; x4; x5].
Definition calls0 : list (list qop) :=
  [[OWith "unused" (query 3) []; OWith "recent" (query 2) []; OSelect [column "a" "id"]; OFrom ("active", "a"); OUnion [query 5];
    OLeftJoin ("orders", "o") (Some (Ff "#f1=#f2" [column "a" "id"; column "o" "user_id"])); OWhere2 (column "o" "state") " = " (I 7);
    OWith "active" (query 1) ["recent"; "nosuch"]; OWhere (Some (Ff "#f1 IN (#f2)" [column "o" "shop"; query 4])); OOrderBy (column "a" "id") 2; OLimit 5];
   [OSelect [column "r" "id"]; OFrom ("recent", "r"); OWhere2 (column "r" "age") ">" (I 18)];
   [OSelect [column "" "id"]; OFrom ("users", ""); OWhereIn (column "" "kind") (VSlice "[]int" (Some [I 1; I 7]))];
   [OSelect [column "" "x"]; OFrom ("gone", ""); OWhere2 (column "" "y") "=" (I 99)];
   [OSelect [column "" "id"]; OFrom ("shops", ""); OWhere2 (column "" "city") "=" (I 3)];
   [OSelect [column "" "id"]; OFrom ("admins", ""); OWhere2 (column "" "level") ">=" (I 18)]].
Lemma withs0 : withs_ok x0.
Proof.
  apply conj; [repeat constructor; cbn; intuition discriminate|]. right. apply conj.
  - intros w [<-|[<-|[<-|[]]]] [H|[H|[]]]; discriminate H.
  - assert (Ha : wanted x0 "active") by (apply (wt_table x0 ("active", "a") (mkWith "active" ["recent"; "nosuch"] 1 true)); cbn; auto).
    assert (Hr : wanted x0 "recent") by (apply (wt_dep x0 (mkWith "active" ["recent"; "nosuch"] 1 true) (mkWith "recent" [] 2 true)); cbn; auto).
    assert (Hu : ~ wanted x0 "unused").
    { intro H. remember "unused" as c eqn:E. destruct H as [t w T W N|w v _ W V D].
      - rewrite N in E. destruct T as [<-|[<-|[]]]; discriminate E.
      - rewrite E in D. destruct W as [<-|[<-|[<-|[]]]]; cbn in D; intuition discriminate. }
    intros w [<-|[<-|[<-|[]]]]; cbn [w_emitted w_name]; [|tauto|tauto]. split; [discriminate|intro H; destruct (Hu H)].
Qed.
Lemma no_withs : forall m cs us, withs_ok (mkX m [] cs us).
Proof. intros m cs us. apply conj; [constructor|]. right. apply conj; intros w []. Qed.
Ltac all_appear := intros j Hj; repeat (destruct Hj as [<-|Hj]; [split; [intros _; exact Logic.I|reflexivity]|]); destruct Hj.
Ltac plain_ok := unfold xstmt_ok; apply conj;
  [apply conj; [discriminate|]; apply conj; [reflexivity|]; apply conj; [repeat (constructor; [reflexivity|]); constructor|];
   apply conj; [cbn [m_tables one x0 x1 x2 x3 x4 x5 x_stmt]; repeat constructor; cbn; intuition discriminate|];
   apply conj; [cbn [m_used one x0 x1 x2 x3 x4 x5 x_stmt m_cols m_conds m_groups m_orders m_joins map app cond_col fst snd j_left j_right]; repeat (constructor; [split; [reflexivity|cbn; tauto]|]); constructor|];
   apply conj; [constructor|]; repeat (constructor; [discriminate|]); constructor
  |apply conj; [reflexivity|]; apply conj; [repeat constructor; eexists; reflexivity|]; apply conj; [repeat constructor; cbn; tauto|];
   apply conj; [|all_appear]].
Ltac described := unfold xdescribes; do 10 (apply conj; [reflexivity|]); reflexivity.
Lemma book0_ok : book calls0 book0.
Proof.
  unfold book, calls0, book0.
  constructor; [apply conj; [plain_ok; exact withs0|described]|].
  do 5 (constructor; [apply conj; [plain_ok; apply no_withs|described]|]). constructor.
Qed.
Example c74_example : book calls0 book0 /\ complete book0 3 0 /\ used_once book0 3 0 /\ members book0 3 0 = [0; 2; 1; 4; 5] /\
  args_of book0 3 0 = [I 1; I 7; I 18; I 7; I 3; I 18] /\
  text_of book0 3 0 (map (fun _ => "?") (args_of book0 3 0)) =
    "With recent AS (SELECT id FROM users WHERE kind IN (?, ?)), active AS (SELECT r.id FROM recent AS r WHERE r.age>?) SELECT a.id FROM active AS a LEFT JOIN orders AS o ON a.id=o.user_id WHERE o.state = ? AND o.shop IN (SELECT id FROM shops WHERE city=?) ORDER BY a.id ASC NULLS LAST LIMIT 5 UNION (SELECT id FROM admins WHERE level>=?)" /\
  firsts [] (args_of book0 3 0) = [I 1; I 7; I 18; I 3] /\ forallb hashable (args_of book0 3 0) = true /\
  text_of book0 3 0 ["$1"; "$2"; "$3"; "$2"; "$4"; "$3"] =
    "With recent AS (SELECT id FROM users WHERE kind IN ($1, $2)), active AS (SELECT r.id FROM recent AS r WHERE r.age>$3) SELECT a.id FROM active AS a LEFT JOIN orders AS o ON a.id=o.user_id WHERE o.state = $2 AND o.shop IN (SELECT id FROM shops WHERE city=$4) ORDER BY a.id ASC NULLS LAST LIMIT 5 UNION (SELECT id FROM admins WHERE level>=$3)".
Proof.
  apply conj; [exact book0_ok|]. apply conj. { intros j [<-|[<-|[<-|[<-|[]]]]]; intros i []. }
  apply conj. { constructor. }
  do 5 (apply conj; [vm_compute; reflexivity|]). vm_compute; reflexivity.
Qed.

(** A query used at two places is built twice.  With SELECT DISTINCT and ORDER BY
    the second time differs (C40), so [used_once] is needed. *)
Definition y0 : xstmt := mkX (one [("", "a")] ("t", "")) [] [Sub ("", "b") " IN " 1; Sub ("", "c") " IN " 1] [].
Definition y1 : xstmt := mkX (mkStmt true [("", "id")] ("u", "") [] [] [] [(("", "n"), 0%N)] 0 0) [] [] [].
Definition calls1 : list (list qop) :=
  [[OSelect [column "" "a"]; OFrom ("t", ""); OWhere (Some (Ff "#f1 IN (#f2)" [column "" "b"; query 1])); OWhere (Some (Ff "#f1 IN (#f2)" [column "" "c"; query 1]))];
   [OSelect [column "" "id"]; ODistinct; OFrom ("u", ""); OOrderBy (column "" "n") 0]].
Lemma book1_ok : book calls1 [y0; y1].
Proof. unfold book, calls1. do 2 (constructor; [apply conj; [plain_ok; apply no_withs|described]|]). constructor. Qed.
Theorem c74_twice_refuted : ~ (forall B oss style d id, style <> style_dollar -> book oss B -> complete B d id ->
  exists qs, made oss qs /\ forall n, size_of B d id <= n ->
    fst (build_query n style qs (query id)) = ROk (text_of B d id (map (fun _ => "?") (args_of B d id)), args_of B d id)).
Proof.
  intro H. destruct (H [y0; y1] calls1 style_question 3 0) as (qs & M & E); [discriminate|exact book1_ok|intros j [<-|[<-|[]]]; intros i []|].
  inversion M as [|? q0 ? r M0 M1]; subst. inversion M1 as [|? q1 ? r1 M2 M3]; subst. inversion M3; subst.
  vm_compute in M0. vm_compute in M2. injection M0 as <-. injection M2 as <-.
  specialize (E (size_of [y0; y1] 3 0) (le_n _)). vm_compute in E. discriminate E.
Qed.
Print Assumptions c74_twice_refuted.

(** Query 1 is used at three places and query 3 under each of them; query 2,
    with SELECT DISTINCT and ORDER BY, is used at one. *)
Definition v0 : xstmt := mkX (one [("", "a")] ("t", "")) [] [Sub ("", "b") " IN " 1; Sub ("", "c") " IN " 2; Sub ("", "d") " NOT IN " 1] [1].
Definition v1 : xstmt := mkX (mkStmt true [("", "id")] ("w", "") [] [] [] [] 0 0) [] [Plain (Compare ("", "k") "=" (I 4)); Sub ("", "e") " IN " 3] [].
Definition v3 : xstmt := mkX (mkStmt false [("", "n")] ("z", "") [] [] [] [(("", "n"), 1%N)] 3 0) [] [Plain (Compare ("", "m") "<" (I 5))] [].
Definition calls3 : list (list qop) :=
  [[OSelect [column "" "a"]; OFrom ("t", ""); OWhere (Some (Ff "#f1 IN (#f2)" [column "" "b"; query 1])); OWhere (Some (Ff "#f1 IN (#f2)" [column "" "c"; query 2]));
    OWhere (Some (Ff "#f1 NOT IN (#f2)" [column "" "d"; query 1])); OUnion [query 1]];
   [ODistinct; OSelect [column "" "id"]; OFrom ("w", ""); OWhere2 (column "" "k") "=" (I 4); OWhere (Some (Ff "#f1 IN (#f2)" [column "" "e"; query 3]))];
   [OSelect [column "" "id"]; ODistinct; OFrom ("u", ""); OOrderBy (column "" "n") 0];
   [OSelect [column "" "n"]; OFrom ("z", ""); OWhere2 (column "" "m") "<" (I 5); OOrderBy (column "" "n") 1; OLimit 3]].
Definition book3 : list xstmt := [v0; v1; y1; v3].
Lemma book3_ok : book calls3 book3.
Proof. unfold book, calls3, book3. do 4 (constructor; [apply conj; [plain_ok; apply no_withs|described]|]). constructor. Qed.
Example c74_twice_example : book calls3 book3 /\ complete book3 3 0 /\ used_once book3 3 0 /\ members book3 3 0 = [0; 1; 3; 2; 1; 3; 1; 3] /\
  args_of book3 3 0 = [I 4; I 5; I 4; I 5; I 4; I 5] /\
  text_of book3 3 0 ["$1"; "$2"; "$1"; "$2"; "$1"; "$2"] =
    "SELECT a FROM t WHERE b IN (SELECT DISTINCT id FROM w WHERE k=$1 AND e IN (SELECT n FROM z WHERE m<$2 ORDER BY n ASC NULLS FIRST LIMIT 3)) AND c IN (SELECT DISTINCT id, n AS _order_1 FROM u ORDER BY _order_1 ASC) AND d NOT IN (SELECT DISTINCT id FROM w WHERE k=$1 AND e IN (SELECT n FROM z WHERE m<$2 ORDER BY n ASC NULLS FIRST LIMIT 3)) UNION (SELECT DISTINCT id FROM w WHERE k=$1 AND e IN (SELECT n FROM z WHERE m<$2 ORDER BY n ASC NULLS FIRST LIMIT 3))".
Proof.
  apply conj; [exact book3_ok|]. apply conj.
  { intros j [<-|[<-|[<-|[<-|[]]]]] i Hi; cbn in Hi; repeat (destruct Hi as [<-|Hi]; [intros k []|]); destruct Hi. }
  apply conj. { change (NoDup [2]). repeat constructor; intros []. }
  apply conj; [vm_compute; reflexivity|]. apply conj; vm_compute; reflexivity.
Qed.

(** With an optional join that is left out, the common table expression it names
    is left out as well. *)
Definition z0 : xstmt :=
  mkX (mkStmt true [("a", "id")] ("active", "a") [mkJoin (JOptional false) ("recent", "r") ("a", "id") ("r", "id"); mkJoin JInner ("shops", "") ("a", "shop") ("shops", "id")] [] [] [] 0 0)
    [mkWith "recent" [] 1 false; mkWith "active" [] 2 true] [Plain (Compare ("a", "x") "=" (I 7))] [].
Definition z1 : xstmt := mkX (one [("", "id")] ("users", "")) [] [Plain (Compare ("", "age") ">" (I 18))] [].
Definition z2 : xstmt := mkX (one [("", "id")] ("users", "")) [] [Plain (Compare ("", "kind") "=" (I 3))] [].
Definition calls2 : list (list qop) :=
  [[OWith "recent" (query 1) []; OSelect [column "a" "id"]; OFrom ("active", "a"); ODistinct; OWith "active" (query 2) [];
    OLeftJoinOptional ("recent", "r") (Some (Ff "#f1=#f2" [column "a" "id"; column "r" "id"])); OWhere2 (column "a" "x") "=" (I 7);
    OInnerJoin ("shops", "") (Some (Ff "#f1=#f2" [column "a" "shop"; column "shops" "id"]))];
   [OSelect [column "" "id"]; OFrom ("users", ""); OWhere2 (column "" "age") ">" (I 18)];
   [OSelect [column "" "id"]; OFrom ("users", ""); OWhere2 (column "" "kind") "=" (I 3)]].
Lemma withs2 : withs_ok z0.
Proof.
  apply conj; [repeat constructor; cbn; intuition discriminate|]. right. apply conj.
  - intros w [<-|[<-|[]]] [H|[H|[H|[]]]]; discriminate H.
  - assert (Ha : wanted z0 "active") by (apply (wt_table z0 ("active", "a") (mkWith "active" [] 2 true)); cbn; auto).
    assert (Hr : ~ wanted z0 "recent").
    { intro H. remember "recent" as c eqn:E. destruct H as [t w T W N|w v _ W V D].
      - rewrite N in E. destruct T as [<-|[<-|[]]]; discriminate E.
      - rewrite E in D. destruct W as [<-|[<-|[]]]; destruct D. }
    intros w [<-|[<-|[]]]; cbn [w_emitted w_name]; [|tauto]. split; [discriminate|intro H; destruct (Hr H)].
Qed.
Lemma shown2 : shown_ok (x_stmt z0) (map xcond_col (x_conds z0)).
Proof.
  intros j [<-|[<-|[]]]; cbn [appears j_kind]; [|split; [intros _; exact Logic.I|reflexivity]]. split; [discriminate|]. intro H. exfalso. specialize (H eq_refl).
  change (known_as (j_table _)) with "r" in H. assert (G : forall t, needs (x_stmt z0) (map xcond_col (x_conds z0)) t -> t = "a").
  { intros t N. induction N as [c [<-|[<-|[]]] _|j c _ IH [<-|[<-|[]]] _ _]; try reflexivity; discriminate IH. }
  discriminate (G _ H).
Qed.
Lemma book2_ok : book calls2 [z0; z1; z2].
Proof.
  unfold book, calls2. constructor.
  - apply conj; [|described]. apply conj.
    + apply conj; [discriminate|]. apply conj; [reflexivity|]. apply conj; [repeat (constructor; [reflexivity|]); constructor|].
      apply conj; [cbn [m_tables z0 x_stmt]; repeat constructor; cbn; intuition discriminate|].
      apply conj; [cbn [m_used z0 x_stmt m_cols m_conds m_groups m_orders m_joins map app cond_col fst snd j_left j_right]; repeat (constructor; [split; [reflexivity|cbn; tauto]|]); constructor|].
      apply conj; constructor.
    + apply conj; [reflexivity|]. apply conj; [repeat constructor|]. apply conj; [repeat constructor; cbn; tauto|]. apply conj; [exact withs2|exact shown2].
  - do 2 (constructor; [apply conj; [plain_ok; apply no_withs|described]|]). constructor.
Qed.
Example c74_optional_example : book calls2 [z0; z1; z2] /\ complete [z0; z1; z2] 3 0 /\ used_once [z0; z1; z2] 3 0 /\
  text_of [z0; z1; z2] 3 0 ["?"; "?"] =
    "With active AS (SELECT id FROM users WHERE kind=?) SELECT DISTINCT a.id FROM active AS a INNER JOIN shops ON a.shop=shops.id WHERE a.x=?" /\
  args_of [z0; z1; z2] 3 0 = [I 3; I 7].
Proof.
  apply conj; [exact book2_ok|]. apply conj. { intros j [<-|[]]; intros i []. }
  apply conj. { constructor. }
  apply conj; vm_compute; reflexivity.
Qed.
