(** Property C106: executing what was built of several queries gives the answers
    of the statement that was described.  The vocabulary is in Spec_nexec.v; the
    proofs are in Nexec_proofs.v. *)
From Coq Require Import Strings.String Strings.Ascii NArith ZArith List Bool Lia Sorting.Permutation Sorting.Sorted.
From Verif Require Import GoStr GoNum Syntax Value Util Model Sqlf Sqlb Spec_syntax RefSem Spec_build Spec_util Spec_eval Spec_query Spec_sql Spec_nest Spec_interp Spec_answer Spec_views
  Nexec_proofs Prop_exec Spec_sqltok Spec_read Spec_nread Spec_exec Spec_nexec.
Import ListNotations.
Open Scope string_scope.

(** C106: executing the text with the arguments gives the answers of the
    statement, without the joins and common table expressions that do not appear,
    in Question style on any database ... *)
Theorem c106_question : forall B oss style d id, style <> style_dollar -> book oss B -> Forall xnamed B -> complete B d id -> used_once B d id ->
  exists qs, made oss qs /\ forall n, size_of B d id <= n -> exists text args,
    fst (build_query n style qs (query id)) = ROk (text, args) /\
    forall E sub_test rows, executes_all E sub_test args text rows <-> book_answers E sub_test (map lean B) d id rows.
Proof. exact nexec_question. Qed.
Print Assumptions c106_question.

(** ... and in Dollar style on those that do not tell values apart that are equal
    in Go. *)
Theorem c106_dollar : forall B oss d id, book oss B -> Forall xnamed B -> complete B d id -> used_once B d id -> forallb hashable (args_of B d id) = true ->
  exists qs, made oss qs /\ forall n, size_of B d id <= n -> exists text args,
    fst (build_query n style_dollar qs (query id)) = ROk (text, args) /\
    forall E sub_test rows, by_value E -> executes_all E sub_test args text rows <-> book_answers E sub_test (map lean B) d id rows.
Proof. exact nexec_dollar. Qed.
Print Assumptions c106_dollar.

(** These are the answers of the whole statement, under the conditions of C95. *)
Theorem c106_whole : forall E sub_test B d id, orderly (database_of E) -> Forall xstmt_ok B -> Forall (declared B) B -> Forall (sensible (database_of E)) B -> whole B d id ->
  forall rows, book_answers E sub_test (map lean B) d id rows <-> book_answers E sub_test B d id rows.
Proof. exact book_trimmed. Qed.
Print Assumptions c106_whole.

(** The two styles give the same answers. *)
Theorem c106_styles : forall B oss style d id, style <> style_dollar -> book oss B -> Forall xnamed B -> complete B d id -> used_once B d id -> forallb hashable (args_of B d id) = true ->
  exists qs, made oss qs /\ forall n, size_of B d id <= n -> exists s args s' args',
    fst (build_query n style qs (query id)) = ROk (s, args) /\ fst (build_query n style_dollar qs (query id)) = ROk (s', args') /\
    forall E sub_test rows, by_value E -> executes_all E sub_test args s rows <-> executes_all E sub_test args' s' rows.
Proof. exact nexec_styles. Qed.
Print Assumptions c106_styles.

(** And so does the interpolated text, with any arguments, if the literals have
    the values of the arguments they are written for. *)
Theorem c106_interpolated : forall ft B oss style d id lits, style <> style_dollar -> book oss B -> Forall xnamed B -> Forall plain_names B -> complete B d id -> used_once B d id ->
  Forall2 (literal ft) (args_of B d id) lits -> forallb (readable false ft) (args_of B d id) = true ->
  exists qs, made oss qs /\ forall n, size_of B d id <= n -> exists s args out,
    fst (build_query n style qs (query id)) = ROk (s, args) /\ interpolate ft s args = ROk out /\
    forall E sub_test any rows, reads_literals E ft (args_of B d id) -> executes_all E sub_test any out rows <-> executes_all E sub_test args s rows.
Proof. exact nexec_shown. Qed.
Print Assumptions c106_interpolated.
Theorem c106_interpolated_dollar : forall ft B oss d id lits, book oss B -> Forall xnamed B -> Forall plain_names B -> complete B d id -> used_once B d id -> forallb hashable (args_of B d id) = true ->
  (Z.of_nat (List.length (args_of B d id)) < 9223372036854775808)%Z -> Forall2 (literal ft) (args_of B d id) lits -> literal_by_value ft (args_of B d id) ->
  forallb (readable false ft) (args_of B d id) = true ->
  exists qs, made oss qs /\ forall n, size_of B d id <= n -> exists s args out,
    fst (build_query n style_dollar qs (query id)) = ROk (s, args) /\ interpolate ft s args = ROk out /\
    forall E sub_test any rows, by_value E -> reads_literals E ft (args_of B d id) -> executes_all E sub_test any out rows <-> executes_all E sub_test args s rows.
Proof. exact nexec_shown_dollar. Qed.
Print Assumptions c106_interpolated_dollar.

(** Users with an order of more than 10 among those after the first, and the
    totals of more than 20, on the database of C105. *)
Definition above (c : col) (z : Z) : xcond := Plain (Compare c ">" (VInt "int" z)).
Definition simple_query (c : col) (t : tname) (x : xcond) : xstmt := mkX (mkStmt false [c] t [] [] [] [] 0 0) [] [x] [].
Definition q0 : xstmt := mkX (mkStmt false [("a", "id")] ("active", "a") [] [] [] [] 0 0) [mkWith "active" [] 1 true] [Sub ("a", "id") " IN " 2] [3].
Definition q1 : xstmt := simple_query ("u", "id") ("users", "u") (above ("u", "id") 1).
Definition q2 : xstmt := simple_query ("o", "user") ("orders", "o") (above ("o", "total") 10).
Definition q3 : xstmt := simple_query ("o", "total") ("orders", "o") (above ("o", "total") 20).
Definition book3 : list xstmt := [q0; q1; q2; q3].
Definition calls_of (c : col) (t : tname) (w : col) (z : Z) : list qop := [OWhere2 (column (fst w) (snd w)) ">" (VInt "int" z); OSelect [column (fst c) (snd c)]; OFrom t].
Definition calls3 : list (list qop) :=
  [[OWith "active" (query 1) []; OUnion [query 3]; OSelect [column "a" "id"]; OFrom ("active", "a"); OWhere (Some (Ff "#f1 IN (#f2)" [column "a" "id"; query 2]))];
   calls_of ("u", "id") ("users", "u") ("u", "id") 1; calls_of ("o", "user") ("orders", "o") ("o", "total") 10; calls_of ("o", "total") ("orders", "o") ("o", "total") 20].
Definition text3 : string :=
  "With active AS (SELECT u.id FROM users AS u WHERE u.id>?) SELECT a.id FROM active AS a WHERE a.id IN (SELECT o.user FROM orders AS o WHERE o.total>?) UNION (SELECT o.total FROM orders AS o WHERE o.total>?)".
Definition among (o : list token) (v : Z) (rows : list (list Z)) : bool := existsb (fun r => Z.eqb (hd 0%Z r) v) rows.
Lemma names3 : forall c t, col_ok c = true -> table_ok t = true -> fst c = known_as t -> names_ok (mkStmt false [c] t [] [] [] [] 0 0).
Proof.
  intros c t Hc Ht K. apply conj; [discriminate|]. apply conj; [exact Ht|]. apply conj; [constructor|]. apply conj; [constructor; [intros []|constructor]|].
  apply conj; [constructor; [split; [exact Hc|right; left; symmetry; exact K]|constructor]|]. apply conj; constructor.
Qed.
Lemma simple_ok : forall c t w z, col_ok c = true -> table_ok t = true -> fst c = known_as t -> col_ok w = true -> fst w = known_as t -> xstmt_ok (simple_query c t (above w z)).
Proof.
  intros c t w z Hc Ht K Hw Kw. split; [apply names3; assumption|]. split; [reflexivity|]. split; [constructor; [|constructor]|].
  { cbn. split; [exact Hw|reflexivity]. }
  split; [constructor; [right; left; symmetry; exact Kw|constructor]|]. split; [split; [constructor|right; split; intros v []]|]. intros j [].
Qed.
Lemma q0_ok : xstmt_ok q0.
Proof.
  split; [apply names3; reflexivity|]. split; [reflexivity|]. split; [constructor; [split; reflexivity|constructor]|]. split; [constructor; [right; left; reflexivity|constructor]|].
  split; [split; [constructor; [intros []|constructor]|left; split; [intros j []|intros w [<-|[]]; split; [reflexivity|exists ("active", "a"); split; [left; reflexivity|reflexivity]]]]|]. intros j [].
Qed.
Lemma book3_ok : Forall xstmt_ok book3.
Proof. constructor; [exact q0_ok|]. do 3 (constructor; [apply simple_ok; reflexivity|]). constructor. Qed.
Ltac is_xnamed := apply conj; [apply conj; [discriminate|]; apply conj; [repeat (constructor; [is_col|]); constructor|]; apply conj; [split; [is_name|right; is_name]|];
    apply conj; [constructor|]; apply conj; [constructor|]; apply conj; constructor|]; apply conj; [reflexivity|]; apply conj; [repeat (constructor; [is_name|]); constructor|];
  repeat (constructor; [split; [is_col|first [left; split; reflexivity|right; left; reflexivity]]|]); constructor.
Lemma book3_named : Forall xnamed book3.
Proof. unfold book3. repeat (constructor; [is_xnamed|]). constructor. Qed.
Lemma book3_calls : book calls3 book3.
Proof.
  pose proof book3_ok as H. unfold book3 in *. repeat match goal with H : Forall _ (_ :: _) |- _ => inversion_clear H end.
  unfold calls3. repeat (constructor; [split; [assumption|unfold xdescribes; repeat (split; [reflexivity|]); reflexivity]|]). constructor.
Qed.
Lemma down_orderly : orderly (database_of engine1).
Proof. intro os. cbn. unfold down. destruct os as [|[|[[p|p|]|p|]] os]; split; intros; auto; lia. Qed.
Lemma book3_reads : forall d id a, In a (reads book3 d id) -> id <> 0 -> a = "orders" \/ a = "users".
Proof.
  intros [|d] id a H N; [destruct H|]. destruct id as [|[|[|[|id]]]]; [congruence|..]; cbn in H; try (destruct H as [<-|[]]; auto). destruct id; destruct H.
Qed.
Lemma book3_declared : Forall (declared book3) book3.
Proof.
  constructor; [|do 3 (constructor; [split; [intros d w v []|intros d id v _ []]|]); constructor]. split.
  - intros d w v [<-|[]] [<-|[]] Hr. apply book3_reads in Hr; [|discriminate]. destruct Hr as [E|E]; discriminate E.
  - intros d id v Hi [<-|[]] Hr. apply book3_reads in Hr; [|destruct Hi as [<-|[<-|[]]]; discriminate]. destruct Hr as [E|E]; discriminate E.
Qed.
Lemma book3_sensible : Forall (sensible (database_of engine1)) book3.
Proof. unfold book3. repeat (constructor; [split; [intros j i []|split; [left; reflexivity|intros c g g' _ _; reflexivity]]|]). constructor. Qed.
Ltac simple_run := do 7 eexists; apply conj; [vm_compute; reflexivity|]; apply conj; [split; reflexivity|];
  apply conj; [do 2 eexists; split; [vm_compute; reflexivity|split; [split; reflexivity|reflexivity]]|];
  apply conj; [eexists; split; [apply Permutation_refl|split; [cbn; repeat constructor|reflexivity]]|]; apply conj; [split; reflexivity|vm_compute; reflexivity].
Example c106_example : forall ft,
  Forall xstmt_ok book3 /\ book calls3 book3 /\ Forall xnamed book3 /\ Forall plain_names book3 /\ complete book3 2 0 /\ used_once book3 2 0 /\
  orderly (database_of engine1) /\ Forall (declared book3) book3 /\ Forall (sensible (database_of engine1)) book3 /\ whole book3 2 0 /\
  by_value engine1 /\ reads_literals engine1 ft (args_of book3 2 0) /\ Forall2 (literal ft) (args_of book3 2 0) ["1"; "10"; "20"] /\
  text_of book3 2 0 ["?"; "?"; "?"] = text3 /\ executes_all engine1 among (args_of book3 2 0) text3 [[2%Z]; [30%Z]].
Proof.
  intros ft. split; [exact book3_ok|]. split; [exact book3_calls|]. split; [exact book3_named|].
  split; [repeat constructor|]. split; [intros j Hj; cbn in Hj; destruct Hj as [<-|[<-|[<-|[]]]]; intros i []|]. split; [constructor|].
  split; [exact down_orderly|]. split; [exact book3_declared|]. split; [exact book3_sensible|].
  split; [intros j Hj; cbn in Hj; destruct Hj as [<-|[<-|[<-|[]]]]; intros i []|]. split; [exact by_value1|].
  split; [intros v ts H S; cbn in H; repeat destruct H as [<-|H]; try (inversion S; subst; reflexivity); destruct H|].
  split; [repeat (constructor; [apply (lt_int ft "int")|]); constructor|]. split; [vm_compute; reflexivity|].
  do 2 eexists. split; [vm_compute; reflexivity|]. cbn [run].
  exists (x_stmt q0), (bind_table numbers "active" (map (Spec_views.named numbers ["id"]) [[2%Z]]) (d_rows numbers)), 1, [(("a", "id"), fun v => among [TWord "IN"] v [[2%Z]; [1%Z]])], 2, [([2%Z], [])], [[[30%Z]]].
  split; [vm_compute; reflexivity|]. split; [exists [[2%Z]], 1; split; [simple_run|split; reflexivity]|].
  split; [exists [[2%Z]; [1%Z]], 2, []; split; [simple_run|split; [split; reflexivity|reflexivity]]|].
  split; [exists [([2%Z], [])]; split; [vm_compute; apply Permutation_refl|split; [repeat constructor|reflexivity]]|].
  split; [exists [[30%Z]], 3, []; split; [simple_run|split; [split; reflexivity|reflexivity]]|].
  split; [repeat constructor; cbn; intuition discriminate|]. intro v. split.
  - intros [<-|[<-|[]]]; [exists [[2%Z]]|exists [[30%Z]]]; cbn; tauto.
  - intros (a & [<-|[<-|[]]] & [<-|[]]); cbn; tauto.
Qed.
