(** Property C109: what ScanBuilder and CountBuilder return.  The vocabulary is in
    Spec_exec.v, Spec_nexec.v and Spec_fetch.v; the proofs are in Fetch_proofs.v. *)
From Coq Require Import Strings.String Strings.Ascii NArith ZArith List Bool Lia Sorting.Permutation Sorting.Sorted.
From Verif Require Import GoStr GoNum Syntax Value Util Model Sqlf Sqlb Scan Spec_syntax RefSem Spec_build Spec_util Spec_eval Spec_query Spec_sql Spec_nest Spec_interp Spec_answer Spec_views
  Prop_pages Prop_exec Prop_nexec Fetch_proofs Spec_sqltok Spec_read Spec_nread Spec_exec Spec_nexec Spec_fetch.
Import ListNotations.
Open Scope string_scope.

(** C109: ScanBuilder returns one item for every row of an answer of the described
    statement, decoded from what was selected; ordering columns that were added
    for SELECT DISTINCT are not seen ... *)
Theorem c109_scan_question : forall m os style, style <> style_dollar -> stmt_ok m -> named m -> describes os m ->
  exists q, apply_ops os new_qb = ROk q /\ forall n, 5 + m_size m <= n -> exists text args,
    fst (build_query n style [q] (BQuery (Some 0))) = ROk (text, args) /\ forall E show db, serves E show db ->
      (forall e, db text args = inr e -> forall T nf (assign : list value -> T + err), scan_builder n [q] db (BQuery (Some 0)) style nf assign = ROk (inr e)) /\
      (forall rw, db text args = inl rw -> exists l, answers (database_of E) (trimmed m) l /\ forall T nf (assign : list value -> T + err) xs, nf <= List.length (m_cols m) ->
        scan_builder n [q] db (BQuery (Some 0)) style nf assign = ROk (inl xs) <-> Forall2 (fun r x => assign (firstn nf (map show (fst r))) = inl x) l xs).
Proof. exact fetch_question. Qed.
Print Assumptions c109_scan_question.
Theorem c109_scan_dollar : forall m os, stmt_ok m -> named m -> describes os m -> forallb hashable (m_args m) = true ->
  exists q, apply_ops os new_qb = ROk q /\ forall n, 5 + m_size m <= n -> exists text args,
    fst (build_query n style_dollar [q] (BQuery (Some 0))) = ROk (text, args) /\ forall E show db, by_value E -> serves E show db ->
      (forall e, db text args = inr e -> forall T nf (assign : list value -> T + err), scan_builder n [q] db (BQuery (Some 0)) style_dollar nf assign = ROk (inr e)) /\
      (forall rw, db text args = inl rw -> exists l, answers (database_of E) (trimmed m) l /\ forall T nf (assign : list value -> T + err) xs, nf <= List.length (m_cols m) ->
        scan_builder n [q] db (BQuery (Some 0)) style_dollar nf assign = ROk (inl xs) <-> Forall2 (fun r x => assign (firstn nf (map show (fst r))) = inl x) l xs).
Proof. exact fetch_dollar. Qed.
Print Assumptions c109_scan_dollar.

(** ... and CountBuilder returns the number of rows of an answer, also for
    statements of several queries, unless the database reports an error. *)
Theorem c109_count_question : forall B oss style d id, style <> style_dollar -> book oss B -> Forall xnamed B -> complete B d id -> used_once B d id ->
  exists qs, made oss qs /\ forall n, size_of B d id <= n -> exists text args,
    fst (build_query n style qs (query id)) = ROk (text, args) /\ forall E sub_test ft db, serves_counts E sub_test db ->
    (exists rows, book_answers E sub_test (map lean B) d id rows /\ count_builder n qs ft db (query id) style = ROk (Z.of_nat (List.length rows))) \/
    (exists e, db (counted text) args = QErr e /\ forall k, count_builder n qs ft db (query id) style <> ROk k).
Proof. exact count_question. Qed.
Print Assumptions c109_count_question.
Theorem c109_count_dollar : forall B oss d id, book oss B -> Forall xnamed B -> complete B d id -> used_once B d id -> forallb hashable (args_of B d id) = true ->
  exists qs, made oss qs /\ forall n, size_of B d id <= n -> exists text args,
    fst (build_query n style_dollar qs (query id)) = ROk (text, args) /\ forall E sub_test ft db, by_value E -> serves_counts E sub_test db ->
    (exists rows, book_answers E sub_test (map lean B) d id rows /\ count_builder n qs ft db (query id) style_dollar = ROk (Z.of_nat (List.length rows))) \/
    (exists e, db (counted text) args = QErr e /\ forall k, count_builder n qs ft db (query id) style_dollar <> ROk k).
Proof. exact count_dollar. Qed.
Print Assumptions c109_count_dollar.

(** All answers of a SELECT have the same number of rows. *)
Theorem c109_number : forall D m l l', answers D m l -> answers D m l' -> List.length l = List.length l'.
Proof. exact same_number. Qed.
Print Assumptions c109_number.

(** With Distinct, what is scanned has no row twice if everything ordered by is
    selected. *)
Theorem c109_distinct : forall D m l, m_distinct m = true -> orders_selected m -> answers D m l -> NoDup (map fst l).
Proof. exact distinct_rows. Qed.
Print Assumptions c109_distinct.

(** Databases that answer one query. *)
Definition is_int (z : Z) (v : value) : bool := match v with VInt t y => String.eqb t "int" && Z.eqb y z | _ => false end.
Lemma is_int_ok : forall z v, is_int z v = true -> v = VInt "int" z.
Proof. intros z v H. destruct v; try discriminate H. cbn in H. apply andb_prop in H. destruct H as [H K]. apply String.eqb_eq in H. apply Z.eqb_eq in K. congruence. Qed.
Fixpoint are_ints (zs : list Z) (vs : list value) : bool :=
  match zs, vs with [], [] => true | z :: zs', v :: vs' => is_int z v && are_ints zs' vs' | _, _ => false end.
Lemma are_ints_ok : forall zs vs, are_ints zs vs = true -> vs = map (VInt "int") zs.
Proof.
  induction zs as [|z zs IH]; intros [|v vs] H; try discriminate H; [reflexivity|]. cbn in H. apply andb_prop in H. destruct H as [H K]. cbn. rewrite (is_int_ok z v H), (IH vs K). reflexivity.
Qed.
(** The numbers of the users of C108, each once, the last user first. *)
Definition m9 : stmt := mkStmt true [("u", "n")] ("users", "u") [] [Compare ("u", "id") ">" (VInt "int" 0)] [] [(("u", "id"), 3%N)] 0 0.
Definition os9 : list qop :=
  [OSelect [column "u" "n"]; ODistinct; OFrom ("users", "u"); OWhere2 (column "u" "id") ">" (VInt "int" 0); OOrderBy (column "u" "id") 3].
Definition text9 : string := "SELECT DISTINCT u.n, u.id AS _order_1 FROM users AS u WHERE u.id>? ORDER BY _order_1 DESC".
Definition rows9 : list (list Z) := [[7%Z; 3%Z]; [5%Z; 2%Z]; [7%Z; 1%Z]].
Definition db9 (text : string) (args : list value) : Scan.rows + err :=
  if String.eqb text text9 && are_ints [0%Z] args then inl (mkRows (inl ["n"; "_order_1"]) (map (map (VInt "int64")) rows9) None) else inr (EMsg "syntax error").
Definition one_int (l : list value) : Z + err := match l with [VInt _ z] => inl z | _ => inr (EMsg "conversion") end.
Lemma db9_serves : serves users (VInt "int64") db9.
Proof.
  intros text args rw H. unfold db9 in H. destruct (String.eqb text text9 && are_ints [0%Z] args) eqn:C; [|discriminate H]. injection H as <-.
  apply andb_prop in C. destruct C as [C1 C2]. apply String.eqb_eq in C1. apply are_ints_ok in C2. subst text args.
  eexists. exists rows9. split; [vm_compute; reflexivity|]. split; [|split; [vm_compute; reflexivity|reflexivity]].
  do 4 eexists. split; [vm_compute; reflexivity|]. split; [vm_compute; reflexivity|]. split; [cbn; reflexivity|].
  split; [exists [([7%Z; 3%Z], [3%Z]); ([5%Z; 2%Z], [2%Z]); ([7%Z; 1%Z], [1%Z])]|]. 2: { instantiate (1 := [([7%Z; 3%Z], [3%Z]); ([5%Z; 2%Z], [2%Z]); ([7%Z; 1%Z], [1%Z])]). reflexivity. }
  cbn [m_distinct]. split; [split|split; [|reflexivity]].
  - repeat constructor; cbn; intuition discriminate.
  - intros x. cbn. tauto.
  - repeat constructor; cbn; lia.
Qed.
(** Two rows of C106. *)
Definition db3 (text : string) (args : list value) : qrow :=
  if String.eqb text (counted text3) && are_ints [1; 10; 20]%Z args then QCount 2 else QErr (EMsg "syntax error").
Lemma db3_serves : serves_counts engine1 among db3.
Proof.
  intros text args. unfold db3. destruct (String.eqb text (counted text3) && are_ints [1; 10; 20]%Z args) eqn:C; [|exact Logic.I].
  apply andb_prop in C. destruct C as [C1 C2]. apply String.eqb_eq in C1. apply are_ints_ok in C2. subst text args.
  destruct (c106_example (fun _ => "")) as (_ & _ & _ & _ & _ & _ & _ & _ & _ & _ & _ & _ & _ & _ & q & k & R & X).
  exists (tokens false text3), "list", q, k, [[2%Z]; [30%Z]]. split; [vm_compute; reflexivity|]. split; [exact R|]. split; [exact X|reflexivity].
Qed.
Example c109_example :
  stmt_ok m9 /\ named m9 /\ describes os9 m9 /\ forallb hashable (m_args m9) = true /\ serves users (VInt "int64") db9 /\ by_value users /\
  (exists q, apply_ops os9 new_qb = ROk q /\ fst (build_query 20 style_question [q] (BQuery (Some 0))) = ROk (text9, [VInt "int" 0]) /\
    scan_builder 20 [q] db9 (BQuery (Some 0)) style_question 1 one_int = ROk (inl [7; 5; 7]%Z)) /\
  book calls3 book3 /\ Forall xnamed book3 /\ complete book3 2 0 /\ used_once book3 2 0 /\ serves_counts engine1 among db3 /\
  (exists qs, made calls3 qs /\ count_builder 60 qs (fun _ => "") db3 (query 0) style_question = ROk 2%Z).
Proof.
  apply conj.
  { apply conj; [|intros j []]. apply conj; [discriminate|]. apply conj; [reflexivity|]. apply conj; [constructor|].
    apply conj; [cbn; repeat constructor; cbn; intuition discriminate|].
    apply conj; [cbn [m_used m9 m_cols m_conds m_groups m_orders m_joins map app cond_col fst snd flat_map]; repeat (constructor; [split; [reflexivity|cbn; tauto]|]); constructor|].
    apply conj; [cbn [m9 m_conds]; repeat constructor|]. repeat (constructor; [discriminate|]). constructor. }
  apply conj.
  { apply conj; [discriminate|]. apply conj; [repeat (constructor; [is_col|]); constructor|]. apply conj; [split; [is_name|right; is_name]|].
    apply conj; [constructor|]. apply conj; [cbn [m9 m_conds]; repeat (constructor; [split; [is_col|first [exact Logic.I|left; split; reflexivity]]|]); constructor|].
    apply conj; [constructor|]. constructor; [split; [is_col|discriminate]|constructor]. }
  apply conj; [unfold describes; do 10 (apply conj; [reflexivity|]); reflexivity|]. apply conj; [reflexivity|]. apply conj; [exact db9_serves|].
  apply conj; [apply c108_example|].
  apply conj; [eexists; split; [cbv; reflexivity|]; split; vm_compute; reflexivity|].
  apply conj; [exact book3_calls|]. apply conj; [exact book3_named|]. apply conj; [apply (c106_example (fun _ => ""))|]. apply conj; [apply (c106_example (fun _ => ""))|].
  apply conj; [exact db3_serves|]. eexists. split; [unfold calls3; repeat (constructor; [cbv; reflexivity|]); constructor|vm_compute; reflexivity].
Qed.

(** Not so when something else is ordered by: the added column makes rows
    different, and ScanBuilder returns the same item twice. *)
Theorem c109_distinct_refuted : exists q, m_distinct m9 = true /\ describes os9 m9 /\ apply_ops os9 new_qb = ROk q /\ serves users (VInt "int64") db9 /\
  scan_builder 20 [q] db9 (BQuery (Some 0)) style_question 1 one_int = ROk (inl [7; 5; 7]%Z).
Proof.
  eexists. split; [reflexivity|]. split; [unfold describes; do 10 (apply conj; [reflexivity|]); reflexivity|]. split; [cbv; reflexivity|]. split; [exact db9_serves|vm_compute; reflexivity].
Qed.
Print Assumptions c109_distinct_refuted.
