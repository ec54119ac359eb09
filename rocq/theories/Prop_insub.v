(** Property C127: Distinct and OrderBy in subqueries change nothing.  The
    vocabulary is in Spec_insub.v and Spec_undistinct.v; the proofs are in
    Insub_proofs.v. *)
From Coq Require Import Strings.String Strings.Ascii NArith ZArith List Bool Lia Sorting.Permutation Sorting.Sorted.
From Verif Require Import GoStr GoNum Syntax Value Util Model Sqlf Sqlb Spec_syntax RefSem Spec_build Spec_util Spec_eval Spec_query Spec_sql Spec_nest Spec_interp Spec_answer Spec_views
  Nexec_proofs Insub_proofs Prop_exec Prop_nexec Prop_undistinct Spec_sqltok Spec_read Spec_nread Spec_exec Spec_nexec Spec_undistinct Spec_insub.
Import ListNotations.
Open Scope string_scope.

(** C127: as C124, also for queries used as subqueries, if the tests of subqueries
    only ask which rows there are, as IN does. *)
Theorem c127_question : forall B B' oss oss' style d id, style <> style_dollar -> book oss B -> book oss' B' -> Forall xnamed B -> Forall xnamed B' -> complete B d id -> used_once B d id -> used_once B' d id ->
  redistinct_within B B' -> kept B B' id ->
  exists qs qs', made oss qs /\ made oss' qs' /\ forall n, size_of B d id <= n -> size_of B' d id <= n -> exists s args s' args',
    fst (build_query n style qs (query id)) = ROk (s, args) /\ fst (build_query n style qs' (query id)) = ROk (s', args') /\
    forall E sub_test rows, orderly (database_of E) -> setwise E sub_test -> executes_all E sub_test args s rows <-> executes_all E sub_test args' s' rows.
Proof. exact insub_question. Qed.
Print Assumptions c127_question.
Theorem c127_dollar : forall B B' oss oss' d id, book oss B -> book oss' B' -> Forall xnamed B -> Forall xnamed B' -> complete B d id -> used_once B d id -> used_once B' d id ->
  redistinct_within B B' -> kept B B' id -> forallb hashable (args_of B d id) = true ->
  exists qs qs', made oss qs /\ made oss' qs' /\ forall n, size_of B d id <= n -> size_of B' d id <= n -> exists s args s' args',
    fst (build_query n style_dollar qs (query id)) = ROk (s, args) /\ fst (build_query n style_dollar qs' (query id)) = ROk (s', args') /\
    forall E sub_test rows, by_value E -> orderly (database_of E) -> setwise E sub_test -> executes_all E sub_test args s rows <-> executes_all E sub_test args' s' rows.
Proof. exact insub_dollar. Qed.
Print Assumptions c127_dollar.

(** The users with orders, with and without Distinct in the subquery. *)
Definition having_bought : xstmt := mkX (mkStmt false [("u", "id")] ("users", "u") [] [] [] [] 0 0) [] [Sub ("u", "id") " IN " 1] [].
Definition calls_bought (d : bool) (n : Z) : list (list qop) :=
  [[OSelect [column "u" "id"]; OFrom ("users", "u"); xcond_call (Sub ("u", "id") " IN " 1)]; nth 1 (calls_high false d n) []].
Lemma bought_book : forall d n, n = 0%Z \/ n = 2%Z -> book (calls_bought d n) [having_bought; buyers d n].
Proof.
  intros d n Hn. pose proof (high_book false d n Hn) as H. inversion_clear H as [|? ? ? ? _ H1]. inversion_clear H1 as [|? ? ? ? A _]. constructor; [split|constructor; [exact A|constructor]].
  - split; [apply names3; reflexivity|]. split; [reflexivity|]. split; [constructor; [split; reflexivity|constructor]|]. split; [constructor; [right; left; reflexivity|constructor]|].
    split; [split; [constructor|left; split; [intros j []|intros w []]]|]. intros j [].
  - unfold xdescribes; repeat (split; [reflexivity|]); reflexivity.
Qed.
Lemma bought_named : forall d n, Forall xnamed [having_bought; buyers d n].
Proof. intros d n. repeat (constructor; [is_xnamed|]); constructor. Qed.
Lemma bought_complete : forall d n, complete [having_bought; buyers d n] 2 0.
Proof. intros d n j Hj. cbn in Hj. destruct Hj as [<-|[]]. intros i []. Qed.
Lemma bought_once : forall d n, used_once [having_bought; buyers d n] 2 0.
Proof. intros [] n; constructor. Qed.
Lemma among_setwise : setwise engine1 among.
Proof.
  intros o v a a' H. unfold among. apply eq_iff_eq_true. rewrite !existsb_exists. split; intros (r & Hr & E); exists r; (split; [apply H; exact Hr|exact E]).
Qed.
Example c127_example :
  let B := [having_bought; buyers true 0] in let B' := [having_bought; buyers false 0] in
  book (calls_bought true 0) B /\ book (calls_bought false 0) B' /\ Forall xnamed B /\ Forall xnamed B' /\ complete B 2 0 /\ used_once B 2 0 /\ used_once B' 2 0 /\
  redistinct_within B B' /\ kept B B' 0 /\ forallb hashable (args_of B 2 0) = true /\ orderly (database_of engine1) /\ setwise engine1 among /\
  (exists qs, made (calls_bought true 0) qs /\ fst (build_query 60 style_question qs (query 0)) =
    ROk ("SELECT u.id FROM users AS u WHERE u.id IN (SELECT DISTINCT o.user FROM orders AS o)", [])) /\
  (exists qs, made (calls_bought false 0) qs /\ fst (build_query 60 style_question qs (query 0)) =
    ROk ("SELECT u.id FROM users AS u WHERE u.id IN (SELECT o.user FROM orders AS o)", [])).
Proof.
  cbv zeta. apply conj; [apply bought_book; auto|]. apply conj; [apply bought_book; auto|]. apply conj; [apply bought_named|]. apply conj; [apply bought_named|]. apply conj; [apply bought_complete|]. apply conj; [apply bought_once|]. apply conj; [apply bought_once|].
  apply conj; [split; [constructor; [repeat (split; [reflexivity|]); left; reflexivity|constructor; [repeat (split; [reflexivity|]); right; left; repeat split|constructor]]|]|].
  { intros x i [<-|[<-|[]]] []. }
  apply conj; [left; reflexivity|]. apply conj; [reflexivity|]. apply conj; [exact down_orderly|]. apply conj; [exact among_setwise|].
  split; eexists; (split; [repeat (constructor; [cbv; reflexivity|]); constructor|vm_compute; reflexivity]).
Qed.

(** With bounds it can matter, as in C124. *)
Theorem c127_limit_refuted :
  let B := [having_bought; buyers false 2] in let B' := [having_bought; buyers true 2] in
  book (calls_bought false 2) B /\ book (calls_bought true 2) B' /\ Forall xnamed B /\ Forall xnamed B' /\ complete B 2 0 /\ used_once B 2 0 /\ used_once B' 2 0 /\ kept B B' 0 /\
  exists qs qs' s args s' args', made (calls_bought false 2) qs /\ made (calls_bought true 2) qs' /\
    fst (build_query 60 style_question qs (query 0)) = ROk (s, args) /\ fst (build_query 60 style_question qs' (query 0)) = ROk (s', args') /\
    executes_all engine1 among args s [[1%Z]] /\ ~ executes_all engine1 among args' s' [[1%Z]].
Proof.
  cbv zeta. apply conj; [apply bought_book; auto|]. apply conj; [apply bought_book; auto|]. apply conj; [apply bought_named|]. apply conj; [apply bought_named|]. apply conj; [apply bought_complete|]. apply conj; [apply bought_once|]. apply conj; [apply bought_once|].
  apply conj; [left; reflexivity|].
  destruct (nexec_question _ _ style_question 2 0 ltac:(discriminate) (bought_book false 2 (or_intror eq_refl)) (bought_named _ _) (bought_complete _ _) (bought_once _ _)) as (qs & A & H).
  destruct (nexec_question _ _ style_question 2 0 ltac:(discriminate) (bought_book true 2 (or_intror eq_refl)) (bought_named _ _) (bought_complete _ _) (bought_once _ _)) as (qs' & A' & H').
  destruct (H 60 ltac:(vm_compute; lia)) as (s & args & R & I). destruct (H' 60 ltac:(vm_compute; lia)) as (s' & args' & R' & I').
  exists qs, qs', s, args, s', args'. apply conj; [exact A|]. apply conj; [exact A'|]. apply conj; [exact R|]. apply conj; [exact R'|]. rewrite I, I'. split.
  - exists (d_rows numbers), [(("u", "id"), fun v => among [TWord "IN"] v [[1%Z]; [1%Z]])], [([1%Z], [])], []. split; [reflexivity|]. split.
    { constructor; [|constructor]. exists [[1%Z]; [1%Z]]. split; [|reflexivity]. exists (d_rows numbers), [], [([1%Z], []); ([1%Z], [])], []. split; [reflexivity|]. split; [constructor|]. split; [|split; [constructor|reflexivity]].
      exists [([1%Z], []); ([1%Z], []); ([2%Z], [])]. split; [vm_compute; apply perm_skip, perm_swap|]. split; [repeat constructor|reflexivity]. }
    split; [exists [([1%Z], [])]; split; [vm_compute; apply Permutation_refl|split; [repeat constructor|reflexivity]]|]. split; [constructor|reflexivity].
  - intros (E' & ts & a & us & W & T & (z & P & _ & L) & U & G). cbn in W. subst E'. inversion U. subst us. cbn [together] in G. inversion T as [|? t ? ts' Tt T' E1 E2]. subst ts. inversion T'. subst ts'.
    destruct Tt as (u & Hu & ->). destruct Hu as (E' & ts' & a' & us & W' & T5 & (y & (N & M) & _ & L') & U5 & J). inversion U5. subst us. inversion T5. subst ts'. cbn in W'. subst E'. cbn in J. subst u.
    vm_compute in M. assert (Y : forall r, r = ([1%Z], []) \/ r = ([2%Z], []) -> In r y) by (intros r Hr; apply M; cbn; intuition (subst; auto)).
    assert (Q : List.length y <= 2). { apply (NoDup_incl_length N (l' := [([1%Z], []); ([2%Z], [])])). intros r Hr. apply M in Hr. cbn in Hr. cbn. tauto. }
    assert (K : cut (x_stmt (lean (buyers true 2))) y = y) by exact (firstn_all2 y Q). rewrite K in L'. subst a'.
    set (b := map (out_row (database_of engine1) (x_stmt (lean (buyers true 2)))) y) in *.
    assert (X : forall k, k = 1%Z \/ k = 2%Z -> among [TWord "IN"] k b = true).
    { intros k Hk. unfold among. apply existsb_exists. exists [k]. split; [|apply Z.eqb_refl]. apply in_map_iff. exists ([k], []). split; [reflexivity|]. apply Y. destruct Hk as [-> | ->]; auto. }
    assert (P' : Permutation z [([1%Z], []); ([2%Z], [])]).
    { eapply Permutation_trans; [exact P|]. match goal with |- Permutation ?l _ => assert (El : l = [([1%Z], []); ([2%Z], [])]) end; [|rewrite El; apply Permutation_refl].
      unfold results_where, groups_of, where_rows, from_rows. cbn -[among tokens]. change (tokens false " IN ") with [TWord "IN"]. match goal with |- context [among _ _ ?l] => change l with b end. rewrite !X by auto. reflexivity. }
    apply Permutation_length in P'. assert (La : List.length a = 2) by (rewrite L; exact P'). apply (f_equal (@List.length _)) in G. rewrite map_length in G. pose proof (eq_trans G La) as X1. discriminate X1.
Qed.
Print Assumptions c127_limit_refuted.
