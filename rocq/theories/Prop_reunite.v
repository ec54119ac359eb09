(** Property C123: uniting a query repeatedly.  The vocabulary is in
    Spec_reunite.v; the proofs are in Reunite_proofs.v. *)
From Coq Require Import Strings.String Strings.Ascii NArith ZArith List Bool Lia Sorting.Permutation Sorting.Sorted.
From Verif Require Import GoStr GoNum Syntax Value Util Model Sqlf Sqlb Spec_syntax RefSem Spec_build Spec_util Spec_eval Spec_query Spec_sql Spec_nest Spec_interp Spec_answer Spec_views
  Nexec_proofs Reunite_proofs Prop_exec Prop_nexec Prop_shuffle Spec_sqltok Spec_read Spec_nread Spec_exec Spec_nexec Spec_reunite.
Import ListNotations.
Open Scope string_scope.

(** C123: executing gives all answers it gives with every united query given
    once, and no others if the answers of each united query have the same rows. *)
Theorem c123_question : forall B B' oss oss' style d id, style <> style_dollar -> book oss B -> book oss' B' -> Forall xnamed B -> complete B d id -> used_once B d id -> used_once B' d id -> reunited_book B B' ->
  exists qs qs', made oss qs /\ made oss' qs' /\ forall n, size_of B d id <= n -> size_of B' d id <= n -> exists s args s' args',
    fst (build_query n style qs (query id)) = ROk (s, args) /\ fst (build_query n style qs' (query id)) = ROk (s', args') /\
    forall E sub_test rows, (executes_all E sub_test args s rows -> executes_all E sub_test args' s' rows) /\
      (settled E sub_test (map lean B) -> executes_all E sub_test args' s' rows -> executes_all E sub_test args s rows).
Proof. exact reunite_question. Qed.
Print Assumptions c123_question.
Theorem c123_dollar : forall B B' oss oss' d id, book oss B -> book oss' B' -> Forall xnamed B -> complete B d id -> used_once B d id -> used_once B' d id -> reunited_book B B' -> forallb hashable (args_of B d id) = true ->
  exists qs qs', made oss qs /\ made oss' qs' /\ forall n, size_of B d id <= n -> size_of B' d id <= n -> exists s args s' args',
    fst (build_query n style_dollar qs (query id)) = ROk (s, args) /\ fst (build_query n style_dollar qs' (query id)) = ROk (s', args') /\
    forall E sub_test rows, by_value E -> (executes_all E sub_test args s rows -> executes_all E sub_test args' s' rows) /\
      (settled E sub_test (map lean B) -> executes_all E sub_test args' s' rows -> executes_all E sub_test args s rows).
Proof. exact reunite_dollar. Qed.
Print Assumptions c123_dollar.
(** They do if the united queries have no bounds, common table expressions,
    subqueries and unions. *)
Theorem c123_plain : forall E sub_test B, plain_unions B -> settled E sub_test (map lean B).
Proof. exact settled_plain. Qed.
Print Assumptions c123_plain.

(** The statement of C106, with its union given three times. *)
Example c123_example :
  let cs := [within] in let B := book5 cs [3] in let B' := book5 cs [3; 3; 3] in
  book (calls5 cs [3]) B /\ book (calls5 cs [3; 3; 3]) B' /\ Forall xnamed B /\ complete B 2 0 /\ used_once B 2 0 /\ used_once B' 2 0 /\ reunited_book B B' /\
  forallb hashable (args_of B 2 0) = true /\ plain_unions B /\
  (exists qs, made (calls5 cs [3; 3; 3]) qs /\ fst (build_query 60 style_question qs (query 0)) =
    ROk ("With active AS (SELECT u.id FROM users AS u WHERE u.id>?) SELECT a.id FROM active AS a WHERE a.id IN (SELECT o.user FROM orders AS o WHERE o.total>?) UNION (SELECT o.total FROM orders AS o WHERE o.total>?) UNION (SELECT o.total FROM orders AS o WHERE o.total>?) UNION (SELECT o.total FROM orders AS o WHERE o.total>?)",
      map (VInt "int") [1; 10; 20; 20; 20]%Z)).
Proof.
  cbv zeta. assert (K : forall us, xdescribes (hd [] (calls5 [within] us)) (many [within] us) -> book (calls5 [within] us) (book5 [within] us)).
  { intros us D. constructor; [split; [apply many_ok; constructor; [left; reflexivity|constructor]|exact D]|]. pose proof book3_calls as H. inversion_clear H as [|? ? ? ? _ H1]. inversion_clear H1 as [|? ? ? ? A1 H2]. inversion_clear H2 as [|? ? ? ? A2 H3]. inversion_clear H3 as [|? ? ? ? A3 _].
    repeat (constructor; [assumption|]). constructor. }
  apply conj; [apply K; unfold xdescribes; repeat (split; [reflexivity|]); reflexivity|].
  apply conj; [apply K; unfold xdescribes; repeat (split; [reflexivity|]); reflexivity|].
  apply conj; [unfold book5; repeat (constructor; [is_xnamed|]); constructor|].
  apply conj; [intros j Hj; cbn in Hj; repeat (destruct Hj as [<-|Hj]; [intros i []|]); destruct Hj|]. apply conj; [constructor|]. apply conj; [constructor|].
  apply conj; [constructor; [split; [reflexivity|split; [reflexivity|split; [reflexivity|split; [constructor; [intros []|constructor]|intros i; cbn; tauto]]]]|repeat (constructor; [repeat split; try constructor; auto|]); constructor]|].
  apply conj; [reflexivity|].
  apply conj; [intros x i y Hx Hi Hy; cbn in Hx; repeat (destruct Hx as [<-|Hx]; [cbn in Hi; repeat (destruct Hi as [<-|Hi]; [injection Hy as <-; repeat split; repeat constructor|]); destruct Hi|]); destruct Hx|].
  eexists. split; [repeat (constructor; [cbv; reflexivity|]); constructor|vm_compute; reflexivity].
Qed.

(** Without that, answers with repetition need not be answers without: a united
    query with LIMIT 1 gives one row each time, perhaps another one. *)
Definition far (us : list nat) : xstmt := mkX (mkStmt false [("o", "total")] ("orders", "o") [] [] [] [] 0 0) [] [above ("o", "total") 100] us.
Definition first_one : xstmt := mkX (mkStmt false [("u", "id")] ("users", "u") [] [] [] [] 1 0) [] [] [].
Definition calls_far (us : list nat) : list (list qop) :=
  [(calls_of ("o", "total") ("orders", "o") ("o", "total") 100 ++ [OUnion (map query us)])%list; [OSelect [column "u" "id"]; OFrom ("users", "u"); OLimit 1]].
Theorem c123_limit_refuted :
  let B := [far [1]; first_one] in let B' := [far [1; 1]; first_one] in
  book (calls_far [1]) B /\ book (calls_far [1; 1]) B' /\ Forall xnamed B /\ complete B 2 0 /\ used_once B 2 0 /\ used_once B' 2 0 /\ reunited_book B B' /\
  exists qs qs' s args s' args', made (calls_far [1]) qs /\ made (calls_far [1; 1]) qs' /\
    fst (build_query 60 style_question qs (query 0)) = ROk (s, args) /\ fst (build_query 60 style_question qs' (query 0)) = ROk (s', args') /\
    executes_all engine1 among args' s' [[1%Z]; [2%Z]] /\ ~ executes_all engine1 among args s [[1%Z]; [2%Z]].
Proof.
  cbv zeta.
  assert (K : forall us, xdescribes (hd [] (calls_far us)) (far us) -> book (calls_far us) [far us; first_one]).
  { intros us D. constructor; [split; [|exact D]|constructor; [split; [|unfold xdescribes; repeat (split; [reflexivity|]); reflexivity]|constructor]].
    - split; [apply names3; reflexivity|]. split; [reflexivity|]. split; [constructor; [split; reflexivity|constructor]|]. split; [constructor; [right; left; reflexivity|constructor]|].
      split; [split; [constructor|left; split; [intros j []|intros w []]]|]. intros j [].
    - split; [apply names3; reflexivity|]. split; [reflexivity|]. split; [constructor|]. split; [constructor|].
      split; [split; [constructor|left; split; [intros j []|intros w []]]|]. intros j []. }
  assert (X : forall us, Forall xnamed [far us; first_one]) by (intros us; repeat (constructor; [is_xnamed|]); constructor).
  assert (B1 : book (calls_far [1]) [far [1]; first_one]) by (apply K; unfold xdescribes; repeat (split; [reflexivity|]); reflexivity).
  assert (B2 : book (calls_far [1; 1]) [far [1; 1]; first_one]) by (apply K; unfold xdescribes; repeat (split; [reflexivity|]); reflexivity).
  assert (C1 : complete [far [1]; first_one] 2 0) by (intros j Hj; cbn in Hj; repeat (destruct Hj as [<-|Hj]; [intros i []|]); destruct Hj).
  assert (C2 : complete [far [1; 1]; first_one] 2 0) by (intros j Hj; cbn in Hj; repeat (destruct Hj as [<-|Hj]; [intros i []|]); destruct Hj).
  assert (U1 : used_once [far [1]; first_one] 2 0) by constructor. assert (U2 : used_once [far [1; 1]; first_one] 2 0) by constructor.
  apply conj; [exact B1|]. apply conj; [exact B2|]. apply conj; [apply X|]. apply conj; [exact C1|]. apply conj; [exact U1|]. apply conj; [exact U2|].
  apply conj; [constructor; [split; [reflexivity|split; [reflexivity|split; [reflexivity|split; [constructor; [intros []|constructor]|intros i; cbn; tauto]]]]|constructor; [repeat split; try constructor; auto|constructor]]|].
  destruct (nexec_question _ _ style_question 2 0 ltac:(discriminate) B1 (X _) C1 U1) as (qs & A & H).
  destruct (nexec_question _ _ style_question 2 0 ltac:(discriminate) B2 (X _) C2 U2) as (qs' & A' & H').
  destruct (H 60 ltac:(vm_compute; lia)) as (s & args & R & I). destruct (H' 60 ltac:(vm_compute; lia)) as (s' & args' & R' & I').
  exists qs, qs', s, args, s', args'. apply conj; [exact A|]. apply conj; [exact A'|]. apply conj; [exact R|]. apply conj; [exact R'|]. rewrite I, I'. split.
  - exists (d_rows numbers). eexists. exists [], [[[1%Z]]; [[2%Z]]]. split; [reflexivity|]. split; [constructor; [reflexivity|constructor]|].
    split; [exists []; split; [apply Permutation_refl|split; [constructor|reflexivity]]|].
    split; [|split; [repeat constructor; cbn; intuition discriminate|]].
    + constructor; [|constructor; [|constructor]].
      * exists (d_rows numbers), []. eexists. exists []. split; [reflexivity|]. split; [constructor|]. split; [|split; [constructor|]]; [|symmetry].
        { eexists. split; [vm_compute; apply Permutation_refl|]. split; [repeat constructor|reflexivity]. } vm_compute; reflexivity.
      * exists (d_rows numbers), []. eexists. exists []. split; [reflexivity|]. split; [constructor|]. split; [|split; [constructor|]]; [|symmetry].
        { eexists. split; [vm_compute; apply perm_swap|]. split; [repeat constructor|reflexivity]. } vm_compute; reflexivity.
    + intro v. split; [intros [<-|[<-|[]]]; [exists [[1%Z]]|exists [[2%Z]]]; cbn; tauto|intros (a & [<-|[<-|[<-|[]]]] & G); cbn in G; cbn; tauto].
  - intros (E' & ts & a & us & W & T & (z & P & _ & L) & U & G). cbn in W. subst E'. inversion T as [|? t ? ts' Tt T' E1 E2]. subst ts. inversion T'. subst ts'. cbn in Tt. subst t.
    vm_compute in P. apply Permutation_sym, Permutation_nil in P. subst z. cbn in L. subst a.
    inversion U as [|? u ? us' Hu U' E3 E4]. subst us. inversion U'. subst us'. destruct G as (_ & G). destruct Hu as (E' & ts & a & us & W & T5 & (z & P & _ & L) & U5 & J). inversion U5. subst us. cbn in J. subst u.
    assert (Q : List.length a <= 1) by (rewrite L; exact (firstn_le_length 1 _)).
    destruct (proj1 (G [1%Z]) ltac:(cbn; tauto)) as (b & [<-|[<-|[]]] & G1); [destruct G1|].
    destruct (proj1 (G [2%Z]) ltac:(cbn; tauto)) as (b & [<-|[<-|[]]] & G2); [destruct G2|].
    destruct a as [|r [|? ?]]; cbn in Q; [destruct G1| |lia]. destruct G1 as [G1|[]], G2 as [G2|[]]. rewrite G1 in G2. discriminate G2.
Qed.
Print Assumptions c123_limit_refuted.
