(** Property C113: in statements of several queries the order of conditions,
    subqueries and unions is irrelevant.  The vocabulary is in Spec_nexec.v and
    Spec_shuffle.v; the proofs are in Shuffle_proofs.v. *)
From Coq Require Import Strings.String Strings.Ascii NArith ZArith List Bool Lia Sorting.Permutation Sorting.Sorted.
From Verif Require Import GoStr GoNum Syntax Value Util Model Sqlf Sqlb Spec_syntax RefSem Spec_build Spec_util Spec_eval Spec_query Spec_sql Spec_nest Spec_interp Spec_answer Spec_views
  Shuffle_proofs Prop_exec Prop_nexec Spec_sqltok Spec_read Spec_nread Spec_exec Spec_nexec Spec_shuffle.
Import ListNotations.
Open Scope string_scope.

(** C113: executing gives the same answers if conditions and united queries are
    given in another order, in any of the queries. *)
Theorem c113_question : forall B B' oss oss' style d id, style <> style_dollar -> book oss B -> book oss' B' -> Forall xnamed B -> complete B d id -> used_once B d id -> shuffled_book B B' ->
  exists qs qs', made oss qs /\ made oss' qs' /\ forall n, size_of B d id <= n -> size_of B' d id <= n -> exists s args s' args',
    fst (build_query n style qs (query id)) = ROk (s, args) /\ fst (build_query n style qs' (query id)) = ROk (s', args') /\
    forall E sub_test rows, executes_all E sub_test args s rows <-> executes_all E sub_test args' s' rows.
Proof. exact shuffle_question. Qed.
Print Assumptions c113_question.
Theorem c113_dollar : forall B B' oss oss' d id, book oss B -> book oss' B' -> Forall xnamed B -> complete B d id -> used_once B d id -> shuffled_book B B' -> forallb hashable (args_of B d id) = true ->
  exists qs qs', made oss qs /\ made oss' qs' /\ forall n, size_of B d id <= n -> size_of B' d id <= n -> exists s args s' args',
    fst (build_query n style_dollar qs (query id)) = ROk (s, args) /\ fst (build_query n style_dollar qs' (query id)) = ROk (s', args') /\
    forall E sub_test rows, by_value E -> executes_all E sub_test args s rows <-> executes_all E sub_test args' s' rows.
Proof. exact shuffle_dollar. Qed.
Print Assumptions c113_dollar.

(** The statement of C106 with a further condition and a further union, in two
    orders. *)
Definition many (cs : list xcond) (us : list nat) : xstmt := mkX (mkStmt false [("a", "id")] ("active", "a") [] [] [] [] 0 0) [mkWith "active" [] 1 true] cs us.
Definition within : xcond := Sub ("a", "id") " IN " 2.
Definition book5 (cs : list xcond) (us : list nat) : list xstmt := [many cs us; q1; q2; q3; q1].
Definition calls5 (cs : list xcond) (us : list nat) : list (list qop) :=
  (([OWith "active" (query 1) []; OUnion (map query us); OSelect [column "a" "id"]; OFrom ("active", "a")] ++ map xcond_call cs) :: tl calls3 ++ [nth 1 calls3 []])%list.
Lemma many_ok : forall cs us, Forall (fun c => c = within \/ c = above ("a", "id") 0) cs -> xstmt_ok (many cs us).
Proof.
  intros cs us F. split; [apply names3; reflexivity|]. split; [reflexivity|]. split; [eapply Forall_impl; [|exact F]; intros c [-> | ->]; split; reflexivity|].
  split; [eapply Forall_impl; [|exact F]; intros c [-> | ->]; right; left; reflexivity|].
  split; [split; [constructor; [intros []|constructor]|left; split; [intros j []|intros w [<-|[]]; split; [reflexivity|exists ("active", "a"); split; [left; reflexivity|reflexivity]]]]|]. intros j [].
Qed.
Example c113_example :
  let cs := [within; above ("a", "id") 0] in let us := [3; 4] in let B := book5 cs us in let B' := book5 (rev cs) (rev us) in
  book (calls5 cs us) B /\ book (calls5 (rev cs) (rev us)) B' /\ Forall xnamed B /\ complete B 2 0 /\ used_once B 2 0 /\ shuffled_book B B' /\ forallb hashable (args_of B 2 0) = true /\
  (exists qs, made (calls5 (rev cs) (rev us)) qs /\ fst (build_query 60 style_question qs (query 0)) =
    ROk ("With active AS (SELECT u.id FROM users AS u WHERE u.id>?) SELECT a.id FROM active AS a WHERE a.id>? AND a.id IN (SELECT o.user FROM orders AS o WHERE o.total>?) UNION (SELECT u.id FROM users AS u WHERE u.id>?) UNION (SELECT o.total FROM orders AS o WHERE o.total>?)",
      map (VInt "int") [1; 0; 10; 1; 20]%Z)).
Proof.
  cbv zeta. assert (K : forall cs us, Forall (fun c => c = within \/ c = above ("a", "id") 0) cs -> xdescribes (hd [] (calls5 cs us)) (many cs us) -> book (calls5 cs us) (book5 cs us)).
  { intros cs us F D. constructor; [split; [apply many_ok; exact F|exact D]|]. pose proof book3_calls as H. inversion_clear H as [|? ? ? ? _ H1]. inversion_clear H1 as [|? ? ? ? A1 H2]. inversion_clear H2 as [|? ? ? ? A2 H3]. inversion_clear H3 as [|? ? ? ? A3 _].
    repeat (constructor; [assumption|]). constructor. }
  apply conj; [apply K; [constructor; [left; reflexivity|constructor; [right; reflexivity|constructor]]|unfold xdescribes; repeat (split; [reflexivity|]); reflexivity]|].
  apply conj; [apply K; [constructor; [right; reflexivity|constructor; [left; reflexivity|constructor]]|unfold xdescribes; repeat (split; [reflexivity|]); reflexivity]|].
  apply conj; [unfold book5; repeat (constructor; [is_xnamed|]); constructor|].
  apply conj; [intros j Hj; cbn in Hj; repeat (destruct Hj as [<-|Hj]; [intros i []|]); destruct Hj|]. apply conj; [constructor|].
  apply conj; [constructor; [split; [reflexivity|split; [reflexivity|split; apply perm_swap]]|repeat (constructor; [repeat split; apply Permutation_refl|]); constructor]|].
  apply conj; [reflexivity|]. eexists. split; [repeat (constructor; [cbv; reflexivity|]); constructor|vm_compute; reflexivity].
Qed.
