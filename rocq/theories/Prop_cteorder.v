(** Property C128: the order of independent common table expressions does not
    matter.  The vocabulary is in Spec_cteorder.v; the proofs are in
    Cteorder_proofs.v. *)
From Coq Require Import Strings.String Strings.Ascii NArith ZArith List Bool Lia Sorting.Permutation Sorting.Sorted.
From Verif Require Import GoStr GoNum Syntax Value Util Model Sqlf Sqlb Spec_syntax RefSem Spec_build Spec_util Spec_eval Spec_query Spec_sql Spec_nest Spec_interp Spec_answer Spec_views
  Nexec_proofs Cteorder_proofs Prop_exec Prop_nexec Spec_sqltok Spec_read Spec_nread Spec_exec Spec_nexec Spec_cteorder.
Import ListNotations.
Open Scope string_scope.

(** C128: executing gives the same answers if common table expressions that do not
    read each other are declared in another order. *)
Theorem c128_question : forall B B' oss oss' style d id, style <> style_dollar -> book oss B -> book oss' B' -> Forall xnamed B -> Forall xnamed B' -> complete B d id -> used_once B d id -> used_once B' d id ->
  rewithed_book B B' ->
  exists qs qs', made oss qs /\ made oss' qs' /\ forall n, size_of B d id <= n -> size_of B' d id <= n -> exists s args s' args',
    fst (build_query n style qs (query id)) = ROk (s, args) /\ fst (build_query n style qs' (query id)) = ROk (s', args') /\
    forall E sub_test rows, executes_all E sub_test args s rows <-> executes_all E sub_test args' s' rows.
Proof. exact cteorder_question. Qed.
Print Assumptions c128_question.
Theorem c128_dollar : forall B B' oss oss' d id, book oss B -> book oss' B' -> Forall xnamed B -> Forall xnamed B' -> complete B d id -> used_once B d id -> used_once B' d id ->
  rewithed_book B B' -> forallb hashable (args_of B d id) = true ->
  exists qs qs', made oss qs /\ made oss' qs' /\ forall n, size_of B d id <= n -> size_of B' d id <= n -> exists s args s' args',
    fst (build_query n style_dollar qs (query id)) = ROk (s, args) /\ fst (build_query n style_dollar qs' (query id)) = ROk (s', args') /\
    forall E sub_test rows, by_value E -> executes_all E sub_test args s rows <-> executes_all E sub_test args' s' rows.
Proof. exact cteorder_dollar. Qed.
Print Assumptions c128_dollar.

(** A common table expression that reads two others. *)
Definition late : with_item := mkWith "late" [] 1 true.
Definition rich : with_item := mkWith "rich" [] 2 true.
Definition good : with_item := mkWith "good" ["late"; "rich"] 3 true.
Definition from_good (ws : list with_item) : xstmt := mkX (mkStmt false [("g", "id")] ("good", "g") [] [] [] [] 0 0) ws [] [].
Definition late_rich : xstmt := mkX (mkStmt false [("l", "id")] ("late", "l") [] [] [] [] 0 0) [] [Sub ("l", "id") " IN " 4] [].
Definition all_rich : xstmt := mkX (mkStmt false [("r", "user")] ("rich", "r") [] [] [] [] 0 0) [] [] [].
Definition book_good (ws : list with_item) : list xstmt := [from_good ws; q1; q2; late_rich; all_rich].
Definition calls_good (ws : list with_item) : list (list qop) :=
  [(map (fun w => OWith (w_name w) (query (w_id w)) (w_deps w)) ws ++ [OSelect [column "g" "id"]; OFrom ("good", "g")])%list; nth 1 calls3 []; nth 2 calls3 [];
   [OSelect [column "l" "id"]; OFrom ("late", "l"); xcond_call (Sub ("l", "id") " IN " 4)]; [OSelect [column "r" "user"]; OFrom ("rich", "r")]].
Definition orders_good : list (list with_item) := [[late; rich; good]; [rich; late; good]; [good; late; rich]].
Lemma good_book : forall ws, In ws orders_good -> book (calls_good ws) (book_good ws).
Proof.
  intros ws Hw. pose proof book3_calls as H. inversion_clear H as [|? ? ? ? _ H1]. inversion_clear H1 as [|? ? ? ? A1 H2]. inversion_clear H2 as [|? ? ? ? A2 _].
  constructor; [split|constructor; [exact A1|constructor; [exact A2|constructor; [split|constructor; [split|constructor]]]]].
  - split; [apply names3; reflexivity|]. split; [reflexivity|]. split; [constructor|]. split; [constructor|]. split; [|intros j []].
    assert (I : In late ws /\ In rich ws /\ In good ws) by (destruct Hw as [<-|[<-|[<-|[]]]]; cbn; tauto). destruct I as (Il & Ir & Ig).
    assert (Wg : wanted (from_good ws) "good") by (apply (wt_table (from_good ws) ("good", "g") good); [left; reflexivity|exact Ig|reflexivity]).
    assert (Wl : wanted (from_good ws) "late") by (apply (wt_dep (from_good ws) good late); [exact Wg|exact Ig|exact Il|left; reflexivity]).
    assert (Wr : wanted (from_good ws) "rich") by (apply (wt_dep (from_good ws) good rich); [exact Wg|exact Ig|exact Ir|right; left; reflexivity]).
    assert (J : forall w, In w ws -> w = late \/ w = rich \/ w = good) by (destruct Hw as [<-|[<-|[<-|[]]]]; cbn; intuition auto).
    split; [destruct Hw as [<-|[<-|[<-|[]]]]; repeat (constructor; [cbn; intuition discriminate|]); constructor|]. right.
    split; intros w Hi; apply J in Hi; destruct Hi as [-> |[-> | ->]]; cbn; try (intuition discriminate); (split; [intros _; assumption|reflexivity]).
  - destruct Hw as [<-|[<-|[<-|[]]]]; unfold xdescribes; repeat (split; [reflexivity|]); reflexivity.
  - split; [apply names3; reflexivity|]. split; [reflexivity|]. split; [constructor; [split; reflexivity|constructor]|]. split; [constructor; [right; left; reflexivity|constructor]|].
    split; [split; [constructor|left; split; [intros j []|intros w []]]|]. intros j [].
  - unfold xdescribes; repeat (split; [reflexivity|]); reflexivity.
  - split; [apply names3; reflexivity|]. split; [reflexivity|]. split; [constructor|]. split; [constructor|].
    split; [split; [constructor|left; split; [intros j []|intros w []]]|]. intros j [].
  - unfold xdescribes; repeat (split; [reflexivity|]); reflexivity.
Qed.
Lemma good_named : forall ws, In ws orders_good -> Forall xnamed (book_good ws).
Proof. intros ws [<-|[<-|[<-|[]]]]; repeat (constructor; [is_xnamed|]); constructor. Qed.
Lemma good_complete : forall ws, In ws orders_good -> complete (book_good ws) 3 0.
Proof.
  intros ws [<-|[<-|[<-|[]]]] j Hj; cbn in Hj; repeat (destruct Hj as [<-|Hj]; [intros k Hk; cbn in Hk; repeat (destruct Hk as [<-|Hk]; [intros i []|]); destruct Hk|]); destruct Hj.
Qed.
Lemma good_once : forall ws, In ws orders_good -> used_once (book_good ws) 3 0.
Proof. intros ws [<-|[<-|[<-|[]]]]; constructor. Qed.
Lemma good_independent : independent (book_good [late; rich; good]) late rich.
Proof. split; [discriminate|]. intros [|d]; cbn; intuition discriminate. Qed.
Example c128_example :
  let ws := [late; rich; good] in let ws' := [rich; late; good] in let B := book_good ws in let B' := book_good ws' in
  book (calls_good ws) B /\ book (calls_good ws') B' /\ Forall xnamed B /\ Forall xnamed B' /\ complete B 3 0 /\ used_once B 3 0 /\ used_once B' 3 0 /\
  rewithed_book B B' /\ forallb hashable (args_of B 3 0) = true /\
  (exists qs, made (calls_good ws) qs /\ fst (build_query 90 style_question qs (query 0)) =
    ROk ("With late AS (SELECT u.id FROM users AS u WHERE u.id>?), rich AS (SELECT o.user FROM orders AS o WHERE o.total>?), good AS (SELECT l.id FROM late AS l WHERE l.id IN (SELECT r.user FROM rich AS r)) SELECT g.id FROM good AS g", map (VInt "int") [1; 10]%Z)) /\
  (exists qs, made (calls_good ws') qs /\ fst (build_query 90 style_question qs (query 0)) =
    ROk ("With rich AS (SELECT o.user FROM orders AS o WHERE o.total>?), late AS (SELECT u.id FROM users AS u WHERE u.id>?), good AS (SELECT l.id FROM late AS l WHERE l.id IN (SELECT r.user FROM rich AS r)) SELECT g.id FROM good AS g", map (VInt "int") [10; 1]%Z)).
Proof.
  cbv zeta. assert (I1 : In [late; rich; good] orders_good) by (left; reflexivity). assert (I2 : In [rich; late; good] orders_good) by (right; left; reflexivity).
  apply conj; [apply good_book, I1|]. apply conj; [apply good_book, I2|]. apply conj; [apply good_named, I1|]. apply conj; [apply good_named, I2|]. apply conj; [apply good_complete, I1|]. apply conj; [apply good_once, I1|]. apply conj; [apply good_once, I2|].
  apply conj; [constructor; [split; [reflexivity|split; [reflexivity|split; [reflexivity|exact (moved_swap _ [] _ _ _ good_independent)]]]|repeat (constructor; [repeat (split; [reflexivity|]); apply moved_same|]); constructor]|].
  apply conj; [reflexivity|]. split; eexists; (split; [repeat (constructor; [cbv; reflexivity|]); constructor|vm_compute; reflexivity]).
Qed.

(** A common table expression has to come after those it reads, even if they are
    among its dependencies. *)
Theorem c128_dependent_refuted :
  let ws := [late; rich; good] in let ws' := [good; late; rich] in let B := book_good ws in let B' := book_good ws' in
  book (calls_good ws) B /\ book (calls_good ws') B' /\ Forall xnamed B /\ Forall xnamed B' /\ complete B 3 0 /\ used_once B 3 0 /\ used_once B' 3 0 /\ Permutation ws ws' /\
  exists qs qs' s args s' args', made (calls_good ws) qs /\ made (calls_good ws') qs' /\
    fst (build_query 90 style_question qs (query 0)) = ROk (s, args) /\ fst (build_query 90 style_question qs' (query 0)) = ROk (s', args') /\
    executes_all engine1 among args s [[2%Z]] /\ ~ executes_all engine1 among args' s' [[2%Z]].
Proof.
  cbv zeta. assert (I1 : In [late; rich; good] orders_good) by (left; reflexivity). assert (I2 : In [good; late; rich] orders_good) by (right; right; left; reflexivity).
  apply conj; [apply good_book, I1|]. apply conj; [apply good_book, I2|]. apply conj; [apply good_named, I1|]. apply conj; [apply good_named, I2|]. apply conj; [apply good_complete, I1|]. apply conj; [apply good_once, I1|]. apply conj; [apply good_once, I2|].
  apply conj; [apply Permutation_sym, (Permutation_cons_append [late; rich] good)|].
  destruct (nexec_question _ _ style_question 3 0 ltac:(discriminate) (good_book _ I1) (good_named _ I1) (good_complete _ I1) (good_once _ I1)) as (qs & A & H).
  destruct (nexec_question _ _ style_question 3 0 ltac:(discriminate) (good_book _ I2) (good_named _ I2) (good_complete _ I2) (good_once _ I2)) as (qs' & A' & H').
  destruct (H 90 ltac:(vm_compute; lia)) as (s & args & R & I). destruct (H' 90 ltac:(vm_compute; lia)) as (s' & args' & R' & I').
  exists qs, qs', s, args, s', args'. apply conj; [exact A|]. apply conj; [exact A'|]. apply conj; [exact R|]. apply conj; [exact R'|]. rewrite I, I'. clear. split.
  - do 4 eexists. split.
    { exists [[2%Z]]. split; [|exists [[1%Z]; [2%Z]]; split; [|exists [[2%Z]]; split; [|reflexivity]]].
      - do 4 eexists. split; [reflexivity|]. split; [constructor; [reflexivity|constructor]|]. split; [exists [([2%Z], [])]; split; [vm_compute; apply Permutation_refl|split; [repeat constructor|reflexivity]]|]. split; [constructor|reflexivity].
      - do 4 eexists. split; [reflexivity|]. split; [constructor; [reflexivity|constructor]|]. split; [exists [([1%Z], []); ([2%Z], [])]; split; [vm_compute; apply perm_swap|split; [repeat constructor|reflexivity]]|]. split; [constructor|reflexivity].
      - do 4 eexists. split; [reflexivity|]. split.
        { constructor; [|constructor]. exists [[1%Z]; [2%Z]]. split; [|reflexivity]. do 4 eexists. split; [reflexivity|]. split; [constructor|]. split; [exists [([1%Z], []); ([2%Z], [])]; split; [vm_compute; apply Permutation_refl|split; [repeat constructor|reflexivity]]|]. split; [constructor|reflexivity]. }
        split; [exists [([2%Z], [])]; split; [vm_compute; apply Permutation_refl|split; [repeat constructor|reflexivity]]|]. split; [constructor|reflexivity]. }
    split; [constructor|]. split; [exists [([2%Z], [])]; split; [vm_compute; apply Permutation_refl|split; [repeat constructor|reflexivity]]|]. split; [constructor|reflexivity].
  - intros (E' & ts & a & us & W & T & (z & P & _ & L) & U & G). inversion U. subst us. cbn [together] in G.
    destruct W as (g & Hg & l & Hl & r & Hr & W). cbn in W. subst E'.
    assert (Eg : g = []).
    { destruct Hg as (E' & ts' & a' & us & W' & _ & (y & P' & _ & L') & U' & G'). inversion U'. subst us. cbn in W'. subst E'. cbn [together] in G'.
      apply Permutation_sym, Permutation_nil in P'. subst y. rewrite G', L'. reflexivity. }
    subst g. apply Permutation_sym, Permutation_nil in P. subst z. rewrite L in G. discriminate G.
Qed.
Print Assumptions c128_dependent_refuted.
