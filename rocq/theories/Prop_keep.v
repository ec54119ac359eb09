(** Exactly which tables and common table expressions a query keeps. *)
From Coq Require Import Strings.String Strings.Ascii NArith ZArith List Bool.
From Verif Require Import GoStr GoNum Syntax Value Util Model Sqlf Sqlb Spec_syntax RefSem Spec_build Spec_eval Spec_query Prop_query Keep_proofs Spec_keep.
Import ListNotations.
Open Scope string_scope.

(** C98: a query builder builds if and only if nothing prevents its clauses from
    being put together and they build, with exactly the tables and common table
    expressions of the choice; its text is their layout. *)
Theorem c98_exact : forall n e id st sql st', let q := get_q st id in tables_ok q -> ctes_ok q -> q_debug q = false ->
  (build (S n) e (BQuery (Some id)) st = (ROk sql, st') <->
   sound_query q /\ exists kt kc secs, choice q kt kc /\ assembled (build n e) kt kc id st secs st' /\ sql = layout secs).
Proof. exact query_exact. Qed.
Print Assumptions c98_exact.
(** The choice can be made, in one way. *)
Theorem c98_choice : forall q, tables_ok q -> ctes_ok q -> sound_query q -> exists kt kc, choice q kt kc.
Proof. exact choice_exists. Qed.
Print Assumptions c98_choice.
Theorem c98_one : forall q kt kc kt' kc', choice q kt kc -> choice q kt' kc' ->
  filter kt (listed q) = filter kt' (listed q) /\ filter kc (q_ctes q) = filter kc' (q_ctes q).
Proof. exact choice_filter. Qed.
Print Assumptions c98_one.
(** If no table in use is written with the bare name of a common table
    expression, those needed are kept, and no other. *)
Theorem c98_needed : forall q c, tables_ok q -> ctes_ok q -> (forall x, cte_of q x <> None -> ~ bare q x) -> In c (q_ctes q) ->
  (keeps_cte q c <-> cte_needed q (c_name c)).
Proof. exact keep_all. Qed.
Print Assumptions c98_needed.
(** The dependencies of one that is followed are kept in any case ... *)
Theorem c98_followed : forall q c d x y, tables_ok q -> ctes_ok q -> sound_query q -> followed q c -> cte_of q c = Some d -> In x (c_deps d) ->
  cte_of q x = Some y -> keeps_cte q y.
Proof. exact followed_deps. Qed.
Print Assumptions c98_followed.
(** ... but not those of one that is kept only because a table bears its name:
    the same query with an alias has them. *)
Definition over (main : tname) : list qop :=
  [OWith "y" (BFrag (F "SELECT 1")) []; OWith "x" (BFrag (F "SELECT * FROM y")) ["y"]; OSelect [column (known_as main) "id"]; OFrom main].
Theorem c98_bare_refuted :
  run style_question (over ("x", "")) = ROk ("With x AS (SELECT * FROM y) SELECT x.id FROM x", []) /\
  run style_question (over ("x", "a")) = ROk ("With y AS (SELECT 1), x AS (SELECT * FROM y) SELECT a.id FROM x AS a", []).
Proof. split; vm_compute; reflexivity. Qed.
Print Assumptions c98_bare_refuted.

Definition over_x : qb := match apply_ops (over ("x", "")) new_qb with ROk q => q | _ => new_qb end.
Definition main_x : from_table := mkFT ("x", "") (Some (F "x")) false.
Example c98_example : tables_ok over_x /\ ctes_ok over_x /\ q_debug over_x = false /\ sound_query over_x /\
  In main_x (listed over_x) /\ keeps_table over_x main_x /\ bare over_x "x" /\ ~ followed over_x "x" /\ ~ followed over_x "y" /\
  cte_needed over_x "y" /\ (forall c, In c (q_ctes over_x) -> (keeps_cte over_x c <-> c_name c = "x")).
Proof.
  destruct (c35_described (over ("x", "")) over_x) as [Ht Hc]; [repeat constructor|vm_compute; reflexivity|].
  assert (M : main_of over_x = Some main_x) by reflexivity.
  assert (Nd : forall t, needed over_x t -> t = "x").
  { intros t H. induction H as [b t Hb M'|t ft f u H IH T N Ff M']; [|subst t; vm_compute in T; injection T as <-; exfalso; apply N; reflexivity].
    vm_compute in Hb. repeat match goal with K : _ \/ _ |- _ => destruct K | K : False |- _ => destruct K end; subst b;
      inversion M'; subst; cbn [In] in *; repeat match goal with K : _ \/ _ |- _ => destruct K | K : False |- _ => destruct K end; subst;
      match goal with K : mentions _ _ |- _ => inversion K; subst; try reflexivity; try contradiction; try congruence end. }
  assert (Bx : bare over_x "x") by (exists main_x; split; [left; reflexivity|reflexivity]).
  assert (Fx : ~ followed over_x "x") by (intros K; inversion K; subst; try contradiction; match goal with H : fst _ = "x", N : ~ bare _ _ |- _ => rewrite H in N; contradiction end).
  assert (Fo : forall c, ~ followed over_x c).
  { intros c F. induction F as [ft Hl B D Nb|c d x F IH E I1 D Nb]; [|exact IH]. vm_compute in Hl. destruct Hl as [<-|[]]. exact (Nb Bx). }
  assert (Bo : forall c, bare over_x c -> c = "x").
  { intros c (ft & [Em|(t & N & T)] & E); [vm_compute in Em; injection Em as <-; cbn in E; congruence|].
    rewrite (Nd t N) in T. vm_compute in T. injection T as <-. cbn in E. congruence. }
  split; [exact Ht|]. split; [exact Hc|]. split; [reflexivity|]. split.
  { split; [rewrite M; discriminate|]. split.
    - intros b Hb K. vm_compute in Hb. repeat match goal with H : _ \/ _ |- _ => destruct H | H : False |- _ => destruct H end; subst b;
        inversion K; subst; cbn [In] in *; repeat match goal with H : _ \/ _ |- _ => destruct H | H : False |- _ => destruct H end; subst;
        match goal with H : has_nil _ |- _ => inversion H; subst; cbn [In] in *; contradiction end.
    - intros t N. rewrite (Nd t N). vm_compute. discriminate. }
  split; [left; reflexivity|]. split; [left; left; reflexivity|]. split; [exact Bx|]. split; [exact Fx|]. split; [apply Fo|]. split.
  - eapply cn_dep with (c := "x"); [|reflexivity|left; reflexivity|discriminate].
    apply (cn_table over_x 0 main_x); [left; reflexivity|reflexivity|left; reflexivity|discriminate].
  - intros c Hi. split; [intros [B|F]; [apply Bo; exact B|destruct (Fo _ F)]|]. intros E. unfold keeps_cte. rewrite E. left. exact Bx.
Qed.
