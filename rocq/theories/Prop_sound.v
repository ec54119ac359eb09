(** What is free of defects can be built. *)
From Coq Require Import Strings.String Strings.Ascii NArith ZArith List Bool.
From Verif Require Import GoStr GoNum Syntax Value Util Model Sqlf Sqlb Spec_syntax Spec_base Spec_eval Spec_query Spec_blame Spec_sound Deps_proofs Query3_proofs Spec_sound Sound_proofs Sound2_proofs.
Import ListNotations.
Open Scope string_scope.

(** C84: what is free of defects builds, with enough fuel; the query builders
    are as they were, apart from traces of having been built. *)
Theorem c84_builds : forall h d e b, sound h d e b -> forall st, during h d st ->
  exists N s st', during h d st' /\ forall n, N <= n -> build n e b st = (ROk s, st').
Proof. exact sound_builds. Qed.
Print Assumptions c84_builds.
(** BuildQuery *)
Theorem c84_query : forall style h b, sound h (Z.eqb style style_dollar) [builtins] b ->
  exists N s args h', (forall n, N <= n -> build_query n style h b = (ROk (s, args), h')) /\ forall id, grown (nth id h new_qb) (nth id h' new_qb).
Proof. exact sound_query. Qed.
Print Assumptions c84_query.
(** It builds again after having been built, any number of times. *)
Theorem c84_again : forall style h b, sound h (Z.eqb style style_dollar) [builtins] b ->
  forall h', (forall id, grown (nth id h new_qb) (nth id h' new_qb)) ->
  exists N s args h2, (forall n, N <= n -> build_query n style h' b = (ROk (s, args), h2)) /\ forall id, grown (nth id h new_qb) (nth id h2 new_qb).
Proof. exact sound_again. Qed.
Print Assumptions c84_again.
(** A query builder that is made of parts without defects has none. *)
Theorem c84_fit : forall h d e, usual e -> forall id, fit h d e (nth id h new_qb) -> sound h d e (BQuery (Some id)).
Proof. exact fit_sound. Qed.
Print Assumptions c84_fit.
(** Calls without defects succeed; if a table was given, all tables that are
    needed are there and something is selected, the query builds. *)
Theorem c84_calls : forall style h id os, let d := Z.eqb style style_dollar in
  Forall (good_call h d [builtins]) os -> Forall op_ok os ->
  exists q, apply_ops os new_qb = ROk q /\
    (nth id h new_qb = q -> q_tables q <> [] -> (forall b, In b (clause_builders q) -> ~ has_nil b) -> (forall t, needed q t -> ~ undefined q t) ->
     (exists b, In b (f_frags (q_selects q)) /\ shows h d [builtins] b) ->
     exists N s args h', forall n, N <= n -> build_query n style h (BQuery (Some id)) = (ROk (s, args), h')).
Proof. exact calls_build. Qed.
Print Assumptions c84_calls.
(** The converse is false: #join without upper bound ends silently at a
    fragment that fails with an invalid index. *)
Theorem c84_converse_refuted : exists b, (exists n args h', build_query n style_question [] b = (ROk ("a", args), h')) /\ ~ sound [] false [builtins] b.
Proof.
  exists (BFrag (Frag "#join('#fragment', ', ')" [] [BFrag (F "a"); BFrag (F "#fragment(1)")] "" "")). split.
  - exists 20. vm_compute. eauto.
  - intros H. inversion H; subst.
    match goal with K : forall b, In b [_; _] -> sound _ _ _ b |- _ => specialize (K _ (or_intror (or_introl eq_refl))); rename K into K1 end.
    inversion K1; subst. match goal with K : parsed "#fragment(1)" = Some _ |- _ => vm_compute in K; injection K as <- end.
    match goal with K : forall x, In x [ACall "fragment" _] -> fine _ _ _ _ _ _ |- _ => specialize (K _ (or_introl eq_refl)); rename K into K2 end.
    inversion K2; subst; match goal with L : lookup_fn _ _ = _ |- _ => try discriminate L end.
    match goal with K : inside _ _ |- _ => destruct K as [_ K]; vm_compute in K; congruence end.
Qed.
Print Assumptions c84_converse_refuted.

(** A query with a join, conditions, an order and a value in the selection. *)
Definition calls : list qop :=
  [ODistinct; OSelect [column "a" "id"; BFrag (Fa "$1 AS x" [VInt "int" 1])]; OFrom ("a", ""); OInnerJoin ("b", "") (Some (Ff "#f1=#f2" [column "a" "id"; column "b" "id"]));
   OWhere2 (column "b" "n") " > " (VInt "int" 7); OWhereIn (column "a" "id") (VSlice "[]int" (Some [VInt "int" 1; VInt "int" 2])); OOrderBy (column "a" "n") 3].
Definition described : qb := match apply_ops calls new_qb with ROk q => q | _ => new_qb end.
Ltac no_nil := let H := fresh in intros H; inversion H; subst; repeat match goal with K : In _ _ |- _ => cbn in K | K : _ \/ _ |- _ => destruct K | K : False |- _ => destruct K end; subst;
  try match goal with K : has_nil _ |- _ => revert K; no_nil end.
Example c84_example :
  apply_ops calls new_qb = ROk described /\ Forall (good_call [described] true [builtins]) calls /\ Forall op_ok calls /\ q_tables described <> [] /\
  (forall b, In b (clause_builders described) -> ~ has_nil b) /\ (forall t, needed described t -> ~ undefined described t) /\
  (exists b, In b (f_frags (q_selects described)) /\ shows [described] true [builtins] b) /\
  build_query 40 style_dollar [described] (BQuery (Some 0)) =
    (ROk ("SELECT DISTINCT a.id, $2 AS x, a.n AS _order_1 FROM a INNER JOIN b ON a.id=b.id WHERE b.n > $1 AND a.id IN ($2, $3) ORDER BY _order_1 DESC",
      [VInt "int" 7; VInt "int" 1; VInt "int" 2]), [with_select (with_orders described)]).
Proof.
  assert (C : forall t nm, plain_text (prebuild_column t nm) = true -> sound [described] true [builtins] (column t nm)) by (intros; apply sd_column, plain_sound; assumption).
  assert (V : forall z, storable true (VInt "int" z)) by (intros z _ H; inversion H).
  assert (A : apply_ops calls new_qb = ROk described) by (vm_compute; reflexivity).
  assert (O : Forall op_ok calls) by (repeat constructor; no_nil).
  assert (N : forall b, In b (clause_builders described) -> ~ has_nil b) by (intros b Hb; vm_compute in Hb; repeat destruct Hb as [<-|Hb]; try (destruct Hb; fail); no_nil).
  split; [exact A|]. split.
  - repeat (apply Forall_cons || apply Forall_nil); cbn [good_call OInnerJoin].
    + exact Logic.I.
    + intros b [<-|[<-|[]]]; [apply C; reflexivity|]. eapply sd_frag; [vm_compute; reflexivity|intros v [<-|[]]; apply V|intros b []| | |].
      * intros x [<-|[<-|[]]]; [apply fi_bind; split; vm_compute; discriminate|apply fi_plain].
      * intros i [H1 H2]. exists (ABind style_dollar 1). split; [left; reflexivity|]. replace i with 1%Z by (apply Z.le_antisymm; assumption). apply vs_bind. reflexivity.
      * intros i [H1 H2]. exfalso. exact (Z.lt_irrefl _ (Z.le_lt_trans _ _ _ (Z.le_trans _ _ _ H1 H2) Z.lt_0_1)).
    + split; [discriminate|reflexivity].
    + split; [discriminate|]. split; [reflexivity|]. eexists. split; [reflexivity|]. eapply sd_frag; [vm_compute; reflexivity|intros v []|intros b [<-|[<-|[]]]; apply C; reflexivity| | |].
      * intros x [<-|[<-|[<-|[]]]]; [| |]; try apply fi_plain; (apply fi_frag; [reflexivity|exact Logic.I|split; vm_compute; discriminate]).
      * intros i [H1 H2]. exfalso. exact (Z.lt_irrefl _ (Z.le_lt_trans _ _ _ (Z.le_trans _ _ _ H1 H2) Z.lt_0_1)).
      * intros i [H1 H2]. cbn in H2. destruct (Z.eq_dec i 1) as [->|Ne].
        -- eexists. split; [left; reflexivity|]. apply vs_call; vm_compute; reflexivity.
        -- eexists. split; [right; right; left; reflexivity|]. apply vs_call; [vm_compute; reflexivity|]. apply Z.le_antisymm; [|exact H2]. apply (Z.le_succ_l 1 i). apply Z.le_neq. split; [exact H1|congruence].
    + split; [apply C; reflexivity|]. split; [reflexivity|]. split; [reflexivity|apply V].
    + split; [apply C; reflexivity|]. eexists. split; [vm_compute; reflexivity|]. intros v [<-|[<-|[]]]; apply V.
    + split; [apply C; reflexivity|discriminate].
  - split; [exact O|]. split; [vm_compute; discriminate|]. split; [exact N|]. split.
    + destruct (Query3_proofs.ops_ok calls described O A) as [T1 T2].
      pose proof (Deps_proofs.collect_outcome described _ T1 T2 eq_refl N) as K.
      destruct (collect_deps described) as [ds|er|er|] eqn:Ed; [exact (proj1 K)|exfalso; vm_compute in Ed; discriminate..].
    + split; [|vm_compute; reflexivity]. exists (column "a" "id"). split; [vm_compute; left; reflexivity|].
      eapply column_shows; [reflexivity|vm_compute; reflexivity|split; reflexivity].
Qed.
