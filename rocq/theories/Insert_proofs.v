(** The errors of Interpolate. *)
From Coq Require Import Strings.String Strings.Ascii ZArith NArith List Bool Lia.
From Verif Require Import GoStr GoNum Syntax Value Util Spec_syntax Spec_pos Spec_util Spec_fault Spec_insert
  Lex_proofs Pos_proofs Util_proofs Fault4_proofs.
Import ListNotations.
Open Scope string_scope.

Fixpoint encode_error (ft : gotime -> string) (v : value) (x : err) {struct v} : encode_value ft v = RErr x -> no_literal v x.
Proof.
  destruct v as [|ty b|ty z|ty f|ty s|ty a t|ty fs|ty es|ty es|ty h id|tm|ty r [[w|er]|pe]|ty r [s|pe]]; intros H;
    cbn [encode_value encode_kind type_name] in H; try discriminate; try (injection H as <-; repeat constructor; fail).
  - apply nl_value. apply (encode_error ft w x H).
Defined.
Theorem encode_error_iff : forall ft v e, encode_value ft v = RErr e <-> no_literal v e.
Proof.
  intros ft v e. split; [apply encode_error|]. induction 1 as [v ty K|ty r e|ty r w e K IH]; cbn [encode_value]; auto.
  destruct K; reflexivity.
Qed.

(** The reason why an expression of the parser cannot be replaced. *)
Inductive declines (args : list value) : expr -> err -> Prop :=
| dc_call nm la p : declines args (ECall nm la p) (EMsg (pos_text p ++ ": unsupported declaration"))
| dc_func nm p : declines args (EFunc nm p) (EMsg (pos_text p ++ ": unsupported declaration"))
| dc_bind sty k p v e : (1 <= k)%Z -> nth_error args (Z.to_nat (k - 1)) = Some v -> no_literal v e ->
    declines args (EBind sty k p) e.
Lemma exprs_error : forall ft args es e, interpolate_exprs ft args es = RErr e <->
  exists pre x post outs, es = (pre ++ x :: post)%list /\ Forall2 (replaced ft args) (map strip pre) outs /\ declines args x e.
Proof.
  intros ft args. induction es as [|y es IH]; intros e.
  - cbn [interpolate_exprs]. split; [discriminate|]. intros ([|a pre] & x & post & outs & E & _); discriminate.
  - assert (Here : declines args y e -> exists pre x post outs, (y :: es)%list = (pre ++ x :: post)%list /\
      Forall2 (replaced ft args) (map strip pre) outs /\ declines args x e).
    { intros D. exists [], y, es, []. repeat split; [constructor|exact D]. }
    assert (More : forall s, replaced ft args (strip y) s -> interpolate_exprs ft args es = RErr e ->
      exists pre x post outs, (y :: es)%list = (pre ++ x :: post)%list /\ Forall2 (replaced ft args) (map strip pre) outs /\ declines args x e).
    { intros s R E. apply IH in E. destruct E as (pre & x & post & outs & -> & F & D).
      exists (y :: pre), x, post, (s :: outs). split; [reflexivity|]. split; [|exact D]. cbn [map]. constructor; assumption. }
    assert (Back : forall s t, replaced ft args (strip y) s -> declines args y t -> False).
    { intros s t R D. inversion D as [nm la p|nm p|sty k p v er N1 N2 L]; subst; cbn [strip] in R; inversion R; subst.
      match goal with H : literal ft ?a s |- _ => apply encode_iff in H; assert (a = v) by congruence; subst a end.
      apply (encode_error_iff ft) in L. congruence. }
    split.
    + intros H. cbn [interpolate_exprs] in H. destruct y as [t p|sty k p|nm la p|nm p].
      * destruct (interpolate_exprs ft args es) as [r|er|er|] eqn:E; try discriminate. injection H as ->.
        apply (More t); [constructor|reflexivity].
      * destruct (nth_value args k) as [v|] eqn:N; [|discriminate]. apply nth_value_iff in N. destruct N as [N1 N2].
        destruct (encode_value ft v) as [s|er|er|] eqn:V; try discriminate.
        -- destruct (interpolate_exprs ft args es) as [r|er|er|] eqn:E; try discriminate. injection H as ->.
           apply encode_iff in V. apply (More s); [econstructor; eassumption|reflexivity].
        -- injection H as ->. apply encode_error_iff in V. apply Here. econstructor; eassumption.
      * injection H as <-. apply Here. constructor.
      * injection H as <-. apply Here. constructor.
    + intros ([|a pre] & x & post & outs & E & F & D); cbn [app] in E; injection E as -> ->.
      * inversion D as [nm la p|nm p|sty k p v er N1 N2 L]; subst; cbn [interpolate_exprs]; [reflexivity|reflexivity|].
        rewrite (proj2 (nth_value_iff args k v) (conj N1 N2)). apply (encode_error_iff ft) in L. rewrite L. reflexivity.
      * cbn [map] in F. inversion F as [|a' s pre' outs' R F']; subst.
        assert (K : interpolate_exprs ft args (pre ++ x :: post) = RErr e) by (apply IH; exists pre, x, post, outs'; auto).
        cbn [interpolate_exprs]. rewrite K. destruct a as [t p|sty k p|nm la p|nm p]; cbn [strip] in R; inversion R; subst; [reflexivity|].
        match goal with H1 : (1 <= k)%Z, H2 : nth_error args _ = Some ?v, H3 : literal ft ?v s |- _ =>
          rewrite (proj2 (nth_value_iff args k v) (conj H1 H2)); apply encode_iff in H3; rewrite H3 end. reflexivity.
Qed.

Lemma place_line : forall b, (p_line (place b) <> 0)%N.
Proof.
  intros b. unfold place. assert (G : forall l p, (p_line p <> 0)%N -> (p_line (fold_left move l p) <> 0)%N).
  { induction l as [|c l IH]; intros p H; [exact H|]. cbn [fold_left]. apply IH. unfold move. destruct (c =? line_break)%N; cbn [p_line]; lia. }
  apply G. cbn. lia.
Qed.
Lemma place_said : forall b, pos_text (place b) = place_text (place b).
Proof.
  intros b. unfold pos_text, place_text, dec. rewrite (proj2 (N.eqb_neq _ _) (place_line b)), (proj2 (N.eqb_neq _ _) (place_col b)). reflexivity.
Qed.
Lemma function_reported : forall x t b r, function x -> source x t -> reported b (t ++ r) = place b.
Proof. intros x t b r Fx Sx. destruct Fx; inversion Sx; subst; reflexivity. Qed.

(** The text before the n-th expression. *)
Lemma reported_nth : forall srcs b n, n < List.length srcs ->
  nth_error (reported_all b srcs) n = Some (reported (b ++ concat_all (firstn n srcs)) (concat_all (skipn n srcs))).
Proof.
  induction srcs as [|t l IH]; intros b n H; [cbn in H; lia|]. destruct n as [|n].
  - cbn [reported_all nth_error firstn skipn concat_all fold_right]. rewrite append_nil_r. reflexivity.
  - cbn [reported_all nth_error firstn skipn concat_all fold_right]. rewrite IH by (cbn [List.length] in H; lia).
    rewrite append_assoc. reflexivity.
Qed.
Lemma declines_refuses : forall args es srcs pre x post e, Forall2 source (map strip es) srcs ->
  map expr_pos es = reported_all "" srcs -> es = (pre ++ x :: post)%list ->
  (declines args x e <-> refuses args (concat_all (firstn (List.length pre) srcs)) (strip x) e).
Proof.
  intros args es srcs pre x post e F P ->.
  assert (P0 : nth_error (map expr_pos (pre ++ x :: post)) (List.length pre) = Some (expr_pos x)).
  { rewrite nth_error_map, nth_error_app2, Nat.sub_diag by lia. reflexivity. }
  assert (FL : forall A B (R : A -> B -> Prop) l m, Forall2 R l m -> List.length l = List.length m) by (induction 1; cbn [List.length]; congruence).
  pose proof (FL _ _ _ _ _ F) as L. rewrite map_length, List.app_length in L. cbn [List.length] in L.
  rewrite P, reported_nth in P0 by lia. cbn [append] in P0. injection P0 as P0.
  assert (Q : function (strip x) -> pos_text (expr_pos x) = place_text (place (concat_all (firstn (List.length pre) srcs)))).
  { intros Fx. rewrite map_app in F. apply Forall2_app_inv_l in F. destruct F as (s1 & s2 & F1 & F2 & ->).
    pose proof (FL _ _ _ _ _ F1) as L1. rewrite map_length in L1. rewrite L1 in *. clear L1 L.
    cbn [map] in F2. inversion F2 as [|x' t es' s3 Sx F3]; subst.
    assert (K : skipn (List.length s1) (s1 ++ t :: s3) = (t :: s3)%list) by (rewrite skipn_app, skipn_all, Nat.sub_diag; reflexivity).
    rewrite K in P0. rewrite <- P0. cbn [concat_all fold_right]. rewrite (function_reported _ t _ _ Fx Sx). apply place_said. }
  split.
  - intros D. destruct D as [nm la p|nm p|sty k p v er N1 N2 N3]; cbn [strip expr_pos] in *.
    + rewrite Q by constructor. constructor. constructor.
    + rewrite Q by constructor. constructor. constructor.
    + econstructor; eassumption.
  - intros R. destruct x as [t p|sty k p|nm la p|nm p]; cbn [strip expr_pos] in *; inversion R as [z Fz|st kk v er N1 N2 N3]; subst;
      try match goal with H : function (APlain _) |- _ => inversion H | H : function (ABind _ _) |- _ => inversion H end.
    + econstructor; eassumption.
    + rewrite <- Q by constructor. constructor.
    + rewrite <- Q by constructor. constructor.
Qed.

Theorem insert_error : forall ft q args e, no_nul q = true -> (interpolate ft q args = RErr e <->
  (exists k m, syntax_fault q k m /\ e = EMsg (itoa_nat k ++ ": syntax error: " ++ m)) \/
  (exists es srcs pre x post outs, parse q = POk es /\ Forall2 source (map strip es) srcs /\ concat_all srcs = q /\
     map expr_pos es = reported_all "" srcs /\ map strip es = (pre ++ x :: post)%list /\
     Forall2 (replaced ft args) pre outs /\ refuses args (concat_all (firstn (List.length pre) srcs)) x e)).
Proof.
  intros ft q args e Hq.
  assert (T : forall k m, syntax_text k m = itoa_nat k ++ ": syntax error: " ++ m).
  { reflexivity. }
  split.
  - intros H. unfold interpolate in H. destruct (parse q) as [es|o m| |] eqn:E; try discriminate.
    + right. destruct (positions q es Hq E) as (srcs & F & C & P). apply exprs_error in H.
      destruct H as (pre & x & post & outs & X & R & D).
      exists es, srcs, (map strip pre), (strip x), (map strip post), outs.
      repeat (split; [first [reflexivity|assumption|rewrite X, map_app; reflexivity]|]).
      rewrite map_length. apply (declines_refuses args es srcs pre x post e F P X). exact D.
    + left. injection H as <-. exists o, m. split; [apply parse_fault; exact E|]. rewrite T. reflexivity.
  - intros [(k & m & K & ->)|(es & srcs & pre & x & post & outs & E & F & C & P & X & R & D)]; unfold interpolate.
    + apply parse_fault in K. rewrite K, T. reflexivity.
    + rewrite E. apply exprs_error.
      assert (Sp : exists pre' x' post', es = (pre' ++ x' :: post')%list /\ map strip pre' = pre /\ strip x' = x).
      { clear -X. revert es X. induction pre as [|a pre IH]; intros [|b es] X; cbn [map app] in X; try discriminate; injection X as X1 X2.
        - exists [], b, es. auto.
        - destruct (IH es X2) as (p & y & po & -> & <- & <-). exists (b :: p), y, po. cbn [map]. rewrite X1. auto. }
      destruct Sp as (pre' & x' & post' & Es & <- & <-). exists pre', x', post', outs. split; [exact Es|]. split; [exact R|].
      rewrite map_length in D. apply (declines_refuses args es srcs pre' x' post' e F P Es). exact D.
Qed.

(** Exactly one of: a literal, a reason why there is none, a panic. *)
Theorem literal_cases : forall ft v, (exists s, literal ft v s) \/ (exists e, no_literal v e) \/ (exists e, method_panics v e).
Proof.
  intros ft v. destruct (encode_total ft v) as [[s E]|[[er E]|[er E]]].
  - left. exists s. apply encode_iff. exact E.
  - right. left. exists er. apply (encode_error_iff ft). exact E.
  - right. right. exists er. apply (encode_panics_iff ft). exact E.
Qed.
Theorem literal_apart : forall ft v e, no_literal v e -> (forall s, ~ literal ft v s) /\ (forall x, ~ method_panics v x).
Proof.
  intros ft v e H. apply (encode_error_iff ft) in H. split.
  - intros s K. apply encode_iff in K. congruence.
  - intros x K. apply (encode_panics_iff ft) in K. congruence.
Qed.
