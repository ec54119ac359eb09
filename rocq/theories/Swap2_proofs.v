(** Builders that cannot be told apart. *)
From Coq Require Import Strings.String Strings.Ascii NArith ZArith List Bool Lia.
From Verif Require Import GoStr GoNum Syntax Value Util Model Sqlf Sqlb Spec_syntax Spec_eval Spec_swap Lex_proofs Grammar_proofs Fuel_proofs Eval_proofs Swap_proofs.
Import ListNotations.
Open Scope string_scope.

Lemma same_by : forall a a' k, (forall n e st, approx (build n e a st) (build (k + n) e a' st)) ->
  (forall n e st, approx (build n e a' st) (build (k + n) e a st)) -> same a a'.
Proof.
  intros a a' k H H' e st r Hr. split; intros [n E]; exists (k + n).
  - destruct (H n e st) as [K|K]; [rewrite E in K; contradiction|congruence].
  - destruct (H' n e st) as [K|K]; [rewrite E in K; contradiction|congruence].
Qed.
Lemma same_at : forall a a', (forall n e st, build n e a st = build n e a' st) -> same a a'.
Proof. intros a a' H. apply (same_by a a' 0); intros n e st; right; cbn; rewrite H; reflexivity. Qed.

(** Templates. *)
Lemma clause_unstyle : forall rb rc jf e fc l S, clause rb rc jf e fc (map unstrip (map unstyle l)) S = clause rb rc jf e fc (map unstrip l) S.
Proof.
  intros rb rc jf e fc l. induction l as [|x l IH]; intros S; [reflexivity|]. cbn [map]. rewrite !clause_cons.
  assert (E : eval_expr rb rc jf e fc (unstrip (unstyle x)) S = eval_expr rb rc jf e fc (unstrip x) S) by (destruct x; reflexivity).
  rewrite E. apply andthen_ext. exact IH.
Qed.
Lemma frag_template : forall raw raw' args l p s n rb e st, same_template raw raw' ->
  like (build_frag n rb e (Frag raw args l p s) st) (build_frag n rb e (Frag raw' args l p s) st).
Proof.
  intros raw raw' args l p s n rb e st (x & y & Hx & Hy & E).
  rewrite (build_parsed n rb e (Frag raw args l p s) st x Hx), (build_parsed n rb e (Frag raw' args l p s) st y Hy). cbn [f_args f_frags f_prefix f_suffix].
  assert (K : forall S, clause_n n rb e (mkFrame args l) (map unstrip x) S = clause_n n rb e (mkFrame args l) (map unstrip y) S).
  { intro S. destruct n as [|n]; [reflexivity|]. rewrite !clause_n_S, <- (clause_unstyle _ _ _ _ _ x), <- (clause_unstyle _ _ _ _ _ y), E. reflexivity. }
  rewrite K. destruct (clause_n n rb e (mkFrame args l) (map unstrip y) _) as [[body|er|er|] X]; [|repeat split..].
  destruct (_ && _); [|repeat split]. cbn zeta. destruct (is_empty (trim_space body)); repeat split.
Qed.
Lemma like_sym : forall r r', like r r' -> like r' r.
Proof. intros [o s] [o' s'] [H1 H2]. cbn in *. split; [symmetry; exact H1|]. destruct o, o'; cbn in *; congruence. Qed.
Lemma alike_at : forall a a', (forall n e st, like (build n e a st) (build n e a' st)) -> alike a a'.
Proof.
  intros a a' H e st r Hr. split; intros [n E]; exists n; eexists; (split; [reflexivity|]); rewrite <- E; [apply H|apply like_sym, H].
Qed.
Theorem like_templates : forall raw raw' args l p s t, same_template raw raw' ->
  alike (BFrag (Frag raw args l p s)) (BFrag (Frag raw' args l p s)) /\ same_names (BFrag (Frag raw args l p s)) (BFrag (Frag raw' args l p s)) /\
  alike (BCol (Some (Frag raw args l p s)) t) (BCol (Some (Frag raw' args l p s)) t) /\ same_names (BCol (Some (Frag raw args l p s)) t) (BCol (Some (Frag raw' args l p s)) t).
Proof.
  intros raw raw' args l p s t H. repeat apply conj.
  - apply alike_at. intros [|n] e st; [split; reflexivity|]. apply frag_template, H.
  - intro ts. split; intro K; inversion K; subst; constructor; assumption.
  - apply alike_at. intros [|n] e st; [split; reflexivity|]. apply frag_template, H.
  - intro ts. split; intro K; inversion K; subst; constructor; assumption.
Qed.

(** Wrappers. *)
Theorem same_wrapped : forall b, same (wrapped b) b.
Proof.
  intros b. apply (same_by _ _ 1).
  - intros [|n] e st; [left; reflexivity|]. cbn [build wrapped run_prog check_funcs].
    destruct (mono_build n (1 + S n) e b st) as [K|K]; [lia|left|].
    + destruct (build n e b st) as [o u]. cbn in K. subst o. reflexivity.
    + rewrite <- K. destruct (build n e b st) as [[s|er|er|] u]; [right|right|right|left]; reflexivity.
  - intros n e st. cbn [Nat.add build wrapped run_prog check_funcs].
    destruct (build n e b st) as [[s|er|er|] u]; [right|right|right|left]; reflexivity.
Qed.

(** Columns. *)
Theorem same_column : forall f t, same (BCol (Some f) t) (BFrag f).
Proof. intros f t. apply same_at. intros [|n] e st; reflexivity. Qed.

(** Fixed texts. *)
Lemma plain_at : forall n e st t, plain_text t = true -> build (S (S n)) e (BFrag (F t)) st = (ROk (trim_space t), st).
Proof.
  intros n e st t H. pose proof (inert_verbatim n e [Text t] "" "" st eq_refl) as Q. cbn [print print1] in Q. rewrite append_nil_r in Q.
  unfold F. rewrite Q by (cbn; rewrite H; reflexivity). cbn [is_empty]. destruct (is_empty (trim_space t)) eqn:E.
  - destruct (trim_space t); [reflexivity|discriminate].
  - cbn [append]. rewrite append_nil_r. reflexivity.
Qed.
Lemma fixed_at : forall b s, fixed b s -> forall n e st, 2 <= n -> build n e b st = (ROk s, st).
Proof.
  intros b s H n e st Hn. destruct n as [|[|n]]; [lia..|]. destruct H; try reflexivity.
  - apply plain_at. assumption.
  - rewrite <- (plain_at n e st t); [reflexivity|assumption].
Qed.
Theorem same_fixed : forall b b' s, fixed b s -> fixed b' s -> same b b'.
Proof.
  assert (G : forall b b' s, fixed b s -> fixed b' s -> forall n e st, approx (build n e b st) (build (2 + n) e b' st)).
  { intros b b' s H H' n e st. rewrite (fixed_at _ _ H' (2 + n) e st) by lia. rewrite <- (fixed_at _ _ H (2 + n) e st) by lia. apply mono_build. lia. }
  intros b b' s H H'. apply (same_by _ _ 2); intros; eapply G; eassumption.
Qed.
