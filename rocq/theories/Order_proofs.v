(** Reference semantics: commit order and meaning of placeholders. *)
From Coq Require Import Strings.String Strings.Ascii NArith ZArith List Bool Lia.
From Verif Require Import GoStr GoNum Syntax Value Util Model Sqlf Sqlb ByteLex Lex_proofs RefSem Text_proofs Sim_proofs.
Import ListNotations.
Open Scope string_scope.

Lemma tapp_lit_nil_l : forall t, tapp (tlit "") t = t.
Proof. intros [a l]. reflexivity. Qed.

Lemma tcat_assoc : forall l a y z, tapp (tcat a l y) z = tcat a l (tapp y z).
Proof.
  induction l as [|[j s] l IH]; intros a [b m] z.
  - cbn [tcat fst snd]. unfold tapp. cbn [fst snd].
    destruct m as [|[k u] m]; cbn [tcat fst snd]; [rewrite append_assoc; reflexivity|reflexivity].
  - cbn [tcat]. specialize (IH s (b, m) z). destruct (tcat s l (b, m)) as [r0 rl].
    unfold tapp in IH |- *. cbn [fst snd tcat] in *. rewrite IH. reflexivity.
Qed.
Lemma tapp_assoc : forall x y z, tapp (tapp x y) z = tapp x (tapp y z).
Proof. intros [a l] y z. unfold tapp at 2 3. cbn [fst snd]. apply tcat_assoc. Qed.

Lemma tjoin_snoc : forall sep l t, tjoin sep (l ++ [t]) =
  match l with [] => t | _ => tapp (tjoin sep l) (tapp (tlit sep) t) end.
Proof.
  intros sep l t. induction l as [|x l IH]; [reflexivity|].
  destruct l as [|y l]; [reflexivity|].
  change ((x :: y :: l) ++ [t])%list with (x :: ((y :: l) ++ [t]))%list.
  change (tjoin sep (x :: (y :: l) ++ [t])) with (tapp x (tapp (tlit sep) (tjoin sep ((y :: l) ++ [t])))).
  rewrite IH. change (tjoin sep (x :: y :: l)) with (tapp x (tapp (tlit sep) (tjoin sep (y :: l)))).
  rewrite !tapp_assoc. reflexivity.
Qed.

Lemma tempty_lit : forall s, tempty (tlit s) = is_empty s.
Proof. intros s. unfold tempty. cbn. apply andb_true_r. Qed.

Lemma tempty_render_not : forall t, tempty t = false -> render (fun _ => "?") t <> "".
Proof.
  intros t H K. rewrite <- (render_empty (fun _ => "?") t) in H by discriminate.
  rewrite K in H. discriminate.
Qed.

Lemma tempty_app : forall x y, tempty (tapp x y) = tempty x && tempty y.
Proof.
  intros x y. rewrite <- !(render_empty (fun _ => "?")) by discriminate.
  rewrite render_app. destruct (render (fun _ => "?") x); reflexivity.
Qed.

Lemma tempty_join : forall sep l, Forall (fun t => tempty t = false) l ->
  tempty (tjoin sep l) = match l with [] => true | _ => false end.
Proof.
  intros sep l H. destruct H as [|x l Hx H]; [reflexivity|].
  destruct l as [|y l]; [exact Hx|].
  change (tjoin sep (x :: y :: l)) with (tapp x (tapp (tlit sep) (tjoin sep (y :: l)))).
  rewrite tempty_app, Hx. reflexivity.
Qed.

(* ------------------------------------------------------------------ *)
(** * Increasing lists *)

Definition within (lo hi : nat) (l : list nat) : Prop := increasing lo l /\ Forall (fun j => j < hi) l.

Lemma increasing_weaken : forall l lo lo', lo' <= lo -> increasing lo l -> increasing lo' l.
Proof. intros [|j l] lo lo' H K; [exact I|]. cbn in *. split; [lia|tauto]. Qed.

Lemma within_weaken : forall l lo hi lo' hi', lo' <= lo -> hi <= hi' -> within lo hi l -> within lo' hi' l.
Proof.
  intros l lo hi lo' hi' H1 H2 [K1 K2]. split; [eapply increasing_weaken; eassumption|].
  eapply Forall_impl; [|exact K2]. cbn. intros; lia.
Qed.
Lemma within_nil : forall lo hi, within lo hi [].
Proof. intros lo hi. split; [exact I|constructor]. Qed.
Lemma within_app : forall l lo mid hi m, lo <= mid -> mid <= hi -> within lo mid l -> within mid hi m -> within lo hi (l ++ m).
Proof.
  induction l as [|j l IH]; intros lo mid hi m Hl Hh [H1 H2] Hm.
  - cbn. eapply within_weaken; [| |exact Hm]; lia.
  - inversion H2; subst. cbn in H1. destruct H1 as [H1a H1b].
    destruct (IH (S j) mid hi m) as [K1 K2]; [lia|lia|split; assumption|exact Hm|].
    split; [cbn; split; assumption|]. cbn. constructor; [lia|exact K2].
Qed.

Lemma increasing_full : forall l lo hi, increasing lo l -> Forall (fun j => j < hi) l ->
  List.length l <= hi - lo.
Proof.
  induction l as [|j l IH]; intros lo hi H K; cbn; [lia|].
  apply Forall_inv in K as K1. apply Forall_inv_tail in K as K2. cbn in H. destruct H as [H1 H2].
  specialize (IH (S j) hi H2 K2). lia.
Qed.
Lemma increasing_seq : forall l lo, increasing lo l -> Forall (fun j => j < lo + List.length l) l ->
  l = seq lo (List.length l).
Proof.
  induction l as [|j l IH]; intros lo H K; [reflexivity|].
  cbn [List.length] in *. apply Forall_inv in K as K1. apply Forall_inv_tail in K as K2. cbn in H. destruct H as [H1 H2].
  pose proof (increasing_full l (S j) _ H2 K2) as L.
  assert (j = lo) by lia. subst j. cbn [seq]. f_equal. apply IH; [exact H2|].
  eapply Forall_impl; [|exact K2]. cbn. intros; lia.
Qed.

(* ------------------------------------------------------------------ *)
(** * Evaluation *)

Lemma tree_frag_eq : forall P f, tree_frag P f = forallb P (f_args f) && forallb (tree P) (f_frags f).
Proof. intros P [raw args frags p s]. reflexivity. Qed.

Lemma tree_lib : forall P b, tree P b = true -> lib P b = true.
Proof.
  intros P. fix IH 1. intros b.
  assert (G : forall f, (forall c, In c (f_frags f) -> tree P c = true -> lib P c = true) ->
    tree_frag P f = true -> lib_frag P f = true).
  { intros f Hc H. rewrite tree_frag_eq in H. rewrite lib_frag_eq. apply andb_prop in H as [H1 H2].
    rewrite H1. cbn [andb]. rewrite forallb_forall in H2 |- *. intros c Hi. apply Hc; auto. }
  destruct b as [| |f| |[f|] t|t|x a|[id|]|p]; try reflexivity; try discriminate.
  - apply G. destruct f as [raw args frags pre suf]. cbn [f_frags].
    induction frags as [|c l IHl]; [intros c []|]. intros d [<-|Hd]; [apply IH|apply IHl; exact Hd].
  - apply G. destruct f as [raw args frags pre suf]. cbn [f_frags].
    induction frags as [|c l IHl]; [intros c []|]. intros d [<-|Hd]; [apply IH|apply IHl; exact Hd].
Qed.
