(** The names in templates are quoted as they are. *)
From Coq Require Import Strings.String Strings.Ascii NArith ZArith List Bool Lia Arith.
From Verif Require Import GoStr GoNum Letters Printable Quote Syntax Value Util Model Sqlf Sqlb Spec_syntax Spec_base Spec_eval Spec_grammar Spec_utf8 Spec_quote
  Lex_proofs Grammar_proofs Lossless_proofs Grammar2_proofs Base_proofs Rune_proofs Quote_proofs.
Import ListNotations.
Open Scope string_scope.

Definition named (nm : string) (x : aexpr) : Prop := match x with ACall n _ | AFunc n => n = nm | _ => False end.
Lemma named_text : forall nm t es x, In x (cons_text t es) -> named nm x -> In x es.
Proof.
  intros nm t es x H N. unfold cons_text in H. destruct es as [|[u|st i|n a|n] es]; try destruct (is_empty t);
    repeat match goal with K : In _ (_ :: _) |- _ => destruct K as [<-|K] end; cbn [named] in N; try contradiction; try exact H; try (left; reflexivity); right; exact H.
Qed.
Lemma templ_names : forall b q k s es, templ b q k s es -> forall nm x, In x es -> named nm x -> wf_name nm = true.
Proof.
  intros b q k s es H. induction H; intros nm' x Hx Nx;
    repeat match goal with
    | K : In _ (cons_text _ _) |- _ => apply (named_text nm') in K; [|exact Nx]
    | K : In _ (_ :: _) |- _ => destruct K as [<-|K]
    | K : In _ [] |- _ => destruct K
    end; try (cbn in Nx; first [contradiction|subst; assumption]); try (eapply IHtempl; eassumption).
Qed.
Lemma nul_split : forall s, no_nul s = true \/ exists a b, s = a ++ String nul b /\ no_nul a = true.
Proof.
  unfold no_nul. induction s as [|c s IH]; [left; reflexivity|]. destruct (Ascii.eqb c nul) eqn:E.
  - apply Ascii.eqb_eq in E. subst c. right. exists "", s. split; reflexivity.
  - cbn [all]. rewrite E. cbn [negb andb]. destruct IH as [IH|(a & b & -> & IH)]; [left; exact IH|].
    right. exists (String c a), b. split; [reflexivity|]. cbn [all]. rewrite E. exact IH.
Qed.
Theorem template_names : forall s l nm x, parsed s = Some l -> In x l -> named nm x -> wf_name nm = true.
Proof.
  intros s l nm x H Hx Nx. destruct (nul_split s) as [N|(a & b & -> & N)].
  - apply (parsed_template s l N) in H. exact (templ_names _ _ _ _ _ H nm x Hx Nx).
  - rewrite parsed_nul in H. apply (parsed_template a l N) in H. exact (templ_names _ _ _ _ _ H nm x Hx Nx).
Qed.
Lemma wf_identifier : forall nm, wf_name nm = true -> identifier nm.
Proof.
  intros nm H. unfold wf_name in H. apply andb_prop in H as [H1 H2].
  assert (G : all is_letter nm = true -> exists rs, nm = encoded rs /\ Forall (fun r => r = 95%N \/ letter r) rs).
  { clear. induction nm as [|a nm IH]; intros H; [exists []; split; [reflexivity|constructor]|]. cbn [all] in H. apply andb_prop in H as [Ha H].
    destruct (IH H) as (rs & -> & F). exists (code a :: rs).
    assert (K : (code a < 128)%N /\ (code a = 95%N \/ letter (code a))).
    { assert (A : forallb (fun n => let a := ascii_of_nat n in negb (is_letter a) || ((code a <? 128)%N && ((code a =? 95)%N || unicode_letter (code a)))) (seq 0 256) = true) by (vm_compute; reflexivity).
      rewrite forallb_forall in A. specialize (A (nat_of_ascii a) ltac:(apply in_seq; pose proof (nat_ascii_bounded a); lia)). cbn zeta in A. rewrite ascii_nat_embedding, Ha in A. cbn [negb orb] in A.
      apply andb_prop in A as [A1 A2]. apply N.ltb_lt in A1. split; [exact A1|]. apply orb_prop in A2 as [A2|A2]; [left; apply N.eqb_eq; exact A2|right; apply letter_iff; exact A2]. }
    destruct K as [K1 K2]. split; [|constructor; [exact K2|exact F]]. rewrite <- encoded_more, utf8_byte by exact K1. cbn [bytes fold_right append]. rewrite byte_code. reflexivity. }
  destruct (G H2) as (rs & E & F). exists rs. split; [|split; [exact E|exact F]]. intros ->. subst nm. discriminate H1.
Qed.
Theorem template_names_quoted : forall s l nm x, parsed s = Some l -> In x l -> named nm x -> quote nm = """" ++ nm ++ """".
Proof. intros s l nm x H Hx Nx. apply quote_identifier, wf_identifier. eapply template_names; eassumption. Qed.
Theorem template_call_quoted : forall s l nm a, parsed s = Some l -> In (ACall nm a) l -> identifier nm /\ quote nm = """" ++ nm ++ """".
Proof.
  intros s l nm a H Hx. split; [apply wf_identifier; eapply template_names; [exact H|exact Hx|reflexivity]|eapply template_names_quoted; [exact H|exact Hx|reflexivity]].
Qed.
(** The messages tell the names apart. *)
Lemma app_cancel_r : forall a b c : string, a ++ c = b ++ c -> a = b.
Proof.
  intros a b c E. assert (L : String.length a = String.length b) by (apply (f_equal String.length) in E; rewrite !Term_proofs.length_app in E; lia).
  apply split_at in E as [E _]; assumption.
Qed.
Theorem messages_differ : forall nm nm',
  (err_text (not_defined nm) = err_text (not_defined nm') -> nm = nm') /\ (err_text (bad_name nm) = err_text (bad_name nm') -> nm = nm').
Proof.
  intros nm nm'. unfold not_defined, bad_name. cbn [err_text]. split; intros E; apply quote_inj.
  - apply app_cancel_r in E. exact E.
  - cbn [append] in E. repeat match type of E with String _ _ = String _ _ => injection E as E end. apply app_cancel_r in E. exact (f_equal (append """") E).
Qed.
