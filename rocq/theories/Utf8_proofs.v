(** Proofs about what can be registered. *)
From Coq Require Import Strings.String Strings.Ascii NArith ZArith List Bool Lia Arith.
From Verif Require Term_proofs.
From Verif Require Import GoStr GoNum Letters Syntax Value Util Model Sqlf Register Spec_syntax Spec_eval Spec_base Spec_utf8 Lex_proofs Text_proofs Use_proofs Base_proofs Register_proofs Rune_proofs.
Import ListNotations.
Open Scope string_scope.

Theorem registrable_exactly : forall fs, check_funcs fs = None <-> Forall registrable_any fs.
Proof.
  intros fs. rewrite check_forallb, forallb_forall, Forall_forall. split; intros H [nm f] Hi; specialize (H _ Hi); unfold registrable_any in *; cbn [fst snd] in *.
  - apply andb_prop in H as [A B]. split; [apply names_exactly, A|]. apply good_sig_ok, B.
  - destruct H as [A B]. rewrite (proj2 (names_exactly nm) A). apply good_sig_ok, B.
Qed.
Lemma good_entry_any : forall x, good_entry x = true <-> registrable_any_value x.
Proof.
  intros [nm v]. unfold good_entry, registrable_any_value. cbn [fst snd]. destruct v as [f|].
  - rewrite andb_true_iff, good_sig_ok, names_exactly. unfold registrable_any. cbn [fst snd]. tauto.
  - rewrite ?andb_false_r. split; [discriminate|contradiction].
Qed.
Theorem accepted_exactly : forall m, NoDup (map fst m) -> (fst (add_value_funcs m []) = None <-> Forall registrable_any_value m).
Proof.
  intros m N. assert (G : forallb good_entry m = true <-> Forall registrable_any_value m).
  { rewrite forallb_forall, Forall_forall. split; intros H x Hx; apply good_entry_any, H, Hx. }
  rewrite <- G. destruct (add_stops m [] N) as [[K ->] | (m1 & x & m2 & er & -> & B & C & ->)].
  - intros n _ [].
  - rewrite K. split; reflexivity.
  - cbn [fst]. rewrite forallb_app, B. cbn [forallb andb]. rewrite C. split; discriminate.
Qed.
