(** Property C85: syntax errors say what is wrong and where. *)
From Coq Require Import Strings.String Strings.Ascii NArith ZArith List Bool.
From Verif Require Import GoStr GoNum Syntax Spec_syntax Spec_base Spec_grammar Spec_fault Fault4_proofs.
Import ListNotations.
Open Scope string_scope.

(** The parser reports exactly the error of the specification, at its place. *)
Theorem c85_error : forall s k m, parse s = PErr k m <-> syntax_fault s k m.
Proof. exact parse_fault. Qed.
Print Assumptions c85_error.
(** A template has at most one such error. *)
Theorem c85_one_error : forall s k m k' m', syntax_fault s k m -> syntax_fault s k' m' -> k = k' /\ m = m'.
Proof. exact syntax_fault_unique. Qed.
Print Assumptions c85_one_error.
(** A template is refused exactly if it has one. *)
Theorem c85_refused : forall s, rejected s <-> exists k m, syntax_fault s k m.
Proof. exact rejected_fault. Qed.
Print Assumptions c85_refused.

(** ** Examples *)

(** The second part is wrong. *)
Example c85_ex_dollar : syntax_fault "a$?" 2 "syntax error: unexpected ref, want literal".
Proof.
  exists "a$", "?". split; [split; [reflexivity|left; reflexivity]|]. split; [reflexivity|].
  apply (mr_more false "a$?" false "$?"); [constructor; reflexivity|]. apply mr_here. exact (sp_dollar "?" eq_refl).
Qed.
(** A text with two errors: the first is reported. *)
Example c85_ex_first : syntax_fault "?#f(1,x) $1" 6 "unexpected token name, want args".
Proof.
  exists "?#f(1,", "x) $1". split; [split; [reflexivity|left; reflexivity]|]. split; [reflexivity|].
  apply (mr_more false "?#f(1,x) $1" true "#f(1,x) $1"); [exact (ps_quest false "#f(1,x) $1" eq_refl)|]. apply mr_here.
  apply (sp_args true "f" "1,x) $1" "x) $1" "unexpected token name, want args" eq_refl).
  apply (ar_more "" "1" (LNum (SpecFloat.S754_finite false 4503599627370496 (-52))) "x) $1"); [constructor| |].
  - apply at_word; [|apply wv_number; vm_compute; reflexivity]. repeat split; try discriminate.
    intros v u H. unfold whites in H. cbn [map In] in H. repeat (destruct H as [<-|H]; [discriminate|]). destruct H.
  - apply (ar_word "" "x" ") $1"); [constructor| |intros v H; inversion H; match goal with K : parse_float _ = _ |- _ => vm_compute in K; discriminate K end|reflexivity].
    repeat split; try discriminate.
    intros v u H. unfold whites in H. cbn [map In] in H. repeat (destruct H as [<-|H]; [discriminate|]). destruct H.
Qed.
(** What follows a NUL character is not read. *)
Example c85_ex_nul : syntax_fault ("#" ++ String nul "f") 1 "syntax error: unexpected EOF, want name".
Proof.
  exists "#", "". split; [split; [reflexivity|right; exists "f"; reflexivity]|]. split; [reflexivity|]. apply mr_here. exact (sp_hash false "" eq_refl).
Qed.
(** Numbers may be too large for the kind of number needed. *)
Example c85_ex_large : parse "$18446744073709551616" = PErr 1 "strconv.ParseUint: parsing ""18446744073709551616"": value out of range".
Proof. vm_compute. reflexivity. Qed.
Example c85_ex_mixed : parse "?, $1" = PErr 3 "mixed bindvar styles".
Proof. vm_compute. reflexivity. Qed.
Example c85_ex_quoted : parse "#f('a' 'b')" = PErr 7 "unexpected token literal, want )".
Proof. vm_compute. reflexivity. Qed.
