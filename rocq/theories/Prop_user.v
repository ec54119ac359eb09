(** Property C82: user code that builds a statement on its own and embeds it.
    The vocabulary is in Spec_user.v; the proofs are in User_proofs.v. *)
From Coq Require Import Strings.String Strings.Ascii NArith ZArith List Bool.
From Verif Require Import GoStr GoNum Syntax Value Util Model Sqlf Sqlb RefSem Spec_build Build_proofs Spec_user User_proofs.
Import ListNotations.
Open Scope string_scope.

(** In Question style it is the same as building it in place. *)
Theorem c82_question : forall n st b, st_dollar st = false -> lib (fun _ => true) b = true -> forallb (lib_qb (fun _ => true)) (st_heap st) = true ->
  let x := build n [builtins] b st in let y := build (S n) [builtins] (embed style_question b) st in
  fst y = fst x /\ st_heap (snd y) = st_heap (snd x) /\ (forall s, fst x = ROk s -> snd y = snd x).
Proof. exact embed_question. Qed.
Print Assumptions c82_question.
Definition one : builder := BFrag (Fa "a=? AND b=?" [VInt "int" 1; VInt "int" 1]).
Example c82_question_example : lib (fun _ => true) one = true /\
  fst (build_query 9 style_question [] (BFrag (Frag "x=? OR #f1" [VInt "int" 7] [embed style_question one] "" "")))
    = ROk ("x=? OR a=? AND b=?", [VInt "int" 7; VInt "int" 1; VInt "int" 1]).
Proof. apply conj; vm_compute; reflexivity. Qed.
(** In either style it is, if it comes first. *)
Theorem c82_first : forall n style h b, lib (okv (style =? style_dollar)%Z) b = true -> forallb (lib_qb (okv (style =? style_dollar)%Z)) h = true ->
  build_query (S n) style h (embed style b) = build_query n style h b.
Proof. exact embed_first. Qed.
Print Assumptions c82_first.
Example c82_first_example : lib (okv true) one = true /\
  fst (build_query 9 style_dollar [] (embed style_dollar one)) = ROk ("a=$1 AND b=$1", [VInt "int" 1]).
Proof. apply conj; vm_compute; reflexivity. Qed.
(** In Dollar style after other arguments its placeholders stand for the wrong values. *)
Theorem c82_dollar_refuted : 
  fst (build_query 9 style_dollar [] (BFrag (Frag "x=? OR #f1" [VInt "int" 7] [embed style_dollar one] "" "")))
    = ROk ("x=$1 OR a=$1 AND b=$1", [VInt "int" 7; VInt "int" 1]) /\
  fst (build_query 9 style_dollar [] (BFrag (Frag "x=? OR #f1" [VInt "int" 7] [one] "" "")))
    = ROk ("x=$1 OR a=$2 AND b=$2", [VInt "int" 7; VInt "int" 1]).
Proof. apply conj; vm_compute; reflexivity. Qed.
Print Assumptions c82_dollar_refuted.
