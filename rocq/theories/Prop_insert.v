(** Property C87: what the errors of Interpolate say.  The vocabulary is in
    Spec_insert.v; the proofs are in Insert_proofs.v. *)
From Coq Require Import Strings.String Strings.Ascii ZArith NArith List Bool.
From Verif Require Import GoStr GoNum Syntax Value Util Spec_syntax Spec_pos Spec_util Spec_fault Spec_insert Insert_proofs.
Import ListNotations.
Open Scope string_scope.

(** C87: Interpolate fails exactly for a syntax error of the query, at its
    place, or for the first expression that is not replaced: a function, at its
    line and column, or a bind variable whose argument has no literal. *)
Theorem c87_error : forall ft q args e, no_nul q = true -> (interpolate ft q args = RErr e <->
  (exists k m, syntax_fault q k m /\ e = EMsg (itoa_nat k ++ ": syntax error: " ++ m)) \/
  (exists es srcs pre x post outs, parse q = POk es /\ Forall2 source (map strip es) srcs /\ concat_all srcs = q /\
     map expr_pos es = reported_all "" srcs /\ map strip es = (pre ++ x :: post)%list /\
     Forall2 (replaced ft args) pre outs /\ refuses args (concat_all (firstn (List.length pre) srcs)) x e)).
Proof. exact insert_error. Qed.
Print Assumptions c87_error.
(** Why an argument has no literal. *)
Theorem c87_argument : forall ft v e, encode_value ft v = RErr e <-> no_literal v e.
Proof. exact encode_error_iff. Qed.
Print Assumptions c87_argument.
(** An argument has a literal, or a reason why it has none, or a method of it
    panics; a reason excludes the other two. *)
Theorem c87_cases : forall ft v, (exists s, literal ft v s) \/ (exists e, no_literal v e) \/ (exists e, method_panics v e).
Proof. exact literal_cases. Qed.
Print Assumptions c87_cases.
Theorem c87_apart : forall ft v e, no_literal v e -> (forall s, ~ literal ft v s) /\ (forall x, ~ method_panics v x).
Proof. exact literal_apart. Qed.
Print Assumptions c87_apart.

Definition c87_query : string := "a = ?" ++ String (ascii_of_nat 10) " AND #f(1) = ?".
Definition c87_time (t : gotime) : string := "t".
Example c87_ex_function : no_nul c87_query = true /\
  interpolate c87_time c87_query [VInt "int" 7; VStruct "T" []] = RErr (EMsg "2:6: unsupported declaration").
Proof. apply conj; vm_compute; reflexivity. Qed.
Example c87_ex_argument :
  interpolate c87_time c87_query [VStruct "T" []; VInt "int" 7] = RErr (EMsg "unsupported type T") /\
  interpolate c87_time "? ?" [VInt "int" 1; VValuer "V" (VStr "V" "") (inl (inl (VSlice "[]uint8" None)))]
    = RErr (EMsg "unsupported type []uint8") /\
  interpolate c87_time "? ?" [VInt "int" 1; VValuer "V" (VStr "V" "") (inl (inr (EMsg "no value")))] = RErr (EMsg "no value").
Proof. repeat apply conj; vm_compute; reflexivity. Qed.
Example c87_ex_syntax : interpolate c87_time "?#f(1,x)" [VStruct "T" []]
  = RErr (EMsg "6: syntax error: unexpected token name, want args").
Proof. vm_compute. reflexivity. Qed.
Example c87_ex_reason : no_literal (VValuer "V" (VStr "V" "") (inl (inl (VArray "[2]int" [])))) (EMsg "unsupported type [2]int").
Proof. apply nl_value. apply nl_kind. constructor. Qed.
