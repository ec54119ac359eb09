(** Properties C01, C03, C06-C13 (template syntax).  The vocabulary is in
    Spec_syntax.v; the proofs are in the *_proofs.v files. *)
From Coq Require Import Strings.String Strings.Ascii NArith ZArith List Bool.
From Verif Require Import GoStr GoNum Syntax Spec_syntax Grammar_proofs Lossless_proofs.
Import ListNotations.
Open Scope string_scope.

(** C01: Parse yields expressions or an error for every byte string; it never
    panics ([PPanic]) and never exhausts its fuel ([PFuel]). *)
Theorem c01_parse_total : forall s,
  (exists es, parse s = POk es) \/ (exists offset msg, parse s = PErr offset msg).
Proof. exact parse_total. Qed.
Print Assumptions c01_parse_total.
Example c01_ok : exists es, parse "SELECT #f1('a'), '?', $1" = POk es.
Proof. eexists. vm_compute. reflexivity. Qed.
Example c01_err : exists o m, parse "SELECT #f('a" = PErr o m.
Proof. do 2 eexists. vm_compute. reflexivity. Qed.

(** C03: an accepted template without NUL is the concatenation of texts of the
    parsed expressions, in order. *)
Theorem c03_lossless : forall s es, no_nul s = true -> parse s = POk es ->
  exists srcs, Forall2 source (map strip es) srcs /\ concat_all srcs = s.
Proof. exact parse_lossless. Qed.
Print Assumptions c03_lossless.
Example c03_example : no_nul "a #f( 1, 'x''y' ) ?" = true /\ exists es, parse "a #f( 1, 'x''y' ) ?" = POk es.
Proof. split; [reflexivity|]. eexists. vm_compute. reflexivity. Qed.

(** C03, with a NUL: whatever follows it is ignored. *)
Theorem c03_nul_truncates : forall s x, parsed (s ++ String nul x) = parsed s.
Proof. exact parsed_nul. Qed.
Print Assumptions c03_nul_truncates.
Theorem c03_nul_refuted : exists s es,
  parse s = POk es /\ ~ exists srcs, Forall2 source (map strip es) srcs /\ concat_all srcs = s.
Proof.
  exists (String "a" (String nul "b")). eexists. apply conj; [vm_compute; reflexivity|].
  cbn [map strip]. intros (srcs & F & E). inversion F as [|? t ? ts S F']; subst. inversion F'; subst.
  inversion S; subst. discriminate E.
Qed.
Print Assumptions c03_nul_refuted.

(** C06: the k-th ? of a template denotes argument k. *)
Theorem c06_question_ordinals : forall l, wf l = true -> existsb is_dollar l = false ->
  exists es, parsed (print l) = Some es /\
    abinds es = map (ABind style_question) (count_from 0 (quests l)).
Proof. exact parsed_quests. Qed.
Print Assumptions c06_question_ordinals.
Example c06_example :
  let l := [Text "a = "; Quest; Text " AND "; Quoted "'" "?"; Text " = "; Quest; Text " OR "; Call "f" [SNum 1; SStr "?"]; Quest] in
  wf l = true /\ existsb is_dollar l = false /\ count_from 0 (quests l) = [1; 2; 3]%Z /\
  print l = "a = ? AND '?' = ? OR #f(1, '?')?".
Proof. repeat apply conj; vm_compute; reflexivity. Qed.

(** C07: $n denotes argument n. *)
Theorem c07_dollar_indexes : forall l, wf l = true -> existsb is_quest l = false ->
  exists es, parsed (print l) = Some es /\
    abinds es = map (fun n => ABind style_dollar (Z.of_N n)) (dollars l).
Proof. exact parsed_dollars. Qed.
Print Assumptions c07_dollar_indexes.
Example c07_example :
  let l := [Text "a = "; Dollar 2; Text " AND b IN ("; Dollar 10; Text ","; Dollar 2; Text ")"] in
  wf l = true /\ existsb is_quest l = false /\ print l = "a = $2 AND b IN ($10,$2)".
Proof. repeat apply conj; vm_compute; reflexivity. Qed.

(** C07: a $ followed by neither 1-9 nor $ is an error ($0 and $01 included),
    after any parts. *)
Theorem c07_bad_dollar_rejected : forall l x, wf_at l (String "$" x) = true ->
  starts (fun a => Ascii.eqb a "$" || is_digit19 a) x = false ->
  rejected (print l ++ String "$" x).
Proof. exact bare_dollar_rejected. Qed.
Print Assumptions c07_bad_dollar_rejected.
Example c07_bad_dollar_example : let l := [Text "a = "; Dollar 1; Text ", "] in
  wf_at l "$01" = true /\ starts (fun a => Ascii.eqb a "$" || is_digit19 a) "01" = false.
Proof. apply conj; vm_compute; reflexivity. Qed.
(** C07: numbers beyond uint64 are errors. *)
Theorem c07_big_dollar_rejected : forall l n x, wf_at l ("$" ++ dec n ++ x) = true ->
  (18446744073709551616 <= n)%N -> starts is_digit x = false ->
  rejected (print l ++ "$" ++ dec n ++ x).
Proof. exact big_dollar_rejected. Qed.
Print Assumptions c07_big_dollar_rejected.
Example c07_big_dollar_example : wf_at [Text "a = "; Dollar 1; Text ", "] ("$" ++ dec 99999999999999999999 ++ ", b") = true.
Proof. vm_compute. reflexivity. Qed.
(** Between the largest int and the largest uint64 the number wraps around. *)
Example c07_wraps : parsed "$18446744073709551615" = Some [ABind style_dollar (-1)].
Proof. vm_compute. reflexivity. Qed.

(** C08: a $n after a ? is an error, whatever else the template contains (for
    arbitrary templates see c08_styles in Prop_grammar.v) ... *)
Theorem c08_parts_rejected : forall l, wf l = true -> style_ok false l = false -> rejected (print l).
Proof. exact parsed_mixed. Qed.
Print Assumptions c08_parts_rejected.
Example c08_example : let l := [Text "a = "; Quest; Text ", b = "; Dollar 1] in
  wf l = true /\ style_ok false l = false.
Proof. split; reflexivity. Qed.
(** ... but a ? after $n is accepted. *)
Theorem c08_mixed_refuted : exists l es, wf l = true /\ existsb is_quest l = true /\
  existsb is_dollar l = true /\ parsed (print l) = Some es.
Proof.
  exists [Dollar 1; Text ", "; Quest]. eexists. refine (conj _ (conj _ (conj _ _))); vm_compute; reflexivity.
Qed.
Print Assumptions c08_mixed_refuted.

(** C09: #nameN is the call #name(N), for every digit string N. *)
Theorem c09_indexed_is_call : forall l nm ds x,
  wf_name nm = true -> ds <> "" -> all is_digit ds = true -> starts is_digit x = false ->
  wf_at l ("#" ++ nm ++ ds ++ x) = true ->
  parsed (print l ++ "#" ++ nm ++ ds ++ x) = parsed (print l ++ "#" ++ nm ++ "(" ++ ds ++ ")" ++ x).
Proof. exact indexed_is_call. Qed.
Print Assumptions c09_indexed_is_call.
Example c09_example :
  wf_name "join" = true /\ wf_at [Text "a "; Quest; Text " "] ("#" ++ "join" ++ "007" ++ " b") = true /\
  parsed "a ? #join007 b" <> None.
Proof. refine (conj _ (conj _ _)); vm_compute; try reflexivity. discriminate. Qed.

(** C10: a # that does not start a name is an error, after any parts that may
    precede it (a function value may not, see below). *)
Theorem c10_bare_hash_rejected : forall l x, wf_at l (String "#" x) = true ->
  starts is_letter x = false -> rejected (print l ++ String "#" x).
Proof. exact bare_hash_rejected. Qed.
Print Assumptions c10_bare_hash_rejected.
Example c10_example : wf_at [Text "a = "; Quest; Call "f" [SNum 1]; Quoted """" "b"] (String "#" "1") = true.
Proof. reflexivity. Qed.
(** Directly after a function value the # becomes text. *)
Theorem c10_after_function_value_refuted : exists es,
  parsed "#f# x" = Some es /\ In (APlain "# x") es.
Proof. eexists. apply conj; [vm_compute; reflexivity|]. simpl. auto. Qed.
Print Assumptions c10_after_function_value_refuted.

(** C11: a string argument round trips. *)
Theorem c11_string_argument : forall nm s, wf_name nm = true -> no_nul s = true ->
  parsed ("#" ++ nm ++ "('" ++ doubled s ++ "')") = Some [ACall nm [LStr s]].
Proof. exact parsed_string_arg. Qed.
Print Assumptions c11_string_argument.
Example c11_example : wf_name "join" = true /\ no_nul "it's #f('?') ''" = true.
Proof. split; reflexivity. Qed.

(** C12: printing parts and parsing gives the parts back. *)
Theorem c12_roundtrip : forall l, wf l = true -> style_ok false l = true ->
  parsed (print l) = Some (norm (denote 0 l)).
Proof. exact parsed_roundtrip. Qed.
Print Assumptions c12_roundtrip.
Example c12_example :
  let l := [Text "SELECT "; Esc true; Esc false; Quoted "`" "#a?"; Dollar 3;
            Call "f" [SStr "x'y, )"; SNum 12; SBool true; SNil]; Indexed "g" 7; Text " "; Call "h" [];
            Func "join"; Text " z"; Quest] in
  wf l = true /\ style_ok false l = true /\
  print l = "SELECT $$??`#a?`$3#f('x''y, )', 12, true, nil)#g7 #h()#join z?".
Proof. repeat apply conj; vm_compute; reflexivity. Qed.

(** C13 is false: a function value cannot be followed by another reference. *)
Theorem c13_function_then_call_refuted : forall f g x, wf_name f = true -> wf_name g = true ->
  rejected ("#" ++ f ++ "#" ++ g ++ x).
Proof. exact func_hash_rejected. Qed.
Print Assumptions c13_function_then_call_refuted.
Theorem c13_function_then_dollar_refuted : forall f n x, wf_name f = true -> (1 <= n)%N ->
  rejected ("#" ++ f ++ "$" ++ dec n ++ x).
Proof. exact func_dollar_rejected. Qed.
Print Assumptions c13_function_then_dollar_refuted.
Theorem c13_function_then_question_refuted : forall f x, wf_name f = true -> no_nul x = true ->
  starts (fun a => Ascii.eqb a "?" || is_digit19 a) x = false ->
  parsed ("#" ++ f ++ "?" ++ x) = option_map (fun es => AFunc f :: cons_text "?" es) (parsed x).
Proof. exact func_quest_plain. Qed.
Print Assumptions c13_function_then_question_refuted.
Example c13_example : wf_name "f" = true /\ parsed "#f?, 1" = Some [AFunc "f"; APlain "?, 1"].
Proof. apply conj; vm_compute; reflexivity. Qed.
