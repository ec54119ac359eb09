(** Property C75: the parser and the grammar of templates.  The grammar is in
    Spec_grammar.v; the proofs are in Grammar2_proofs.v. *)
From Coq Require Import Strings.String Strings.Ascii NArith ZArith List Bool.
From Verif Require Import GoStr GoNum Syntax Spec_syntax Spec_base Spec_grammar Base_proofs Grammar2_proofs.
Import ListNotations.
Open Scope string_scope.

(** C75: the parser accepts exactly the templates of the grammar and returns
    the expressions they stand for.  (What follows a NUL byte is ignored, see
    c03_nul_truncates.) *)
Theorem c75_grammar : forall s es, no_nul s = true -> (parsed s = Some es <-> template s es).
Proof. exact parsed_template. Qed.
Print Assumptions c75_grammar.

Theorem c75_rejected : forall s, no_nul s = true -> (rejected s <-> forall es, ~ template s es).
Proof. exact rejected_template. Qed.
Print Assumptions c75_rejected.

(** The grammar is unambiguous. *)
Theorem c75_unambiguous : forall s es1 es2, no_nul s = true -> template s es1 -> template s es2 -> es1 = es2.
Proof. exact template_unique. Qed.
Print Assumptions c75_unambiguous.

(** C08: without the rule about styles the grammar also derives the templates
    that mix both styles.  The parser takes exactly those in which no $n comes
    after a question mark and rejects the others. *)
Theorem c08_styles : forall s es, no_nul s = true -> (parsed s = Some es <-> either_style s es /\ no_dollar_after_quest es).
Proof. exact parsed_styles. Qed.
Print Assumptions c08_styles.
Theorem c08_mixed_rejected : forall s es, no_nul s = true -> either_style s es -> ~ no_dollar_after_quest es -> rejected s.
Proof. exact mixed_rejected. Qed.
Print Assumptions c08_mixed_rejected.
Example c08_styles_example : no_nul "a=? AND b=$1" = true /\
  either_style "?$1" [ABind style_question 1; ABind style_dollar 1] /\ ~ no_dollar_after_quest [ABind style_question 1; ABind style_dollar 1].
Proof.
  apply conj; [reflexivity|]. apply conj.
  - apply (tp_quest false 0 "$1"); [reflexivity|]. apply (tp_dollar true 1 "1" 1 "" []); try reflexivity; [|constructor]. apply itoa_decimal. reflexivity.
  - intro H. exact (H [] 1%Z [ABind style_dollar 1] 1%Z eq_refl (or_introl eq_refl)).
Qed.

(** A call with white space and a comma at the end, a function value followed
    by a number sign, and a quote that is not closed. *)
Definition text0 : string := "a ?#f( 'x''y' ,nil,)#g# 'b?".
Definition exprs0 : list aexpr :=
  [APlain "a "; ABind style_question 1; ACall "f" [LStr "x'y"; LNil]; AFunc "g"; APlain "# 'b?"].
Example c75_example : no_nul text0 = true /\ template text0 exprs0 /\
  (forall es, ~ template "#f(nil )" es) /\ (forall es, ~ template "?1" es) /\ (forall es, ~ template "?$1" es) /\
  (exists es, template "$1?" es).
Proof.
  assert (R : forall s, no_nul s = true -> parsed s = None -> forall es, ~ template s es).
  { intros s N H es T. apply (c75_grammar s es N) in T. rewrite H in T. discriminate T. }
  apply conj; [reflexivity|]. apply conj.
  { apply (c75_grammar text0 exprs0); [reflexivity|]. vm_compute. reflexivity. }
  apply conj; [|apply conj]; [| |apply conj].
  1-3: apply R; [reflexivity|]; vm_compute; reflexivity.
  exists [ABind style_dollar 1; ABind style_question 2]. apply c75_grammar; [reflexivity|]. vm_compute. reflexivity.
Qed.
(** The same template from the rules of the grammar alone. *)
Example c75_rules : template "?#f( nil,)#g#" [ABind style_question 1; ACall "f" [LNil]; AFunc "g"; APlain "#"].
Proof.
  apply (tp_quest (strict := true) false 0 "#f( nil,)#g#"); [reflexivity|].
  apply (tp_call true 1 "f" " nil,)" [LNil] "#g#"); [reflexivity| |].
  - apply (as_more " " "nil" LNil ")" []).
    + apply (bl_more " " ""); [cbn; tauto|constructor].
    + apply at_word; [|constructor]. apply conj; [discriminate|]. apply conj; [reflexivity|]. apply conj; [reflexivity|].
      intros v u Hv E. cbn in Hv. repeat (destruct Hv as [<-|Hv]; [discriminate E|]). destruct Hv.
    + apply (as_none ""). constructor.
  - apply (tp_func_hash true 1 "g" "" []); [reflexivity|reflexivity|constructor].
Qed.
