(** Property C86: closed parts give closed queries. *)
From Coq Require Import Strings.String Strings.Ascii NArith ZArith List Bool.
From Verif Require Import GoStr GoNum Syntax Value Util Model Sqlf Sqlb Spec_syntax Spec_intact Intact_proofs Intact3_proofs.
Import ListNotations.
Open Scope string_scope.

(** In what is built of parts that are closed every parenthesis and quote is
    closed, in any context, and the query builders stay what they were. *)
Theorem c86_build : forall n e b st, intact_env e -> intact b -> Forall intact_qb (st_heap st) ->
  Forall intact_qb (st_heap (snd (build n e b st))) /\ forall s, fst (build n e b st) = ROk s -> enclosed s.
Proof. exact build_fine. Qed.
Print Assumptions c86_build.
Theorem c86_query : forall n style h b, Forall intact_qb h -> intact b ->
  (forall s args, fst (build_query n style h b) = ROk (s, args) -> enclosed s) /\ Forall intact_qb (snd (build_query n style h b)).
Proof. exact query_enclosed. Qed.
Print Assumptions c86_query.
(** Calls with closed names, operators and parts describe such query builders. *)
Theorem c86_calls : forall os q, Forall intact_call os -> apply_ops os new_qb = ROk q -> intact_qb q.
Proof. exact calls_intact. Qed.
Print Assumptions c86_calls.
(** What is closed changes nothing in what is around it, whatever it is. *)
Theorem c86_inside : forall a s b d, enclosed s -> reading 0 None a = Some (d, None) -> reading 0 None (a ++ s ++ b) = reading 0 None (a ++ b).
Proof. exact enclosed_inside. Qed.
Print Assumptions c86_inside.
(** Reading decides what is closed. *)
Theorem c86_reading : forall s, enclosed s <-> reading 0 None s = Some (0, None).
Proof. exact enclosed_iff. Qed.
Print Assumptions c86_reading.

(** ** Examples *)

(** A fragment in parentheses, by its prefix and suffix, with a list. *)
Definition member : builder := BFrag (Frag "id IN (#join('lower(#arg)', ', '))" [VInt "int" 1; VInt "int" 2] [] "EXISTS (" ")").
Example c86_ex_frag : intact member /\
  build_query 9 style_question [] member = (ROk ("EXISTS ( id IN (lower(?), lower(?)) )", [VInt "int" 1; VInt "int" 2]), []).
Proof.
  apply conj; [|vm_compute; reflexivity]. apply it_frag, it_fragment.
  - intros l E. vm_compute in E. injection E as <-. constructor; [reflexivity|]. intros tmpl sep nums [H|[H|[H|[]]]]; try discriminate. injection H as <- <- <-.
    apply conj; [apply enclosed_iff; reflexivity|]. intros l' E'. vm_compute in E'. injection E' as <-. constructor; [reflexivity|].
    intros tmpl sep nums [H|[H|[H|[]]]]; discriminate.
  - apply Forall_nil.
  - exists 1. apply conj; reflexivity.
Qed.
(** A condition of a query builder. *)
Definition calls : list qop :=
  [OFrom ("users", "u"); OSelect [BCol (Some (F "count(u.id)")) "u"]; OWhere2 (BCol (Some (F "u.name")) "u") " = " (VStr "string" "a' OR (1=1")].
Example c86_ex_query : exists q, apply_ops calls new_qb = ROk q /\ Forall intact_call calls /\
  fst (build_query 20 style_dollar [q] (BQuery (Some 0))) = ROk ("SELECT count(u.id) FROM users AS u WHERE u.name = $1", [VStr "string" "a' OR (1=1"]).
Proof.
  eexists. apply conj; [reflexivity|]. apply conj; [|vm_compute; reflexivity].
  unfold calls. apply Forall_cons; [|apply Forall_cons; [|apply Forall_cons; [|apply Forall_nil]]]; cbn [intact_call].
  - repeat apply conj; try reflexivity; apply enclosed_iff; reflexivity.
  - apply Forall_cons; [|apply Forall_nil]. apply it_col, plain_frag_intact; [reflexivity|apply enclosed_iff; reflexivity].
  - repeat apply conj; try reflexivity; [|apply enclosed_iff; reflexivity]. apply it_col, plain_frag_intact; [reflexivity|apply enclosed_iff; reflexivity].
Qed.
(** Without the condition: texts that are not closed are built as they are. *)
Example c86_ex_open : fst (build_query 9 style_question [] (BFrag (F "a = 'x) OR (1=1"))) = ROk ("a = 'x) OR (1=1", []) /\ ~ enclosed "a = 'x) OR (1=1".
Proof. apply conj; [vm_compute; reflexivity|]. intros H. apply enclosed_iff in H. discriminate. Qed.
