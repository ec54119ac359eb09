(** Property C111: when the conditions of a query are all required.  The
    vocabulary is in Spec_bool.v; the proofs are in Bool_proofs.v. *)
From Coq Require Import Strings.String Strings.Ascii NArith ZArith List Bool Lia.
From Verif Require Import GoStr GoNum Syntax Value Util Model Sqlf Sqlb Spec_syntax RefSem Spec_build Spec_util Spec_eval Spec_query Spec_sql
  Bool_proofs Prop_query Spec_sqltok Spec_read Spec_nread Spec_bool.
Import ListNotations.
Open Scope string_scope.

(** C111: if no condition has an OR outside of parentheses, the WHERE clause
    holds exactly if all conditions hold, whatever holds of their parts. *)
Theorem c111_required : forall os q n e st ss st', apply_ops os new_qb = ROk q -> lookup_fn e "join" = Some FnJoin -> lookup_fn e "fragment" = Some FnFragment ->
  do_all (build (S (S n)) e) (conditions os) st = (ROk ss, st') -> List.length (conditions os) <= n -> Forall conjunct ss -> ss <> [] ->
  exists text, build (S (S (S n))) e (BFrag (q_conds q)) st = (ROk ("WHERE " ++ text), st') /\
    forall atom, exists b, holds atom text = Some b /\ (b = true <-> Forall (fun s => holds atom s = Some true) ss).
Proof. exact required. Qed.
Print Assumptions c111_required.

(** A condition in parentheses is such a condition, and means the same. *)
Theorem c111_parens : forall s, complete s -> conjunct ("(" ++ s ++ ")").
Proof. exact parens_conjunct. Qed.
Print Assumptions c111_parens.
Theorem c111_same : forall atom s, complete s -> holds atom ("(" ++ s ++ ")") = holds atom s.
Proof. exact parens_hold. Qed.
Print Assumptions c111_same.

(** A first condition with OR, on the other hand, makes the clause hold by its
    first part alone: the code adds no parentheses. *)
Theorem c111_escapes : forall os q n e st a b ss st', apply_ops os new_qb = ROk q -> lookup_fn e "join" = Some FnJoin -> lookup_fn e "fragment" = Some FnFragment ->
  do_all (build (S (S n)) e) (conditions os) st = (ROk ((a ++ " OR " ++ b) :: ss), st') -> List.length (conditions os) <= n -> complete a -> complete b -> Forall complete ss ->
  exists text, build (S (S (S n))) e (BFrag (q_conds q)) st = (ROk ("WHERE " ++ text), st') /\
    forall atom, holds atom a = Some true -> holds atom text = Some true.
Proof. exact escapes. Qed.
Print Assumptions c111_escapes.

(** An interpretation: t.a is 1, t.c is not 3. *)
Definition says (l : list item) : bool := match l with Tok (TWord "t") :: _ :: Tok (TWord "a") :: _ => true | _ => false end.
Definition either : string := "t.a = 1 or t.b BETWEEN 2 AND 5".
Definition third : string := "t.c = 3".
Definition where_calls (s : string) : list qop := [OSelect [column "t" "id"]; OFrom ("tab", "t"); OWhere (Some (F s)); OWhere (Some (F third))].
Definition conds_of (s : string) : outcome (list string) :=
  fst (do_all (build 20 [builtins]) (conditions (where_calls s)) (new_store style_question [])).
Example c111_example :
  (lookup_fn [builtins] "join" = Some FnJoin /\ lookup_fn [builtins] "fragment" = Some FnFragment) /\
  (exists q, apply_ops (where_calls ("(" ++ either ++ ")")) new_qb = ROk q) /\
  conds_of ("(" ++ either ++ ")") = ROk ["(" ++ either ++ ")"; third] /\ complete either /\ Forall conjunct ["(" ++ either ++ ")"; third] /\
  (complete "t.a = 1" /\ complete "t.b BETWEEN 2 AND 5" /\ Forall complete [third] /\ conds_of "t.a = 1 OR t.b BETWEEN 2 AND 5" = ROk ["t.a = 1" ++ " OR " ++ "t.b BETWEEN 2 AND 5"; third]) /\
  run style_question (where_calls ("(" ++ either ++ ")")) = ROk ("SELECT t.id FROM tab AS t WHERE (t.a = 1 or t.b BETWEEN 2 AND 5) AND t.c = 3", []) /\
  holds says ("(" ++ either ++ ") AND " ++ third) = Some false /\ holds says ("(" ++ either ++ ")") = Some true /\ holds says third = Some false.
Proof.
  assert (C : complete either) by (repeat (split; [reflexivity|]); eexists; split; vm_compute; reflexivity).
  assert (T : conjunct third) by (split; [repeat (split; [reflexivity|])|]; eexists; split; vm_compute; reflexivity).
  split; [split; reflexivity|]. split; [eexists; reflexivity|]. split; [vm_compute; reflexivity|]. split; [exact C|].
  split; [constructor; [apply c111_parens, C|constructor; [exact T|constructor]]|].
  split; [|repeat apply conj; vm_compute; reflexivity].
  split; [repeat (split; [reflexivity|]); eexists; split; vm_compute; reflexivity|].
  split; [repeat (split; [reflexivity|]); eexists; split; vm_compute; reflexivity|].
  split; [constructor; [exact (proj1 T)|constructor]|vm_compute; reflexivity].
Qed.

(** Without the restriction it is false: the conditions are not all required. *)
Theorem c111_refuted : exists q, apply_ops (where_calls either) new_qb = ROk q /\
  conds_of either = ROk [either; third] /\ complete either /\ complete third /\
  fst (build 21 [builtins] (BFrag (q_conds q)) (new_store style_question [])) = ROk ("WHERE " ++ either ++ " AND " ++ third) /\
  holds says (either ++ " AND " ++ third) = Some true /\ holds says third = Some false.
Proof.
  eexists. split; [reflexivity|]. split; [vm_compute; reflexivity|].
  split; [repeat (split; [reflexivity|]); eexists; split; vm_compute; reflexivity|].
  split; [repeat (split; [reflexivity|]); eexists; split; vm_compute; reflexivity|].
  repeat apply conj; vm_compute; reflexivity.
Qed.
Print Assumptions c111_refuted.
