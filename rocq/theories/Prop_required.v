(** Optional joins of queries that do not ask for distinct rows. *)
From Coq Require Import Strings.String Strings.Ascii NArith ZArith List Bool.
From Verif Require Import GoStr GoNum Syntax Value Util Model Sqlf Sqlb Spec_syntax Spec_query Spec_required Required_proofs.
Import ListNotations.
Open Scope string_scope.

(** C77: without DISTINCT the calls work or fail alike, whichever joins are
    optional. *)
Theorem c77_calls : forall os os', same_description os os' ->
  match apply_ops os new_qb with
  | ROk _ => exists q', apply_ops os' new_qb = ROk q'
  | r => apply_ops os' new_qb = r
  end.
Proof. exact same_calls. Qed.
Print Assumptions c77_calls.
(** Whatever is built in two programs whose query builders were described by
    such calls comes out the same: text, arguments, errors and panics. *)
Theorem c77_builds : forall oss oss' h h' n style b, Forall2 same_description oss oss' ->
  Forall2 (fun os q => apply_ops os new_qb = ROk q) oss h -> Forall2 (fun os q => apply_ops os new_qb = ROk q) oss' h' ->
  fst (build_query n style h' b) = fst (build_query n style h b).
Proof. exact same_builds. Qed.
Print Assumptions c77_builds.
(** With DISTINCT they differ. *)
Theorem c77_distinct_refuted : exists os os' q q',
  Forall2 same_but_optional os os' /\ apply_ops os new_qb = ROk q /\ apply_ops os' new_qb = ROk q' /\
  fst (build_query 40 style_question [q] (BQuery (Some 0))) = ROk ("SELECT DISTINCT a.id FROM a LEFT JOIN b ON a.id=b.id", []) /\
  fst (build_query 40 style_question [q'] (BQuery (Some 0))) = ROk ("SELECT DISTINCT a.id FROM a", []).
Proof.
  set (on := Some (Ff "#f1=#f2" [column "a" "id"; column "b" "id"])).
  exists [ODistinct; OSelect [column "a" "id"]; OFrom ("a", ""); OLeftJoin ("b", "") on],
    [ODistinct; OSelect [column "a" "id"]; OFrom ("a", ""); OLeftJoinOptional ("b", "") on].
  eexists. eexists. apply conj; [repeat constructor|]. apply conj; [reflexivity|]. apply conj; [reflexivity|]. apply conj; vm_compute; reflexivity.
Qed.
Print Assumptions c77_distinct_refuted.
Example c77_example :
  let on := Some (Ff "#f1=#f2" [column "a" "id"; column "b" "id"]) in
  let os := [OSelect [column "a" "id"]; OFrom ("a", ""); OLeftJoin ("b", "") on] in
  let os' := [OSelect [column "a" "id"]; OFrom ("a", ""); OLeftJoinOptional ("b", "") on] in
  same_description os os' /\
  exists q q', apply_ops os new_qb = ROk q /\ apply_ops os' new_qb = ROk q' /\ q <> q' /\
  fst (build_query 40 style_question [q'] (BQuery (Some 0))) = ROk ("SELECT a.id FROM a LEFT JOIN b ON a.id=b.id", []).
Proof.
  intros on os os'. apply conj; [right; apply conj; [reflexivity|repeat constructor]|].
  eexists. eexists. apply conj; [reflexivity|]. apply conj; [reflexivity|]. apply conj; [discriminate|]. vm_compute. reflexivity.
Qed.
