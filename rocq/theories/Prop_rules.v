(** The rules of the whole library. *)
From Coq Require Import Strings.String ZArith List Bool.
From Verif Require Import GoStr GoNum Syntax Value Util Model Sqlf Sqlb Spec_syntax RefSem Spec_build Spec_eval Spec_base Spec_query Prop_query Steps_proofs Rules_all Spec_keep Spec_steps Spec_rules.
Import ListNotations.
Open Scope string_scope.

(** C99: what any builder builds to, through all levels of fragments, columns,
    tables and query builders inside each other, is what the rules make ... *)
Theorem c99_text : forall e b st s st', proper_env e -> heap_ok st -> (finishes e b st (ROk s) st' <-> makes e b st (Gives s) st').
Proof. exact makes_text. Qed.
Print Assumptions c99_text.
(** ... and it fails for want of an argument or fragment if and only if by the
    rules something is lacking. *)
Theorem c99_lacks : forall e b st st', proper_env e -> heap_ok st -> ((exists o, finishes e b st o st' /\ wanting o) <-> makes e b st Lacks st').
Proof. exact makes_lacks. Qed.
Print Assumptions c99_lacks.
(** The rules lead to one result and one state. *)
Theorem c99_one : forall e b st r st1 r2 st2, proper_env e -> heap_ok st -> makes e b st r st1 -> makes e b st r2 st2 -> r = r2 /\ st1 = st2.
Proof. exact makes_one. Qed.
Print Assumptions c99_one.
(** BuildQuery returns a text, arguments and query builders if and only if the
    rules lead there. *)
Theorem c99_query : forall style h b s vs h', heap_ok (new_store style h) ->
  ((exists n, build_query n style h b = (ROk (s, vs), h')) <->
   exists st', makes [builtins] b (new_store style h) (Gives s) st' /\ st_args st' = vs /\ st_heap st' = h').
Proof. exact makes_query. Qed.
Print Assumptions c99_query.
(** The condition on query builders is met by descriptions without Debug and
    stays met whatever is built. *)
Theorem c99_described : forall style h, Forall (fun q => exists os, Forall op_ok os /\ existsb is_debug os = false /\ apply_ops os new_qb = ROk q) h ->
  heap_ok (new_store style h).
Proof. exact heap_described. Qed.
Print Assumptions c99_described.
Theorem c99_stays : forall e b st o st', finishes e b st o st' -> heap_ok st -> heap_ok st'.
Proof. exact heap_stays. Qed.
Print Assumptions c99_stays.
(** What a fragment comes to depends on its fragments only through what they
    come to. *)
Theorem c99_same : forall e raw args frags frags' p s,
  Forall2 (fun b b' => forall st r st', makes e b st r st' <-> makes e b' st r st') frags frags' ->
  forall st r st', makes e (BFrag (Frag raw args frags p s)) st r st' <-> makes e (BFrag (Frag raw args frags' p s)) st r st'.
Proof. exact fragment_same. Qed.
Print Assumptions c99_same.

(** A fragment around a query with a condition, and the query builders after it
    was built. *)
Definition inner : list qop := [OSelect [column "u" "id"]; OFrom ("users", "u"); OWhere2 (column "u" "age") " > " (VInt "int" 18)].
Definition inner_q : qb := match apply_ops inner new_qb with ROk q => q | _ => new_qb end.
Definition around : builder := BFrag (Frag "SELECT count(*) FROM (#f1) AS t WHERE t.id <> $1" [VInt "int" 7] [BQuery (Some 0)] "" "").
Definition around_text : string := "SELECT count(*) FROM (SELECT u.id FROM users AS u WHERE u.age > $1) AS t WHERE t.id <> $2".
Example c99_example :
  heap_ok (new_store style_dollar [inner_q]) /\
  (exists st', makes [builtins] around (new_store style_dollar [inner_q]) (Gives around_text) st' /\ st_args st' = [VInt "int" 18; VInt "int" 7]) /\
  (exists st', makes [builtins] (BFrag (Frag "#f1, #f2" [] [around] "" "")) (new_store style_dollar [inner_q]) Lacks st').
Proof.
  assert (Ok : heap_ok (new_store style_dollar [inner_q])).
  { apply c99_described. constructor; [|constructor]. exists inner. split; [repeat constructor|]. split; vm_compute; reflexivity. }
  split; [exact Ok|]. split.
  - destruct (proj1 (c99_query style_dollar [inner_q] around around_text [VInt "int" 18; VInt "int" 7] [with_select inner_q] Ok)) as (st' & H & A & _); [|eauto].
    exists 60. vm_compute. reflexivity.
  - assert (He : proper_env [builtins]) by exact builtins_proper.
    assert (K : match build 60 [builtins] (BFrag (Frag "#f1, #f2" [] [around] "" "")) (new_store style_dollar [inner_q]) with
      (RErr er, _) => is_invalid_index er = true | _ => False end) by (vm_compute; reflexivity).
    destruct (build 60 [builtins] (BFrag (Frag "#f1, #f2" [] [around] "" "")) (new_store style_dollar [inner_q])) as [[t|er|er|] st'] eqn:E; try contradiction.
    exists st'. apply (c99_lacks _ _ _ _ He Ok). exists (RErr er). split; [exists 60; split; [exact E|discriminate]|].
    exists er. split; [left; reflexivity|]. apply Steps_proofs.index_iff. exact K.
Qed.
