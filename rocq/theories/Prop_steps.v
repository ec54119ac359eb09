(** Fragments build exactly when their parts do. *)
From Coq Require Import Strings.String ZArith List Bool.
From Verif Require Import GoStr GoNum Syntax Value Util Model Sqlf Sqlb Spec_syntax RefSem Spec_build Spec_eval Spec_base Steps_proofs Spec_steps.
Import ListNotations.
Open Scope string_scope.

(** C96: a fragment builds to a text if and only if its template comes to a
    body by the steps of its parts, and every argument and fragment is used by
    one of them; the text is the trimmed body between prefix and suffix. *)
Theorem c96_builds : forall e raw args frags p s st t st', proper_env e ->
  (finishes e (BFrag (Frag raw args frags p s)) st (ROk t) st' <->
   exists l body ua uf, parsed raw = Some l /\ steps_all e args frags l st (Gives body) ua uf st' /\
     covers ua args /\ covers uf frags /\ t = wrapped p (trim_space body) s).
Proof. exact fragment_steps. Qed.
Print Assumptions c96_builds.
(** It fails for want of an argument or fragment if and only if the steps do. *)
Theorem c96_lacks : forall e raw args frags p s st st', proper_env e ->
  ((exists o, finishes e (BFrag (Frag raw args frags p s)) st o st' /\ wanting o) <->
   exists l ua uf, parsed raw = Some l /\ steps_all e args frags l st Lacks ua uf st').
Proof. exact fragment_lacks. Qed.
Print Assumptions c96_lacks.
(** The steps lead to one result and one state. *)
Theorem c96_determined : forall e args frags l st r ua uf st1 r2 ua2 uf2 st2, proper_env e ->
  steps_all e args frags l st r ua uf st1 -> steps_all e args frags l st r2 ua2 uf2 st2 -> r = r2 /\ st1 = st2.
Proof. exact steps_determined. Qed.
Print Assumptions c96_determined.

(** The condition on functions, that one of variable arity has a parameter, is
    met by all that can be written in Go. *)
Example c96_proper : proper_env [builtins].
Proof.
  intros nm f H. cbn in H. repeat match type of H with context [if ?c then _ else _] => destruct c end; try discriminate H; injection H as <-; intros _; discriminate.
Qed.
(** The rounds of a #join: two arguments, then none. *)
Example c96_example :
  let st := new_store style_question [] in
  let st' := mkStore false [VInt "int" 7; VInt "int" 8] [] [] in
  parsed "id IN (#join('#arg', ', '))" = Some [APlain "id IN ("; ACall "join" [LStr "#arg"; LStr ", "]; APlain ")"] /\
  steps_all [builtins] [VInt "int" 7; VInt "int" 8] [] [APlain "id IN ("; ACall "join" [LStr "#arg"; LStr ", "]; APlain ")"] st
    (Gives "id IN (?, ?)") [1; 2]%Z [] st' /\
  covers [1; 2]%Z [VInt "int" 7; VInt "int" 8] /\
  finishes [builtins] (BFrag (Frag "id IN (#join('#arg', ', '))" [VInt "int" 7; VInt "int" 8] [] "WHERE" "")) st (ROk "WHERE id IN (?, ?)") st' /\
  (exists r u v w, rounds [builtins] [VInt "int" 7] [] [AFunc "arg"] 1 2 1 st r u v w /\ r = None).
Proof.
  cbv zeta.
  assert (A : forall i st s st' v, nth1 [VInt "int" 7; VInt "int" 8] i = Some v -> commit v st = (ROk s, st') ->
    steps_all [builtins] [VInt "int" 7; VInt "int" 8] [] (map (at_round i) [AFunc "arg"]) st (Gives s) [i] [] st').
  { intros i st s st' v Hv Hc. replace s with (s ++ "")%string by (clear; induction s as [|c s IH]; cbn; congruence).
    apply (sa_cons _ _ _ _ _ _ _ [i] [] st' _ [] []); [|apply sa_nil]. apply (st_arg _ _ _ _ (LInt i) v); [reflexivity|constructor|exact Hv|exact Hc]. }
  repeat apply conj.
  - vm_compute. reflexivity.
  - apply (sa_cons _ _ _ _ _ _ "id IN (" [] [] (new_store style_question []) "?, ?)" [1; 2]%Z [] _); [apply st_text|].
    apply (sa_cons _ _ _ _ _ _ "?, ?" [1; 2]%Z [] (mkStore false [VInt "int" 7; VInt "int" 8] [] []) ")" [] [] _);
      [|apply (sa_cons _ _ _ _ _ _ ")" [] [] (mkStore false [VInt "int" 7; VInt "int" 8] [] []) "" [] [] _); [apply st_text|apply sa_nil]].
    apply (st_join _ _ _ "join" "#arg" ", " [] [AFunc "arg"] 0 0 _ (new_store style_question []) ["?"; "?"]).
    + reflexivity.
    + constructor.
    + split; reflexivity.
    + vm_compute. reflexivity.
    + discriminate.
    + apply ac_builtin; [left; reflexivity|apply ac_none].
    + apply (rd_more _ _ _ _ 0 0 1 _ "?" [1%Z] [] (mkStore false [VInt "int" 7] [] []) (Some ["?"]) [2%Z] []); [intros [K _]; discriminate K|eapply A; reflexivity|].
      apply (rd_more _ _ _ _ 0 0 2 _ "?" [2%Z] [] (mkStore false [VInt "int" 7; VInt "int" 8] [] []) (Some []) [] []); [intros [K _]; discriminate K|eapply A; reflexivity|].
      apply rd_end; [intros [K _]; discriminate K|intros [K _]; discriminate K|]. apply sa_here. apply st_no_arg; [reflexivity|constructor|reflexivity].
  - intros [|[|[|k]]] [K1 K2]; cbn; auto; try (inversion K1; fail); try (exfalso; cbn in K2; repeat (apply le_S_n in K2); inversion K2).
  - exists 9. split; [vm_compute; reflexivity|discriminate].
  - exists None, ([1]%Z ++ [])%list, ([] ++ [])%list, (mkStore false [VInt "int" 7] [] []). split; [|reflexivity].
    apply (rd_more _ _ _ _ 1 2 1 _ "?" [1%Z] [] (mkStore false [VInt "int" 7] [] []) None [] []); [intros [_ K]; apply K; reflexivity| |].
    + replace "?" with ("?" ++ "")%string by reflexivity. apply (sa_cons _ _ _ _ _ _ _ [1%Z] [] (mkStore false [VInt "int" 7] [] []) _ [] []); [|apply sa_nil].
      apply (st_arg _ _ _ _ (LInt 1) (VInt "int" 7)); [reflexivity|constructor|reflexivity|reflexivity].
    + apply rd_lacks; [right; split; [reflexivity|discriminate]|]. apply sa_here. apply st_no_arg; [reflexivity|constructor|reflexivity].
Qed.
