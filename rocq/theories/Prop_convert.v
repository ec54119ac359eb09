(** Number parameters of user functions. *)
From Coq Require Import Strings.String ZArith NArith List Bool Floats.SpecFloat.
From Verif Require Import GoStr GoNum Syntax Value Util Model Sqlf Sqlb Props Spec_syntax RefSem Spec_build Spec_eval Spec_base Spec_steps Num_proofs Convert_proofs Convert Spec_convert.
Import ListNotations.
Open Scope string_scope.

(** C97: a parameter of a type of integers gets the number without its
    fraction, fitted into the type (modulo the number of its values) ... *)
Theorem c97_received : forall far k a x, integer k -> is_num a -> (convert far k a = NInt x <-> exists q, meant far k a q /\ fitted k q x).
Proof. exact convert_iff. Qed.
Print Assumptions c97_received.
(** ... which is the number itself if the type has it, and always some number of
    the type. *)
Theorem c97_in_range : forall far k a q, integer k -> is_num a -> meant far k a q -> (least k <= q <= greatest k)%Z -> convert far k a = NInt q.
Proof. exact convert_in_range. Qed.
Print Assumptions c97_in_range.
Theorem c97_some : forall far k a, integer k -> is_num a -> exists x, convert far k a = NInt x /\ (least k <= x <= greatest k)%Z.
Proof. exact converted. Qed.
Print Assumptions c97_some.
(** Numbers written with digits, below 2^53, mean themselves. *)
Theorem c97_written : forall far k n f, integer k -> (n < 9007199254740992)%N -> parse_float (dec n) = Some f -> meant far k (LNum f) (Z.of_N n).
Proof. exact written_means. Qed.
Print Assumptions c97_written.
(** The call comes to what the function makes of the converted number. *)
Theorem c97_call : forall far k body e raw nm a p s st t st', proper_env e -> lookup_fn e nm = Some (number_fn far k body) -> is_num a ->
  parsed raw = Some [ACall nm [a]] -> returns e (body (convert far k a)) st (ROk t) st' ->
  finishes e (BFrag (Frag raw [] [] p s)) st (ROk (wrapped p (trim_space t) s)) st'.
Proof. exact number_call. Qed.
Print Assumptions c97_call.
(** Properties joined through a function with such a parameter: those that its
    type can count, in order, without an error about the others. *)
Theorem c97_join_args : forall far k e jn nm sep raw p s vs kept st ss st', integer k -> proper_env e -> lookup_fn e jn = Some FnJoin -> wf_name nm = true ->
  lookup_fn e nm = Some (indexed_fn far k (args_build vs)) -> parsed raw = Some [ACall jn [LStr ("#" ++ nm); LStr sep]] ->
  reachable k vs kept -> in_turn (fun v st s st' => commit v st = (ROk s, st')) kept st ss st' ->
  finishes e (BFrag (Frag raw [] [] p s)) st (ROk (wrapped p (trim_space (str_join sep (nonempty_items ss))) s)) st'.
Proof. exact join_arguments. Qed.
Print Assumptions c97_join_args.
Theorem c97_join_fragments : forall far k e jn nm sep raw p s bs kept st ss st', integer k -> proper_env e -> lookup_fn e jn = Some FnJoin -> wf_name nm = true ->
  lookup_fn e nm = Some (indexed_fn far k (frags_build bs)) -> parsed raw = Some [ACall jn [LStr ("#" ++ nm); LStr sep]] ->
  reachable k bs kept -> in_turn (fun b st s st' => finishes e b st (ROk s) st') kept st ss st' ->
  finishes e (BFrag (Frag raw [] [] p s)) st (ROk (wrapped p (trim_space (str_join sep (nonempty_items ss))) s)) st'.
Proof. exact join_fragments. Qed.
Print Assumptions c97_join_fragments.
(** So a number too large for the type is not an error but another number, and
    the 256th item is dropped by a function with a parameter of type uint8. *)
Definition shown (x : gonum) : prog := match x with NInt z => PRet (itoa z) None | NFloat _ => PRet "float" None end.
Theorem c97_error_refuted : forall far, let e := [[("f", number_fn far (KInt 8) shown); ("u", number_fn far (KUint 8) shown)]; builtins] in
  let gives raw t := finishes e (BFrag (Frag raw [] [] "" "")) (new_store style_question []) (ROk t) (new_store style_question []) in
  gives "#f(300)" "44" /\ gives "#f200" "-56" /\ gives "#f(-129)" "127" /\ gives "#u(256)" "0" /\ gives "#u(2.99)" "2".
Proof. intros far e gives. unfold gives, finishes. repeat apply conj; exists 9; (split; [vm_compute; reflexivity|discriminate]). Qed.
Print Assumptions c97_error_refuted.
Theorem c97_dropped_refuted : forall far, let items n := repeat (BTable "x") n in
  let gives k n := fst (build (Pos.to_nat 300) [[("p", indexed_fn far k (frags_build (items n)))]; builtins] (BFrag (Frag "#join('#p', '')" [] [] "" "")) (new_store style_question [])) in
  gives (KUint 8) (Pos.to_nat 256) = ROk (String.concat "" (repeat "x" (Pos.to_nat 255))) /\
  gives (KInt 8) (Pos.to_nat 256) = ROk (String.concat "" (repeat "x" (Pos.to_nat 127))) /\
  gives (KInt 16) (Pos.to_nat 256) = ROk (String.concat "" (repeat "x" (Pos.to_nat 256))).
Proof. intros far items gives. repeat apply conj; vm_compute; reflexivity. Qed.
Print Assumptions c97_dropped_refuted.

Example c97_example : forall far,
  meant far (KInt 8) (LNum (float_of_N 300)) 300 /\ fitted (KInt 8) 300 44 /\ ~ fitted (KInt 8) 300 300 /\
  whole (S754_finite true 5 (-1)) (-2) /\ convert far (KInt 16) (LNum (S754_finite true 5 (-1))) = NInt (-2) /\
  convert far (KUint 8) (LNum S754_nan) = NInt (far S754_nan mod 256) /\
  convert far KFloat32 (LInt 16777217) = NFloat (S754_finite false 8388608 1) /\ convert far KFloat64 (LInt 3) = NFloat (S754_finite false 6755399441055744 (-51)) /\
  reachable (KInt 8) [1; 2] [1; 2] /\ proper_env [[("p", indexed_fn far (KUint 8) (args_build []))]; builtins].
Proof.
  intros far. split; [|split; [|split; [|split; [|split; [|split; [|split; [|split; [|split]]]]]]]].
  - apply (c97_written far (KInt 8) 300); [left; reflexivity|reflexivity|vm_compute; reflexivity].
  - split; [split; discriminate|exists 1%Z; reflexivity].
  - intros [[_ H] _]. apply H. reflexivity.
  - exists 2%Z. repeat split; discriminate.
  - reflexivity.
  - reflexivity.
  - vm_compute. reflexivity.
  - vm_compute. reflexivity.
  - exists []. repeat split; [discriminate|left; reflexivity].
  - intros nm f H. cbn in H. repeat match type of H with context [if ?c then _ else _] => destruct c end; try discriminate H; injection H as <-; intros K; discriminate.
Qed.
