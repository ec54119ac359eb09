(** Property C88: the order of the arguments and fragments of a fragment only
    matters for the numbers that refer to them.  The vocabulary is in
    Spec_renumber.v; the proofs are in Renumber_proofs.v. *)
From Coq Require Import Strings.String NArith ZArith List Bool Lia.
From Verif Require Import GoStr GoNum Syntax Value Util Model Sqlf Sqlb Spec_syntax Spec_eval Spec_swap Spec_renumber Renumber_proofs.
Import ListNotations.
Open Scope string_scope.

(** C88: with the arguments and fragments in another order, and the numbers of
    the template changed accordingly, everything is built as before: the text,
    the arguments and the query builders; an error stays an error. *)
Theorem c88_permuted : forall e f g raw raw' p s args args' frags frags' x y,
  parsed raw = Some x -> parsed raw' = Some y -> Forall2 (renumbered e f g) x y ->
  permutes f args args' -> permutes g frags frags' ->
  forall n st, like (build n e (BFrag (Frag raw args frags p s)) st) (build n e (BFrag (Frag raw' args' frags' p s)) st).
Proof. exact renumber_like. Qed.
Print Assumptions c88_permuted.
Theorem c88_query : forall f g raw raw' p s args args' frags frags' x y,
  parsed raw = Some x -> parsed raw' = Some y -> Forall2 (renumbered [builtins] f g) x y ->
  permutes f args args' -> permutes g frags frags' ->
  forall n style h t l h', build_query n style h (BFrag (Frag raw args frags p s)) = (ROk (t, l), h') <->
    build_query n style h (BFrag (Frag raw' args' frags' p s)) = (ROk (t, l), h').
Proof. exact renumber_query. Qed.
Print Assumptions c88_query.
(** Equal arguments, and equal fragments, may also be given once. *)
Theorem c88_merged : forall e f g raw raw' p s args args' frags frags' x y,
  parsed raw = Some x -> parsed raw' = Some y -> Forall2 (renumbered e f g) x y ->
  renumbers f args args' -> renumbers g frags frags' ->
  forall n st t st', build n e (BFrag (Frag raw args frags p s)) st = (ROk t, st') ->
    build n e (BFrag (Frag raw' args' frags' p s)) st = (ROk t, st').
Proof. exact renumber_success. Qed.
Print Assumptions c88_merged.
(** Not the other way round: an argument given twice must be used twice. *)
Theorem c88_merged_refuted : exists raw x args args' f, parsed raw = Some x /\ Forall2 (renumbered [builtins] f (fun i => i)) x x /\
  renumbers f args args' /\ (exists t st', build 9 [builtins] (BFrag (Frag raw args' [] "" "")) (new_store style_question []) = (ROk t, st')) /\
  forall n t st', build n [builtins] (BFrag (Frag raw args [] "" "")) (new_store style_question []) <> (ROk t, st').
Proof.
  exists "$1", [ABind style_dollar 1], [VInt "int" 1; VInt "int" 1], [VInt "int" 1], (fun _ => 1%Z).
  split; [vm_compute; reflexivity|]. split; [repeat constructor|]. split.
  - split.
    + intros i x [H1 H2]. split; [lia|]. apply nth_error_In in H2. destruct H2 as [<-|[<-|[]]]; reflexivity.
    + intros j x [H1 H2]. exists 1%Z. destruct (Z.to_nat (j - 1)) as [|[|k]] eqn:E; try discriminate H2.
      split; [|lia]. split; [lia|exact H2].
  - split; [eexists _, _; vm_compute; reflexivity|]. intros [|[|[|n]]] t st' H; discriminate H.
Qed.
Print Assumptions c88_merged_refuted.

Definition turn (i : Z) : Z := (3 - i)%Z.
Example c88_example : exists x y,
  parsed "#f1 = ? AND #f2 > ?" = Some x /\ parsed "#fragment2 = $2 AND #f(1) > $1" = Some y /\ Forall2 (renumbered [builtins] turn turn) x y /\
  permutes turn [VInt "int" 7; VInt "int" 8] [VInt "int" 8; VInt "int" 7] /\
  permutes turn [BTable "a"; BTable "b"] [BTable "b"; BTable "a"] /\
  fst (build_query 9 style_dollar [] (BFrag (Frag "#f1 = ? AND #f2 > ?" [VInt "int" 7; VInt "int" 8] [BTable "a"; BTable "b"] "WHERE" "")))
    = ROk ("WHERE a = $1 AND b > $2", [VInt "int" 7; VInt "int" 8]) /\
  fst (build_query 9 style_dollar [] (BFrag (Frag "#fragment2 = $2 AND #f(1) > $1" [VInt "int" 8; VInt "int" 7] [BTable "b"; BTable "a"] "WHERE" "")))
    = ROk ("WHERE a = $1 AND b > $2", [VInt "int" 7; VInt "int" 8]).
Proof.
  assert (P : forall A (a b : A), permutes turn [a; b] [b; a]).
  { intros A a b.
    assert (I : forall (l : list A) i x, List.length l = 2 -> item l i x -> (i = 1 \/ i = 2)%Z).
    { intros l i x L [H1 H2]. assert (Z.to_nat (i - 1) < List.length l) by (apply nth_error_Some; congruence). lia. }
    split; [split|split].
    - intros i x H. destruct (I [a; b] i x eq_refl H) as [->| ->]; destruct H as [_ H]; cbn in H; (split; [vm_compute; discriminate|exact H]).
    - intros j x H. exists (turn j). split; [|unfold turn; lia].
      destruct (I [b; a] j x eq_refl H) as [->| ->]; destruct H as [_ H]; cbn in H; (split; [vm_compute; discriminate|exact H]).
    - intros i j x y _ _ H. unfold turn in H. lia.
    - intros i x H. pose proof (I [b; a] _ x eq_refl H) as K. assert (K' : (i = 2 \/ i = 1)%Z) by (unfold turn in K; lia).
      destruct K' as [->| ->]; destruct H as [_ H]; cbn in H; (split; [vm_compute; discriminate|exact H]). }
  eexists _, _. split; [vm_compute; reflexivity|]. split; [vm_compute; reflexivity|]. split.
  - repeat apply Forall2_cons; try apply Forall2_nil.
    + apply rn_frag; vm_compute; auto.
    + apply rn_text.
    + change (ABind style_dollar 2) with (ABind style_dollar (turn 1)). apply rn_bind.
    + apply rn_text.
    + apply rn_frag; vm_compute; auto.
    + apply rn_text.
    + change (ABind style_dollar 1) with (ABind style_dollar (turn 2)). apply rn_bind.
  - split; [apply P|]. split; [apply P|]. split; vm_compute; reflexivity.
Qed.
