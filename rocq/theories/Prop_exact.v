(** What builds has no defect. *)
From Coq Require Import Strings.String Strings.Ascii NArith ZArith List Bool.
From Verif Require Import GoStr GoNum Syntax Value Util Model Sqlf Sqlb Spec_syntax Spec_base Spec_eval Spec_query Spec_blame Prop_sound Exact_proofs Spec_sound Spec_exact.
Import ListNotations.
Open Scope string_scope.

(** C91: a tree of fragments, columns and tables whose indexes and ranges exist
    builds if and only if it has no defect. *)
Theorem c91_exact : forall h d e b st, library e -> settled e b -> during h d st ->
  ((exists n s st', build n e b st = (ROk s, st')) <-> sound h d e b).
Proof. exact builds_exactly. Qed.
Print Assumptions c91_exact.
(** BuildQuery *)
Theorem c91_query : forall style h b, settled [builtins] b ->
  ((exists n s args h', build_query n style h b = (ROk (s, args), h')) <-> sound h (Z.eqb style style_dollar) [builtins] b).
Proof. exact query_exactly. Qed.
Print Assumptions c91_query.
(** Whether it builds depends on the style, not on what was built before. *)
Theorem c91_state : forall e b st st', library e -> settled e b -> st_dollar st = st_dollar st' ->
  (exists n s st1, build n e b st = (ROk s, st1)) -> exists n s st1, build n e b st' = (ROk s, st1).
Proof. exact state_irrelevant. Qed.
Print Assumptions c91_state.
(** What builds in Question style builds in Dollar style if all values can be
    looked up, and only then. *)
Theorem c91_style : forall h b, settled [builtins] b ->
  ((exists n s args h', build_query n style_dollar h b = (ROk (s, args), h')) <->
   (exists n s args h', build_query n style_question h b = (ROk (s, args), h')) /\ forall v, carries v b -> ~ unhashable v).
Proof. exact styles_differ. Qed.
Print Assumptions c91_style.
(** It never fails with an invalid index, so that no #join ends early. *)
Theorem c91_index : forall e b, library e -> settled e b -> forall n st er st', build n e b st = (RErr er, st') -> is_invalid_index er = false.
Proof. exact never_index. Qed.
Print Assumptions c91_index.


(** The indexes must exist: a missing one in a fragment ends an open #join. *)
Theorem c91_indexes_refuted : exists b, (exists n args h', build_query n style_question [] b = (ROk ("a", args), h')) /\ ~ sound [] false [builtins] b.
Proof. exact c84_converse_refuted. Qed.
Print Assumptions c91_indexes_refuted.
(** An open #join must run through lists of the same length: an argument that
    has no fragment is taken to be used although it is not in the output. *)
Theorem c91_lengths_refuted : exists b, (exists n h', build_query n style_question [] b = (ROk ("? a", [VInt "int" 1; VInt "int" 2]), h')) /\ ~ sound [] false [builtins] b.
Proof. exact open_short. Qed.
Print Assumptions c91_lengths_refuted.
(** ... and lists that are not empty, if it has other parts. *)
Theorem c91_empty_refuted : exists b, (exists n h', build_query n style_question [] b = (ROk ("a", [VInt "int" 1]), h')) /\ ~ sound [] false [builtins] b.
Proof. exact open_empty. Qed.
Print Assumptions c91_empty_refuted.

(** Two open joins, one with two lists, a join that says where it ends and an
    index; one value cannot be looked up. *)
Definition tree (v : value) : builder :=
  BFrag (Frag "f(#join('#arg #f', ', ')) $2 #join('#f $1', ' ', 1, 1) #f2" [VInt "int" 1; v] [BFrag (Frag "a" [] [] "" ""); BCol (Some (Frag "$1" [VInt "int" 7] [] "" "")) "t"] "" "").
Ltac parts := let l := fresh "l" in let x := fresh "x" in let K := fresh "K" in let Hx := fresh "Hx" in
  intros l x K Hx; vm_compute in K; injection K as <-; cbn [In] in Hx;
  repeat match type of Hx with _ \/ _ => destruct Hx as [<-|Hx] | False => destruct Hx end; try apply rg_plain; try apply rg_bind; try apply rg_value.
Example c91_tree : forall v, settled [builtins] (tree v).
Proof.
  intros v. apply se_frag.
  - intros b [<-|[<-|[]]].
    + apply se_frag; [intros b []|parts].
    + apply se_column, se_frag; [intros b []|parts].
  - parts.
    + apply rg_join; [reflexivity| |].
      * intros tmpl sep nums l len E P Sh. injection E as <- <- <-. vm_compute in P. injection P as <-.
        assert (len = 2) as ->.
        { destruct Sh as [(nm & f & Hi & Hf & Hs) _]. destruct Hi as [E|[E|[E|[]]]]; try discriminate E; injection E as <-; vm_compute in Hf; injection Hf as <-; injection Hs as <-; reflexivity. }
        split; [intros _; exists 1%Z, 2%Z; repeat split; [discriminate|right; intros x []]|]. right. split; [|left; repeat constructor].
        intros nm f c Hi Hf Hs. destruct Hi as [E|[E|[E|[]]]]; try discriminate E; injection E as <-; vm_compute in Hf; injection Hf as <-; injection Hs as <-; reflexivity.
      * intros tmpl sep nums l x E. injection E as <- <- <-. revert l x. parts.
    + apply rg_join; [reflexivity| |].
      * intros tmpl sep nums l len E P Sh. injection E as <- <- <-. vm_compute in P. injection P as <-.
        assert (len = 2) as ->.
        { destruct Sh as [(nm & f & Hi & Hf & Hs) _]. destruct Hi as [E|[E|[E|[]]]]; try discriminate E; injection E as <-; vm_compute in Hf; injection Hf as <-; injection Hs as <-; reflexivity. }
        split; [intros _; exists 1%Z, 1%Z; repeat split; [discriminate|left; discriminate]|]. left. do 2 eexists. split; reflexivity.
      * intros tmpl sep nums l x E. injection E as <- <- <-. revert l x. parts.
    + apply rg_frag; [reflexivity|]. intros x E. injection E as <-. vm_compute. split; discriminate.
Qed.
(** So it has no defect if the value can be looked up. *)
Example c91_example : sound [] true [builtins] (tree (VInt "int" 4)) /\ ~ sound [] true [builtins] (tree (VSlice "[]int" None)).
Proof.
  split.
  - apply (c91_query style_dollar [] _ (c91_tree _)). exists 20. vm_compute. eauto.
  - intros H. apply (c91_query style_dollar [] _ (c91_tree _)) in H. apply (c91_style [] _ (c91_tree _)) in H as [_ H].
    apply (H (VSlice "[]int" None)); [apply ca_here; cbn; auto|]. constructor.
Qed.
(** In Question style it has none. *)
Example c91_question : sound [] false [builtins] (tree (VSlice "[]int" None)).
Proof. apply (c91_query style_question [] _ (c91_tree _)). exists 20. vm_compute. eauto. Qed.
