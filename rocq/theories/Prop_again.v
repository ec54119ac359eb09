(** Property C89: a built query used as a template.  The vocabulary is in
    Spec_again.v and Spec_tidy.v; the proofs are in Again_proofs.v. *)
From Coq Require Import Strings.String Strings.Ascii NArith ZArith List Bool Lia Floats.SpecFloat.
From Verif Require Import GoStr GoNum Syntax Value Util Model Sqlf Sqlb Spec_syntax RefSem Spec_build Spec_eval Spec_query Spec_mean Spec_util Spec_sql Spec_interp Spec_tidy Spec_again Again_proofs Prop_sql Prop_debug.
Import ListNotations.
Open Scope string_scope.

(** C89: with question marks, the text and the arguments of a built query are a
    template that builds to the same text and adds the same arguments, wherever
    it is used; unless the text does not mention all arguments: then it is an
    error. *)
Theorem c89_question : forall n style h b s args, style <> style_dollar -> lib all_values b = true -> forallb (lib_qb all_values) h = true ->
  tidy b -> Forall tidy_qb h -> fst (build_query n style h b) = ROk (s, args) ->
  numbers s = map Z.of_nat (seq 1 (List.length (numbers s))) /\ List.length (numbers s) <= List.length args /\
  forall m e st, st_dollar st = false ->
    (mentions_all s args -> build (S (S m)) e (BFrag (Fa s args)) st = (ROk (trim_space s), add_args st args)) /\
    (~ mentions_all s args -> exists er st', build (S (S m)) e (BFrag (Fa s args)) st = (RErr er, st')).
Proof. exact question_again. Qed.
Print Assumptions c89_question.
(** With numbered placeholders it builds to itself if the numbers come up in
    order ... *)
Theorem c89_dollar : forall n h b s args, lib hashable b = true -> forallb (lib_qb hashable) h = true -> tidy b -> Forall tidy_qb h ->
  fst (build_query n style_dollar h b) = ROk (s, args) -> (Z.of_nat (List.length args) < 9223372036854775808)%Z ->
  (forall v, In v args -> reflexive v) -> mentions_all s args -> in_order (numbers s) ->
  forall m h', build_query (S (S m)) style_dollar h' (BFrag (Fa s args)) = (ROk (trim_space s, args), h').
Proof. exact dollar_again. Qed.
Print Assumptions c89_dollar.
(** ... and in any case to a query that shows the same values. *)
Theorem c89_values : forall n h b s args, lib hashable b = true -> forallb (lib_qb hashable) h = true -> tidy b -> Forall tidy_qb h ->
  fst (build_query n style_dollar h b) = ROk (s, args) -> (Z.of_nat (List.length args) < 9223372036854775808)%Z ->
  (Z.of_nat (List.length (numbers s)) < 9223372036854775808)%Z -> trim_space s = s ->
  (mentions_all s args -> exists s' args', (forall m h', build_query (S (S m)) style_dollar h' (BFrag (Fa s args)) = (ROk (s', args'), h')) /\
    incl args' args /\
    forall ft, Forall (fun v => exists x, literal ft v x) args -> exists x, interpolate ft s args = ROk x /\ interpolate ft s' args' = ROk x) /\
  (~ mentions_all s args -> forall m h', exists er, build_query (S (S m)) style_dollar h' (BFrag (Fa s args)) = (RErr er, h')).
Proof. exact dollar_shown_again. Qed.
Print Assumptions c89_values.
(** Without query builders, the numbered query can be made from the one with
    question marks. *)
Theorem c89_styles : forall n h b sq aq sd ad, lib hashable b = true -> forallb (lib_qb hashable) h = true -> tree hashable b = true -> tidy b -> Forall tidy_qb h ->
  fst (build_query n style_question h b) = ROk (sq, aq) -> fst (build_query n style_dollar h b) = ROk (sd, ad) -> mentions_all sq aq ->
  forall m h', build_query (S (S m)) style_dollar h' (BFrag (Fa sq aq)) = (ROk (trim_space sd, ad), h').
Proof. exact dollar_from_question. Qed.
Print Assumptions c89_styles.

Definition again_b : builder :=
  BFrag (Frag "SELECT ?? FROM t WHERE #f1 AND z IN (#join('#arg', ', ')) AND q='?'" [I 5; I 7; I 5] [BFrag (Fa "y > ?" [I 7])] "" "").
Example c89_example : lib hashable again_b = true /\ tree hashable again_b = true /\ tidy again_b /\
  (let s := "SELECT ?? FROM t WHERE y > ? AND z IN (?, ?, ?) AND q='?'" in let args := [I 7; I 5; I 7; I 5] in
   fst (build_query 20 style_question [] again_b) = ROk (s, args) /\ mentions_all s args) /\
  (let s := "SELECT ?? FROM t WHERE y > $1 AND z IN ($2, $1, $2) AND q='?'" in let args := [I 7; I 5] in
   fst (build_query 20 style_dollar [] again_b) = ROk (s, args) /\ mentions_all s args /\ in_order (numbers s) /\ (forall v, In v args -> reflexive v) /\ trim_space s = s).
Proof.
  apply conj; [reflexivity|]. apply conj; [reflexivity|]. apply conj.
  { unfold again_b. apply td_frag; cbn [f_raw f_prefix f_suffix f_frags]; [|passives|passives|component; tidies].
    intros es E. vm_compute in E. injection E as <-. split; [|spreads].
    repeat apply Forall_cons; try apply Forall_nil.
    - constructor. exists [Text "SELECT "; Esc false; Text " FROM t WHERE "]. repeat split; reflexivity.
    - exprs.
    - exprs.
    - exprs.
    - constructor. exists [Text ") AND q="; Quoted "'" "?"]. repeat split; reflexivity. }
  cbv zeta. apply conj.
  - apply conj; [vm_compute; reflexivity|]. intros k Hk. change (numbers _) with [1; 2; 3; 4]%Z. cbn [List.length In] in *. lia.
  - apply conj; [vm_compute; reflexivity|]. apply conj. { intros k Hk. change (numbers _) with [1; 2; 1; 2]%Z. cbn [List.length In] in *. lia. }
    apply conj; [|apply conj; [|reflexivity]].
    + change (numbers _) with [1; 2; 1; 2]%Z. intros l1 k l2 E j Hj.
      destruct l1 as [|a [|b [|c [|d l1]]]]; cbn [app] in E; try (injection E as; subst; cbn [In]; lia).
      injection E as _ _ _ _ E. destruct l1; discriminate E.
    + intros v [<-|[<-|[]]]; reflexivity.
Qed.
(** With arguments in the select list and in the conditions the numbers come up
    the other way round, and are exchanged together with the arguments. *)
Theorem c89_dollar_refuted : exists q, apply_ops (two_args (I 1) (I 2)) new_qb = ROk q /\
  fst (build_query 20 style_dollar [q] (BQuery (Some 0))) = ROk ("SELECT $2 AS x FROM a WHERE y=$1", [I 2; I 1]) /\
  fst (build_query 20 style_dollar [] (BFrag (Fa "SELECT $2 AS x FROM a WHERE y=$1" [I 2; I 1]))) = ROk ("SELECT $1 AS x FROM a WHERE y=$2", [I 1; I 2]).
Proof. eexists. repeat (apply conj; [vm_compute; reflexivity|]). vm_compute; reflexivity. Qed.
Print Assumptions c89_dollar_refuted.
(** A NaN mentioned twice by the text is an argument twice: it is never found
    among the arguments ... *)
Theorem c89_nan_refuted : let v := VFloat "float64" S754_nan in
  fst (build_query 20 style_dollar [] (BFrag (Fa "x=$1 OR y=$1" [v]))) = ROk ("x=$1 OR y=$2", [v; v]).
Proof. vm_compute. reflexivity. Qed.
Print Assumptions c89_nan_refuted.
(** ... and a text from templates that are not tidy may say something else as a
    template. *)
Theorem c89_tidy_refuted : let b := BFrag (Frag "x>0" [] [] "data ? 'k' AND" "") in let s := "data ? 'k' AND x>0" in
  fst (build_query 20 style_question [] b) = ROk (s, []) /\ exists er, fst (build_query 20 style_question [] (BFrag (Fa s []))) = RErr er.
Proof. cbv zeta. apply conj; [vm_compute; reflexivity|]. eexists. vm_compute. reflexivity. Qed.
Print Assumptions c89_tidy_refuted.
(** Not all arguments need be mentioned: what a join leaves out is still an
    argument. *)
Theorem c89_mentions_refuted : let b := BFrag (Frag "#join('#arg=#f', ', ')" [I 1; I 2] [BTable "x"] "" "") in
  fst (build_query 20 style_question [] b) = ROk ("?=x", [I 1; I 2]) /\ exists er, fst (build_query 20 style_question [] (BFrag (Fa "?=x" [I 1; I 2]))) = RErr er.
Proof. cbv zeta. apply conj; [vm_compute; reflexivity|]. eexists. vm_compute. reflexivity. Qed.
Print Assumptions c89_mentions_refuted.
