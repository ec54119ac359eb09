(** Property C30: builds terminate.  The vocabulary is in Spec_term.v; the
    proofs are in Term_proofs.v and Loop_proofs.v. *)
From Coq Require Import Strings.String Strings.Ascii NArith ZArith List Bool Lia.
From Verif Require Import GoStr GoNum Syntax Value Util Model Sqlf Sqlb Spec_build Spec_query Spec_term Term_proofs Loop_proofs.
Import ListNotations.
Open Scope string_scope.

(** Every build ends, if the functions are bounded and no query builder contains itself. *)
Theorem c30_terminates : forall rank k e b st, acyclic rank (st_heap st) -> bounded_env e -> below rank k b ->
  exists n, fst (build n e b st) <> RFuel /\ (forall m, n <= m -> build m e b st = build n e b st).
Proof. exact build_halts. Qed.
Print Assumptions c30_terminates.
(** With the builtin functions. *)
Theorem c30_query_terminates : forall rank k h b style, acyclic rank h -> below rank k b ->
  exists n, fst (build_query n style h b) <> RFuel.
Proof. exact build_query_halts. Qed.
Print Assumptions c30_query_terminates.
(** A build keeps it so, whatever it builds. *)
Theorem c30_acyclic_kept : forall rank n e b st, acyclic rank (st_heap st) -> acyclic rank (st_heap (snd (build n e b st))).
Proof. exact acyclic_kept. Qed.
Print Assumptions c30_acyclic_kept.
(** A query builder contains what its methods were given. *)
Theorem c30_described : forall rank k os q, Forall (below_op rank k) os -> apply_ops os new_qb = ROk q -> below_qb rank k q.
Proof. exact below_described. Qed.
Print Assumptions c30_described.

(** Two builders, one within the other, and a custom function for #join. *)
Definition parts : func :=
  FnCustom (mkSig [GCtx; GNum] false [GStr false; GError])
    (fun args => match args with
                 | [LInt i] => if (1 <=? i)%Z && (i <=? 3)%Z then PCommit (VInt "int" i) (fun s => PRet s None) else PRet "" (Some (EInvalidIndex i))
                 | _ => PRet "" None
                 end).
Definition inner_ops : list qop := [OSelect [BFrag (F "id")]; OFrom ("t", ""); OWhere (Some (F "x IN (#join('#parts', ', '))"))].
Definition outer_ops : list qop := [OWith "c" (BQuery (Some 0)) []; OSelect [BFrag (F "1")]; OFrom ("c", ""); OUnion [BQuery (Some 0)]].
Definition two : list qb :=
  match apply_ops inner_ops new_qb, apply_ops outer_ops new_qb with ROk a, ROk b => [a; b] | _, _ => [] end.
Definition with_parts : env := [[("parts", parts)]; builtins].
Example c30_example : acyclic (fun id => id) two /\ bounded_env with_parts /\ below (fun id => id) 2 (BQuery (Some 1)) /\
  fst (build 40 with_parts (BQuery (Some 1)) (new_store style_question two)) =
  ROk "With c AS (SELECT id FROM t WHERE x IN (?, ?, ?)) SELECT 1 FROM c UNION (SELECT id FROM t WHERE x IN (?, ?, ?))".
Proof.
  apply conj; [|apply conj; [|apply conj; [constructor; lia|vm_compute; reflexivity]]].
  - destruct (apply_ops inner_ops new_qb) as [a| | |] eqn:A; try discriminate A.
    destruct (apply_ops outer_ops new_qb) as [b| | |] eqn:B; try discriminate B.
    intros id q H. unfold two in H. rewrite A, B in H. destruct id as [|[|id]]; [| |destruct id; discriminate H]; injection H as <-.
    + apply (c30_described _ _ inner_ops); [|exact A]. repeat constructor; cbn; intros; try contradiction.
      destruct H as [<-|[]]. constructor. intros b' [].
    + apply (c30_described _ _ outer_ops); [|exact B]. repeat constructor; cbn; intros; try contradiction; destruct H as [<-|[]]; constructor; try lia.
      intros b' [].
  - intros layer nm f [<-|[<-|[]]] Hi; [|exact (bounded_builtins builtins nm f (or_introl eq_refl) Hi)].
    destruct Hi as [E|[]]. injection E as _ <-. split.
    + intros args. unfold parts. destruct args as [|a [|x l]]; try (destruct a); try constructor. destruct (_ && _); repeat constructor.
    + intros _. exists 3%Z. intros i Hi. cbn. rewrite (proj2 (Z.leb_gt i 3) Hi), andb_false_r. constructor.
Qed.

(** Without the conditions it is false: a function that rejects index 0 but no
    later one makes #join run forever, *)
Theorem c30_unbounded_refuted : forall n st,
  fst (build n [[("endless", endless)]; builtins] (BFrag (F "#join('#endless', ', ')")) st) = RFuel.
Proof. exact endless_never. Qed.
Print Assumptions c30_unbounded_refuted.
(** so does a function that builds a call of itself, *)
Theorem c30_recursive_refuted : forall n st, fst (build n [[("again", again)]; builtins] (BFrag (F "#again()")) st) = RFuel.
Proof. exact again_never. Qed.
Print Assumptions c30_recursive_refuted.
(** and a query builder that contains itself. *)
Theorem c30_cyclic_refuted : forall n e q st, apply_ops itself new_qb = ROk q -> get_q st 0 = q -> fst (build n e (BQuery (Some 0)) st) = RFuel.
Proof. exact itself_never. Qed.
Print Assumptions c30_cyclic_refuted.
Example c30_cyclic_example : exists q, apply_ops itself new_qb = ROk q /\ get_q (new_store style_dollar [q]) 0 = q.
Proof. eexists. split; vm_compute; reflexivity. Qed.
