(** Property C81: building reads and changes only what it can reach.  The
    vocabulary is in Spec_frame.v; the proofs are in Frame_proofs.v. *)
From Coq Require Import Strings.String Strings.Ascii NArith ZArith List Bool.
From Verif Require Import GoStr GoNum Syntax Value Util Model Sqlf Sqlb Spec_syntax Spec_user Spec_frame Frame_proofs.
Import ListNotations.
Open Scope string_scope.

(** Let [R] be a set of query builders whose parts hold no others.  What is built
    from it is the same in all heaps that agree on it; no other builder changes. *)
Theorem c81_frame : forall R n style h h' b, closed R h -> agree R h h' -> inside R b ->
  fst (build_query n style h b) = fst (build_query n style h' b) /\
  untouched R h (snd (build_query n style h b)) /\ closed R (snd (build_query n style h b)) /\
  agree R (snd (build_query n style h b)) (snd (build_query n style h' b)).
Proof. exact frame. Qed.
Print Assumptions c81_frame.
(** Builders described by calls whose arguments stay in the set are such. *)
Theorem c81_calls : forall R os q, Forall (inside_op R) os -> apply_ops os new_qb = ROk q -> inside_qb R q.
Proof. exact inside_calls. Qed.
Print Assumptions c81_calls.
(** Whatever was built before, from builders apart, gives the same. *)
Theorem c81_independent : forall (R R' : nat -> Prop) n m style h b l, (forall id, R id -> R' id -> False) -> closed R h -> closed R' h ->
  inside R b -> Forall (fun x => inside R' (snd x)) l ->
  fst (build_query n style (after m h l) b) = fst (build_query n style h b).
Proof. exact others. Qed.
Print Assumptions c81_independent.
(** Two builds of things apart can be exchanged. *)
Theorem c81_exchange : forall (R R' : nat -> Prop) n m z z' h b b', (forall id, R id \/ ~ R id) -> (forall id, R' id \/ ~ R' id) ->
  (forall id, R id -> R' id -> False) -> closed R h -> closed R' h -> inside R b -> inside R' b' ->
  snd (build_query m z' (snd (build_query n z h b)) b') = snd (build_query n z (snd (build_query m z' h b')) b).
Proof. exact order_free. Qed.
Print Assumptions c81_exchange.
(** What holds no query builders, user code included, neither reads nor changes any. *)
Theorem c81_no_queries : forall n style h b, inside none b ->
  snd (build_query n style h b) = h /\ forall h', fst (build_query n style h' b) = fst (build_query n style h b).
Proof. exact no_queries. Qed.
Print Assumptions c81_no_queries.

Definition tA : tname := ("a", "").
Definition col_x : builder := BCol (Some (F "a.x")) "a".
(** Builder 0 is the common table of builder 1; builder 2 is apart. *)
Definition inner : list qop := [ODistinct; OSelect [BCol (Some (F "a.id")) "a"]; OFrom tA; OOrderBy col_x 0].
Definition outer : list qop := [OWith "c" (BQuery (Some 0)) []; OSelect [BCol (Some (F "c.id")) "c"]; OFrom ("c", "")].
Definition apart : list qop := [ODistinct; OSelect [BCol (Some (F "a.y")) "a"]; OFrom tA; OOrderBy col_x 1; OWhere2 col_x "=" (VInt "int" 7)].
Definition heap_of (oss : list (list qop)) : list qb :=
  map (fun os => match apply_ops os new_qb with ROk q => q | _ => new_qb end) oss.
Definition two (id : nat) : Prop := id < 2.
Definition third (id : nat) : Prop := id = 2.
Example c81_example : let h := heap_of [inner; outer; apart] in
  closed two h /\ closed third h /\ (forall id, two id -> third id -> False) /\
  inside two (BQuery (Some 1)) /\ inside third (BQuery (Some 2)) /\
  fst (build_query 30 style_question h (BQuery (Some 1)))
    = ROk ("With c AS (SELECT DISTINCT a.id, a.x AS _order_1 FROM a ORDER BY _order_1 ASC) SELECT c.id FROM c", []) /\
  nth_error (snd (build_query 30 style_question h (BQuery (Some 1)))) 0 <> nth_error h 0.
Proof.
  assert (K : forall R t s, inside R (BCol (Some (F s)) t)) by (intros; apply in_col; apply Forall_nil).
  cbn zeta. apply conj; [|apply conj; [|apply conj; [|apply conj; [|apply conj; [|apply conj]]]]].
  - intros [|[|id]] q Hi E; cbn [heap_of map nth_error] in E.
    + injection E as <-. apply (inside_calls two inner); [|vm_compute; reflexivity]. unfold inner. repeat (apply Forall_cons; [cbn; try exact Logic.I; try apply K|]); apply Forall_nil.
    + injection E as <-. apply (inside_calls two outer); [|vm_compute; reflexivity]. unfold outer. repeat (apply Forall_cons; [cbn; try exact Logic.I; try (apply in_query; unfold two; auto; fail); try apply K|]); apply Forall_nil.
    + unfold two in Hi. do 2 apply le_S_n in Hi. inversion Hi.
  - intros id q -> E. cbn [heap_of map nth_error] in E. injection E as <-. apply (inside_calls third apart); [|vm_compute; reflexivity].
    unfold apart. repeat (apply Forall_cons; [cbn; try exact Logic.I; try apply K|]); apply Forall_nil.
  - intros id Hi ->. unfold two in Hi. do 2 apply le_S_n in Hi. inversion Hi.
  - apply in_query. unfold two. auto.
  - apply in_query. reflexivity.
  - vm_compute. reflexivity.
  - vm_compute. discriminate.
Qed.
(** Builders that share one are not apart: building one changes the text of the other. *)
Theorem c81_shared_refuted : let h := heap_of [inner; outer; outer] in
  fst (build_query 30 style_question (snd (build_query 30 style_question h (BQuery (Some 1)))) (BQuery (Some 2)))
    <> fst (build_query 30 style_question h (BQuery (Some 2))).
Proof. vm_compute. discriminate. Qed.
Print Assumptions c81_shared_refuted.

(** The code tests a function for #join once and keeps the verdict (func.go:69-76);
    the model repeats the test.  For a function that builds no query builders
    this cannot be seen: every test gives the same and leaves everything as it was. *)
Theorem c34_cached : forall n name f st st', inside_func none f ->
  snd (join_compat (build n) name f st) = st /\ fst (join_compat (build n) name f st) = fst (join_compat (build n) name f st').
Proof. exact cached. Qed.
Print Assumptions c34_cached.
Example c34_cached_example :
  let f := FnCustom (mkSig [GCtx; GNum] false [GStr false; GError])
    (fun l => PCommit (VInt "int" 9) (fun s => PBuild [("f", FnFragment)] (BFrag (Frag "#f1 x" [] [BTable "t"] "" "")) (fun _ =>
       match l with [LInt 1] => PRet s None | _ => PRet "" (Some (EInvalidIndex 0)) end))) in
  inside_func none f /\ join_compat (build 9) "g" f (new_store style_question []) = (true, false, new_store style_question []).
Proof.
  apply conj; [|vm_compute; reflexivity]. apply if_custom. intros l. apply ip_commit. intros s. apply ip_build.
  - apply Forall_cons; [apply if_fragment|apply Forall_nil].
  - apply in_frag. apply Forall_cons; [apply in_table|apply Forall_nil].
  - intros _. repeat match goal with |- inside_prog _ (match ?x with _ => _ end) => destruct x end; apply ip_ret.
Qed.
(** The test of a function that builds a query builder with an invalid order
    changes that builder, so that a second test would refuse the function. *)
Theorem c34_cached_refuted :
  let f := FnCustom (mkSig [GCtx; GNum] false [GStr false; GError])
    (fun _ => own_query style_question (BQuery (Some 0)) (fun r => match r with ROk _ => PRet "" (Some (EInvalidIndex 0)) | _ => PRet "" (Some (EMsg "no")) end)) in
  let st := new_store style_question (heap_of [[OSelect [col_x]; OFrom tA; OOrderBy col_x 6]]) in
  exists b st' st'', join_compat (build 30) "g" f st = (true, b, st') /\ join_compat (build 30) "g" f st' = (false, b, st'').
Proof. eexists _, _, _. apply conj; [vm_compute; reflexivity|]. vm_compute. reflexivity. Qed.
Print Assumptions c34_cached_refuted.
