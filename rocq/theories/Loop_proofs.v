(** Programs that do not end. *)
From Coq Require Import Strings.String Strings.Ascii NArith ZArith List Bool Lia.
From Verif Require Import GoStr GoNum Syntax Value Util Model Sqlf Sqlb.
From Verif Require Import Spec_query Spec_term.
Import ListNotations.
Open Scope string_scope.
Lemma endless_step : forall rb rc jf e fc i p r S, lookup_fn e "endless" = Some endless -> (1 <= i)%Z ->
  clause rb rc jf e fc [ECall "endless" [LInt i] p; EPlain "" r] S = (ROk "x", mkFS (fs_st S) (fs_ua S) (fs_uf S)).
Proof.
  intros rb rc jf e fc i p r S L Hi. cbn [clause eval_expr]. unfold eval_function. rewrite L. unfold eval_call, endless. cbn.
  destruct i as [|i|i]; [lia|reflexivity|lia].
Qed.
Lemma endless_loop : forall rb jf e fc p r sep, lookup_fn e "endless" = Some endless ->
  forall n i acc S, (1 <= i)%Z -> fst (join_loop (clause_n jf rb) n e fc [EFunc "endless" p; EPlain "" r] sep 0 0 i acc S) = RFuel.
Proof.
  intros rb jf e fc p r sep L. induction n as [|n IH]; intros i acc S Hi; [reflexivity|].
  cbn [join_loop set_index map]. destruct jf as [|jf]; [reflexivity|]. cbn [clause_n].
  rewrite (endless_step _ _ _ e fc i p r S L Hi). cbn [Z.ltb andb]. apply IH. lia.
Qed.
(** A fragment of one call that does not end does not end. *)
Lemma frag_never : forall rb n e raw args frags pre suf x st, parse raw = POk [x] ->
  (forall m S, fst (eval_expr rb (clause_n m rb) m e (mkFrame args frags) x S) = RFuel) ->
  fst (build_frag n rb e (Frag raw args frags pre suf) st) = RFuel.
Proof.
  intros rb n e raw args frags pre suf x st P H. unfold build_frag. cbn [f_raw f_args f_frags]. rewrite P.
  destruct n as [|n]; [reflexivity|]. cbn [clause_n clause].
  match goal with |- context [eval_expr ?a ?b ?c ?d ?f ?g ?S] => pose proof (H n S) as K; destruct (eval_expr a b c d f g S) as [o S'] end.
  cbn [fst] in K. rewrite K. reflexivity.
Qed.
Lemma call_never : forall rb rc jf e fc name args p f S, lookup_fn e name = Some f -> arity_ok (sig_of f) (List.length args) = true ->
  eval_args (arg_types (sig_of f) (List.length args)) args = ROk tt ->
  any_rejected (arg_types (sig_of f) (List.length args)) args = false ->
  fst (call_fn rb rc jf e fc f args S) = RFuel -> fst (eval_expr rb rc jf e fc (ECall name args p) S) = RFuel.
Proof.
  intros rb rc jf e fc name args p f S L A E J H. cbn [eval_expr]. unfold eval_function. rewrite L. unfold eval_call. rewrite A, E, J.
  destruct (call_fn rb rc jf e fc f args S) as [o S']. cbn [fst] in H. rewrite H. reflexivity.
Qed.

Theorem endless_never : forall n st,
  fst (build n [[("endless", endless)]; builtins] (BFrag (F "#join('#endless', ', ')")) st) = RFuel.
Proof.
  intros n st. destruct n as [|n]; [reflexivity|]. cbn [build]. set (e := [[("endless", endless)]; builtins]).
  assert (P : exists p, parse "#join('#endless', ', ')" = POk [ECall "join" [LStr "#endless"; LStr ", "] p]) by (eexists; vm_compute; reflexivity).
  destruct P as [p P]. refine (frag_never _ _ _ _ _ _ _ _ _ _ P _). intros m S.
  apply call_never with FnJoin; try reflexivity. cbn [call_fn map]. unfold func_join. cbn [Z.ltb andb].
  assert (Q : exists q r, parse "#endless" = POk [EFunc "endless" q; EPlain "" r]) by (do 2 eexists; vm_compute; reflexivity).
  destruct Q as (q & r & Q). rewrite Q.
  assert (J : exists st', join_prep (build n) e [EFunc "endless" q; EPlain "" r] (fs_st S) = (ROk 1, st')) by (eexists; reflexivity).
  destruct J as [st' J]. rewrite J. apply endless_loop; [reflexivity|]. cbn. lia.
Qed.

Theorem again_never : forall n st, fst (build n [[("again", again)]; builtins] (BFrag (F "#again()")) st) = RFuel.
Proof.
  assert (P : exists p, parse "#again()" = POk [ECall "again" [] p]) by (eexists; vm_compute; reflexivity). destruct P as [p P].
  induction n as [|n IH]; intros st; [reflexivity|]. cbn [build].
  refine (frag_never _ _ _ _ _ _ _ _ _ _ P _). intros m S. apply call_never with again; try reflexivity.
  unfold again. cbn [call_fn run_prog check_funcs forallb fs_outs].
  match goal with |- context [build n ?e ?b ?s] => pose proof (IH s) as K; change (fst (build n e b s) = RFuel) in K; destruct (build n e b s) as [o s'] end.
  cbn [fst] in K. rewrite K. reflexivity.
Qed.

Theorem itself_never : forall n e q st, apply_ops itself new_qb = ROk q -> get_q st 0 = q -> fst (build n e (BQuery (Some 0)) st) = RFuel.
Proof.
  intros n e q st Hq Hs. induction n as [|n IH]; [reflexivity|]. cbn [build]. unfold build_internal. rewrite Hs.
  vm_compute in Hq. injection Hq as <-. 
  match goal with |- context [collect_deps ?q] => assert (C : exists d, collect_deps q = ROk d /\ dep_mem ("t", "") d = true) by (eexists; split; vm_compute; reflexivity) end.
  destruct C as (d & C & D). rewrite C. cbn [q_errors q_ctes]. unfold build_ctes. cbn [build_ctes_loop c_name c_builder]. rewrite D.
  destruct (build n e (BQuery (Some 0)) st) as [o s']. cbn [fst] in IH. rewrite IH. reflexivity.
Qed.
