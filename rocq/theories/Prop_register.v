(** Registering functions. *)
From Coq Require Import Strings.String Strings.Ascii NArith List Bool Permutation.
From Verif Require Import GoStr GoNum Syntax Value Util Model Sqlf Sqlb Register Spec_syntax Spec_eval Spec_base Spec_utf8 Spec_blame Spec_register Register_proofs.
Import ListNotations.
Open Scope string_scope.

(** C78: a map is accepted if all its entries can be registered. *)
Theorem c78_accepted : forall m, NoDup (map fst m) -> Forall (fun x => ascii_only (fst x) = true) m ->
  (fst (add_value_funcs m []) = None <-> Forall registrable_value m).
Proof. exact accepted_iff. Qed.
Print Assumptions c78_accepted.
(** What is then found is what the map holds; other names are found as before. *)
Theorem c78_found : forall m e nm f, NoDup (map fst m) -> snd (context_with_funcs e m) = None ->
  (holds m nm f -> lookup_fn (fst (context_with_funcs e m)) nm = Some f) /\
  ((forall g, ~ holds m nm g) -> lookup_fn (fst (context_with_funcs e m)) nm = lookup_fn e nm).
Proof. exact registered. Qed.
Print Assumptions c78_found.
(** The order in which the map is visited does not matter for either. *)
Theorem c78_order : forall m m' e, NoDup (map fst m) -> Permutation m m' ->
  (snd (context_with_funcs e m) = None <-> snd (context_with_funcs e m') = None) /\
  (snd (context_with_funcs e m) = None -> forall nm, lookup_fn (fst (context_with_funcs e m)) nm = lookup_fn (fst (context_with_funcs e m')) nm).
Proof. exact order_free. Qed.
Print Assumptions c78_order.
(** After an error the context that is returned with it holds what was visited
    before the entry at fault. *)
Theorem c78_after_error : forall m e er, NoDup (map fst m) -> snd (context_with_funcs e m) = Some er ->
  exists m1 x m2, m = (m1 ++ x :: m2)%list /\ snd (context_with_funcs e m1) = None /\ snd (context_with_funcs e (m1 ++ [x])) <> None /\
    forall nm, lookup_fn (fst (context_with_funcs e m)) nm = lookup_fn (fst (context_with_funcs e m1)) nm.
Proof. exact partly_filled. Qed.
Print Assumptions c78_after_error.
(** So that context depends on the order. *)
Theorem c78_error_order_refuted : exists m m' e nm, NoDup (map fst m) /\ Permutation m m' /\
  lookup_fn (fst (context_with_funcs e m)) nm <> lookup_fn (fst (context_with_funcs e m')) nm.
Proof.
  exists [("f", MFunc FnArg); ("g", MOther)], [("g", MOther); ("f", MFunc FnArg)], [], "f".
  apply conj; [repeat constructor; cbn; intuition discriminate|]. apply conj; [apply perm_swap|]. vm_compute. discriminate.
Qed.
Print Assumptions c78_error_order_refuted.
(** For a map of functions that is the test custom builders use, errors included. *)
Theorem c78_functions : forall fs e, NoDup (map fst fs) ->
  snd (context_with_funcs e (map (fun nf => (fst nf, MFunc (snd nf))) fs)) = check_funcs fs /\
  (check_funcs fs = None -> forall nm, lookup_fn (fst (context_with_funcs e (map (fun nf => (fst nf, MFunc (snd nf))) fs))) nm = lookup_fn (fs :: e) nm).
Proof. exact functions_only. Qed.
Print Assumptions c78_functions.
(** createValueFuncs: all or nothing. *)
Theorem c78_created : forall m, NoDup (map fst m) ->
  fst (create_value_funcs m) = fst (add_value_funcs m []) /\
  (fst (create_value_funcs m) = None -> forall nm f, assoc nm (snd (create_value_funcs m)) = Some f <-> holds m nm f) /\
  (fst (create_value_funcs m) <> None -> snd (create_value_funcs m) = []).
Proof. exact created. Qed.
Print Assumptions c78_created.
(** The error names the entry at fault and says what is wrong with it. *)
Theorem c78_message : forall m e er, NoDup (map fst m) -> snd (context_with_funcs e m) = Some er ->
  exists m1 x m2, m = (m1 ++ x :: m2)%list /\ Forall registrable_any_value m1 /\ mistake x (err_text er).
Proof. exact register_says. Qed.
Print Assumptions c78_message.
Example c78_example : let f := FnCustom (mkSig [GCtx; GNum] false [GStr false; GError]) (fun _ => PRet "" None) in
  let m := [("ok", MFunc f); ("f", MFunc f)] in
  Forall registrable_value m /\ snd (context_with_funcs [builtins] m) = None /\
  lookup_fn (fst (context_with_funcs [builtins] m)) "f" = Some f /\ lookup_fn (fst (context_with_funcs [builtins] m)) "arg" = Some FnArg /\
  snd (context_with_funcs [builtins] [("ok", MFunc f); ("no", MOther)]) = Some (EMsg "value for #no not a function") /\
  create_value_funcs [("ok", MFunc f); ("no", MOther)] = (Some (EMsg "value for #no not a function"), []).
Proof.
  intros f m. apply conj.
  { apply accepted_iff; [repeat constructor; cbn; intuition discriminate|repeat constructor|vm_compute; reflexivity]. }
  repeat apply conj; vm_compute; reflexivity.
Qed.
