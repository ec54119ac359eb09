(** Property C80: debug mode.  The vocabulary is in Spec_debug.v and
    Spec_tidy.v; the proofs are in Debug_proofs.v, Debug2_proofs.v and
    Tidy_proofs.v. *)
From Coq Require Import Strings.String Strings.Ascii NArith ZArith List Bool.
From Verif Require Import GoStr GoNum Syntax Value Util Model Sqlf Sqlb Spec_syntax RefSem Spec_build Spec_eval Spec_query Spec_mean Spec_util Spec_sql Spec_interp Spec_debug Spec_tidy Debug2_proofs Prop_sql.
Import ListNotations.
Open Scope string_scope.

(** C80: with Debug() on some of the builders, a build gives what it gives
    without, and leaves the builders as it leaves them without, unless a text
    built for one of them makes util.Interpolate panic. *)
Theorem c80_debug : forall P n style h b, (forall v e, P v = true -> method_panics v e -> is_invalid_index e = false) ->
  (style = style_dollar -> forall v, P v = true -> hashable v = true) -> lib P b = true -> forallb (lib_qb P) (map quiet h) = true ->
  let d := build_query n style h b in let r := build_query n style (map quiet h) b in
  (fst d = fst r /\ map quiet (snd d) = snd r /\ map q_debug (snd d) = map q_debug h) \/
  ((exists er, fst d = RErr er \/ fst d = RPanic er) /\
   exists id m, nth id (map q_debug h) false = true /\ unshowable P (Z.eqb style style_dollar) (map quiet h) id m /\
     forall s args, fst r = ROk (s, args) -> m <= List.length args).
Proof. exact debug_only. Qed.
Print Assumptions c80_debug.
(** So Debug() changes nothing if no method of an argument panics and the
    texts of the builders keep their placeholders apart ... *)
Theorem c80_clean : forall P n style h b, (forall v e, P v = true -> ~ method_panics v e) ->
  (style = style_dollar -> forall v, P v = true -> hashable v = true) -> lib P b = true -> forallb (lib_qb P) (map quiet h) = true ->
  let d := build_query n style h b in let r := build_query n style (map quiet h) b in
  (style = style_dollar -> exists s args, fst r = ROk (s, args) /\ (Z.of_nat (List.length args) < 9223372036854775808)%Z) ->
  (forall id log t, nth id (map q_debug h) false = true -> means [builtins] (map quiet h) log (BQuery (Some id)) t -> clean_text t) ->
  fst d = fst r /\ map quiet (snd d) = snd r /\ map q_debug (snd d) = map q_debug h.
Proof. exact debug_clean. Qed.
Print Assumptions c80_clean.
(** ... which can be read off their templates. *)
Theorem c80_tidy : forall P n style h b, (forall v e, P v = true -> ~ method_panics v e) ->
  (style = style_dollar -> forall v, P v = true -> hashable v = true) -> lib P b = true -> forallb (lib_qb P) (map quiet h) = true ->
  let d := build_query n style h b in let r := build_query n style (map quiet h) b in
  (style = style_dollar -> exists s args, fst r = ROk (s, args) /\ (Z.of_nat (List.length args) < 9223372036854775808)%Z) ->
  Forall tidy_qb h ->
  fst d = fst r /\ map quiet (snd d) = snd r /\ map q_debug (snd d) = map q_debug h.
Proof. exact debug_tidy. Qed.
Print Assumptions c80_tidy.
(** A number, and nothing whose methods could panic. *)
Definition number (v : value) : bool := match v with VInt _ _ => true | _ => false end.
Definition qd : qb := match apply_ops (os1 ++ [ODebug]) new_qb with ROk q => q | _ => new_qb end.
Ltac passives := match goal with |- passive "" => exists []; repeat split; reflexivity | |- passive ?s => exists [Text s]; repeat split; reflexivity end.
Ltac firms := split; [discriminate|reflexivity].
Ltac exprs := lazymatch goal with
  | |- Forall _ [] => apply Forall_nil
  | |- Forall _ (_ :: _) => apply Forall_cons; exprs
  | |- tidy_expr (EPlain _ _) => once constructor; passives
  | |- tidy_expr (ECall _ _ _) => once constructor;
      [ let E := fresh in intros ? ? ? E; first [discriminate E|injection E as <- <- <-; split; [passives|firms]]
       | let E := fresh in let K := fresh in intros ? ? ? ? E K; first [discriminate E|injection E as <- <- <-; vm_compute in K; injection K as <-; spreads]
       | let E := fresh in let K := fresh in intros ? ? ? ? E K; first [discriminate E|injection E as <- <- <-; vm_compute in K; injection K as <-; exprs]]
  | |- tidy_expr _ => once constructor
  end
with spreads := cbn [spread follows]; repeat split; try (first [left; firms|right; split; reflexivity]).
Ltac component := match goal with |- tidy ?b => let y := eval vm_compute in b in change b with y | |- Forall _ ?l => let y := eval vm_compute in l in change l with y end.
Ltac tidies := lazymatch goal with
  | |- Forall _ [] => apply Forall_nil
  | |- Forall _ (_ :: _) => apply Forall_cons; cbv beta; tidies
  | |- tidy (BFrag _) => once constructor; cbn [f_raw f_prefix f_suffix f_frags]; [templates|passives|passives|tidies]
  | |- tidy (BCol (Some _) _) => once constructor; cbn [f_raw f_prefix f_suffix f_frags]; [templates|passives|passives|tidies]
  | |- tidy (table_builder _) => cbn [table_builder ft_frag]; tidies
  | |- tidy _ => once constructor
  end
with templates := let es := fresh in let E := fresh in intros es E; vm_compute in E; injection E as <-; split; [exprs|spreads].
Example c80_example : number (I 3) = true /\ (forall v e, number v = true -> ~ method_panics v e) /\ (forall v, number v = true -> hashable v = true) /\
  apply_ops (os1 ++ [ODebug]) new_qb = ROk qd /\ map q_debug [qd] = [true] /\ lib number (BQuery (Some 0)) = true /\
  forallb (lib_qb number) (map quiet [qd]) = true /\ Forall tidy_qb [qd] /\
  (exists s args, fst (build_query 40 style_dollar (map quiet [qd]) (BQuery (Some 0))) = ROk (s, args) /\ (Z.of_nat (List.length args) < 9223372036854775808)%Z) /\
  fst (build_query 40 style_dollar [qd] (BQuery (Some 0))) = fst (build_query 40 style_dollar (map quiet [qd]) (BQuery (Some 0))).
Proof.
  apply conj; [reflexivity|]. apply conj. { intros [] e H K; try discriminate H. inversion K. }
  apply conj. { intros [] H; try discriminate H. reflexivity. }
  apply conj; [vm_compute; reflexivity|]. apply conj; [vm_compute; reflexivity|]. apply conj; [reflexivity|].
  apply conj; [vm_compute; reflexivity|]. apply conj.
  - constructor; [|constructor]. 
    unfold tidy_qb. do 7 (apply conj; [component; tidies|]). component; tidies.
  - apply conj; [eexists; eexists; split; [vm_compute; reflexivity|reflexivity]|vm_compute; reflexivity].
Qed.
(** Debug() is not harmless in general.  With a question mark in a prefix the
    build panics with Debug() only ... *)
Definition marked : list qop := [OSelect [column "" "1"]; OFrom ("t", ""); OWhere (Some (Frag "x>0" [] [] "data ? 'k' AND" ""))].
Theorem c80_panic_refuted : exists q qd, apply_ops marked new_qb = ROk q /\ apply_ops (marked ++ [ODebug]) new_qb = ROk qd /\ quiet qd = q /\
  fst (build_query 20 style_question [q] (BQuery (Some 0))) = ROk ("SELECT 1 FROM t WHERE data ? 'k' AND x>0", []) /\
  fst (build_query 20 style_question [qd] (BQuery (Some 0))) = RPanic index_range.
Proof. eexists. eexists. repeat (apply conj; [vm_compute; reflexivity|]). vm_compute; reflexivity. Qed.
Print Assumptions c80_panic_refuted.
(** ... and so it does with an argument whose Value method panics, which a
    build does not call otherwise. *)
Theorem c80_valuer_refuted : forall ty k er, let v := VValuer ty k (inr er) in
  exists q qd, apply_ops [OSelect [column "" "1"]; OFrom ("t", ""); OWhere (Some (Fa "x=$1" [v]))] new_qb = ROk q /\
  apply_ops [ODebug; OSelect [column "" "1"]; OFrom ("t", ""); OWhere (Some (Fa "x=$1" [v]))] new_qb = ROk qd /\ quiet qd = q /\
  fst (build_query 20 style_question [q] (BQuery (Some 0))) = ROk ("SELECT 1 FROM t WHERE x=?", [v]) /\
  fst (build_query 20 style_question [qd] (BQuery (Some 0))) = RPanic er.
Proof. intros ty k er v. eexists. eexists. repeat (apply conj; [vm_compute; reflexivity|]). vm_compute; reflexivity. Qed.
Print Assumptions c80_valuer_refuted.
(** What Debug() shows is not always the query: a builder used inside another
    one is shown with the arguments of the whole, from the first on. *)
Theorem c80_nested_refuted : exists q1 q2 s args,
  apply_ops [OSelect [column "" "a"]; OFrom ("t", ""); OWhere (Some (Fa "x=$1" [I 1])); OUnion [BQuery (Some 1)]] new_qb = ROk q1 /\
  apply_ops [OSelect [column "" "b"]; OFrom ("u", ""); OWhere (Some (Fa "y=$1" [I 2])); ODebug] new_qb = ROk q2 /\
  fst (build_query 30 style_question [q1; q2] (BQuery (Some 0))) = ROk (s, args) /\ args = [I 1; I 2] /\
  fst (build_query 30 style_question [q1; q2] (BQuery (Some 1))) = ROk ("SELECT b FROM u WHERE y=?", [I 2]) /\
  forall ft, interpolate ft "SELECT b FROM u WHERE y=?" args = ROk "SELECT b FROM u WHERE y=1".
Proof.
  eexists. eexists. eexists. eexists. repeat (apply conj; [vm_compute; reflexivity|]). intros ft. vm_compute; reflexivity.
Qed.
Print Assumptions c80_nested_refuted.

(** C73 for builders with tidy templates: the text they are built to can always
    be interpolated. *)
Theorem c73_tidy : forall ft n h b sq aq, lib hashable b = true -> forallb (lib_qb hashable) h = true -> tidy b -> Forall tidy_qb h ->
  fst (build_query n style_question h b) = ROk (sq, aq) ->
  exists t sd ad, means [builtins] h aq b t /\ sq = render qmark t /\ fst (build_query n style_dollar h b) = ROk (sd, ad) /\
    forall lit,
      (placeholders t = seq 0 (List.length aq) -> (forall j v, nth_error aq j = Some v -> literal ft v (lit j)) ->
        interpolate ft sq aq = ROk (render lit t)) /\
      ((Z.of_nat (List.length ad) < 9223372036854775808)%Z ->
        (forall j v w, In j (placeholders t) -> nth_error aq j = Some v -> In w ad -> same_value v w -> literal ft w (lit j)) ->
        interpolate ft sd ad = ROk (render lit t)).
Proof. exact tidy_shown. Qed.
Print Assumptions c73_tidy.
Example c73_tidy_example : lib hashable (BQuery (Some 0)) = true /\ forallb (lib_qb hashable) [quiet qd] = true /\ tidy (BQuery (Some 0)) /\ Forall tidy_qb [quiet qd] /\
  exists sq aq, fst (build_query 40 style_question [quiet qd] (BQuery (Some 0))) = ROk (sq, aq).
Proof.
  apply conj; [reflexivity|]. apply conj; [vm_compute; reflexivity|]. apply conj; [constructor|]. apply conj.
  - pose proof c80_example as (_ & _ & _ & _ & _ & _ & _ & H & _). constructor; [apply quiet_tidy; exact (Forall_inv H)|constructor].
  - eexists. eexists. vm_compute. reflexivity.
Qed.
