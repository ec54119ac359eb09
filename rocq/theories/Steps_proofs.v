(** Facts about the steps of templates. *)
From Coq Require Import Strings.String Strings.Ascii NArith ZArith List Bool Lia.
From Verif Require Import GoStr GoNum Syntax Value Util Model Sqlf Sqlb Spec_syntax RefSem Spec_build Spec_eval Spec_base
  Fuel_proofs Eval_proofs Use_proofs Join_proofs Base_proofs Again_proofs Spec_steps.
Import ListNotations.
Open Scope string_scope.

(* ------------------------------------------------------------------ *)
(** * Calls *)

Lemma index_iff : forall er, is_invalid_index er = true <-> by_index er.
Proof. exact invalid_index_iff. Qed.
Lemma suits_iff : forall f l, proper f ->
  (suits f l <-> arity_ok (sig_of f) (List.length l) = true /\ eval_args (arg_types (sig_of f) (List.length l)) l = ROk tt /\
     any_rejected (arg_types (sig_of f) (List.length l)) l = false).
Proof.
  intros f l Hp. unfold suits. rewrite <- (arity_takes f (List.length l)).
  destruct (arity_ok (sig_of f) (List.length l)) eqn:A; [|split; intros [K _]; discriminate K].
  assert (Ht : takes f (List.length l)) by (apply arity_takes; exact A).
  pose proof (arg_types_len f _ Ht) as Hl. pose proof (fun i => arg_types_param f (List.length l) i Hp Ht) as Hty.
  set (ts := arg_types (sig_of f) (List.length l)) in *.
  assert (Hin : forall i a, nth_error l i = Some a -> i < List.length l) by (intros i a K; apply nth_error_Some; congruence).
  assert (D : (forall i a, nth_error l i = Some a -> exists t, nth_error ts i = Some t /\ fits t a) ->
    (any_rejected ts l = true <-> some_defined f (List.length l))).
  { intros H. rewrite (rejected_iff ts l Hl H). unfold some_defined. split.
    - intros (i & t & K1 & K2). assert (L : i < List.length l) by (rewrite <- Hl; apply nth_error_Some; congruence).
      exists i, t. split; [exact L|]. split; [rewrite <- Hty by exact L; exact K1|exact K2].
    - intros (i & t & L & K1 & K2). exists i, t. split; [rewrite Hty by exact L; exact K1|exact K2]. }
  destruct (eval_args_fit ts l Hl) as [[E H]|(i & a & t & Ha & Hti & Nf & _ & Hn & Hnn)].
  - rewrite E. specialize (D H). split.
    + intros (_ & _ & ND). split; [reflexivity|]. split; [reflexivity|]. destruct (any_rejected ts l); [destruct ND; apply D; reflexivity|reflexivity].
    + intros (_ & _ & R). split; [reflexivity|]. split; [intros i a Ha; rewrite <- Hty by (eapply Hin; exact Ha); apply H; exact Ha|].
      intros K. apply D in K. congruence.
  - split.
    + intros (_ & F & _). destruct (F i a Ha) as (u & Hu & Fu). rewrite <- Hty in Hu by (eapply Hin; exact Ha). congruence.
    + intros (_ & E & _). exfalso. rewrite E in Hn, Hnn. destruct a as [x|x|x|x|]; cbn [number] in *;
        first [destruct (Hn Logic.I) as [er K]; discriminate K|destruct Hnn as [er K]; [intros Q; exact Q|discriminate K]].
Qed.

Lemma arg_no_index : forall ts l er, eval_args ts l = RErr er \/ eval_args ts l = RPanic er -> is_invalid_index er = false.
Proof.
  induction ts as [|t ts IH]; intros [|a l] er [H|H]; try discriminate H; cbn [eval_args] in H.
  - destruct (eval_arg t a) as [x|x|x|] eqn:E; try discriminate H; [apply (IH l er); auto|].
    injection H as <-. destruct a, t; cbn in E; try discriminate E; injection E as <-; reflexivity.
  - destruct (eval_arg t a) as [x|x|x|] eqn:E; try discriminate H; [apply (IH l er); auto|].
    injection H as <-. destruct a, t; cbn in E; try discriminate E; injection E as <-; reflexivity.
Qed.
Lemma args_no_fuel : forall ts l, eval_args ts l <> RFuel.
Proof.
  induction ts as [|t ts IH]; intros [|a l]; try discriminate. cbn [eval_args].
  destruct (eval_arg t a) as [x|x|x|] eqn:E; try discriminate; [apply IH|]. destruct a, t; discriminate E.
Qed.
Lemma call_suits : forall rb rc jf e fc name f l X, proper f -> suits f l ->
  eval_call rb rc jf e fc name f l X = safe name (call_fn rb rc jf e fc f l X).
Proof. intros rb rc jf e fc name f l X Hp H. apply suits_iff in H as (H1 & H2 & H3); [|exact Hp]. unfold eval_call. rewrite H1, H2, H3. reflexivity. Qed.
Lemma call_misfit : forall rb rc jf e fc name f l X, proper f -> ~ suits f l ->
  exists o er, eval_call rb rc jf e fc name f l X = (o, X) /\ (o = RErr er \/ o = RPanic er) /\ is_invalid_index er = false.
Proof.
  intros rb rc jf e fc name f l X Hp H. rewrite (suits_iff f l Hp) in H. unfold eval_call.
  destruct (arity_ok (sig_of f) (List.length l)); [|eexists _, _; split; [reflexivity|]; split; [left; reflexivity|reflexivity]].
  destruct (eval_args (arg_types (sig_of f) (List.length l)) l) as [u|er|er|] eqn:E.
  - destruct (any_rejected _ l); [|destruct u; destruct H; auto]. cbn [safe]. eexists _, _. split; [reflexivity|]. split; [left; reflexivity|reflexivity].
  - eexists _, _. split; [reflexivity|]. split; [left; reflexivity|]. unfold wrong_type. cbn [is_invalid_index]. exact (arg_no_index _ _ er (or_introl E)).
  - eexists _, _. split; [reflexivity|]. split; [right; reflexivity|]. exact (arg_no_index _ _ er (or_intror E)).
  - destruct (args_no_fuel _ _ E).
Qed.
Lemma suits_dec : forall f l, proper f -> suits f l \/ ~ suits f l.
Proof.
  intros f l Hp. rewrite (suits_iff f l Hp). destruct (arity_ok _ _), (eval_args _ _) as [[]|er|er|], (any_rejected _ _);
    first [left; repeat split; reflexivity|right; intros (A & B & C); discriminate].
Qed.
(** The built-in functions. *)
Lemma suits_num : forall f l, f = FnArg \/ f = FnFragment -> (suits f l <-> exists a, l = [a] /\ is_num a).
Proof.
  intros f l Hf. assert (Hp : proper f) by (destruct Hf as [->| ->]; intros K; discriminate K).
  rewrite (suits_iff f l Hp). destruct Hf as [->| ->]; (split;
    [intros (A & B & _); destruct l as [|a [|b l]]; try discriminate A; exists a; split; [reflexivity|]; destruct a; try discriminate B; exact Logic.I
    |intros (a & -> & N); destruct a; try contradiction; repeat split; reflexivity]).
Qed.
Lemma suits_join : forall l, suits FnJoin l <-> exists tmpl sep nums, l = LStr tmpl :: LStr sep :: nums /\ Forall is_num nums.
Proof.
  intros l. assert (Hp : proper FnJoin) by (intros _; discriminate). rewrite (suits_iff FnJoin l Hp). split.
  - intros (A & B & _). destruct l as [|a [|b l]]; try discriminate A.
    unfold arg_types in B. cbn [sig_of fs_variadic user_ins ctx_first fs_ins negb tl List.length removelast last Nat.sub Nat.leb app eval_args] in B. rewrite ?Nat.sub_0_r in B.
    destruct a; try discriminate B; cbn [eval_arg] in B. destruct b; try discriminate B; cbn [eval_arg] in B. exists s, s0, l. split; [reflexivity|].
    clear A. induction l as [|c l IH]; [constructor|]. cbn [List.length repeat eval_args] in B. destruct c; cbn [eval_arg] in B; try discriminate B; (constructor; [exact Logic.I|exact (IH B)]).
  - intros (tmpl & sep & nums & -> & Hn). unfold arity_ok, arg_types.
    cbn [sig_of fs_variadic user_ins ctx_first fs_ins negb tl List.length removelast last Nat.sub Nat.leb app].
    cbn [eval_args eval_arg any_rejected call_rejects orb]. rewrite Nat.sub_0_r. split; [reflexivity|]. split.
    + induction Hn as [|a nums Ha Hn IH]; [reflexivity|]. cbn. destruct a; try contradiction; exact IH.
    + induction Hn as [|a nums Ha Hn IH]; [reflexivity|]. cbn. destruct a; try contradiction; exact IH.
Qed.

(* ------------------------------------------------------------------ *)
(** * What is computed follows the steps *)

Lemma mark_all_app : forall a b u, mark_all (a ++ b) u = mark_all b (mark_all a u).
Proof. intros. unfold mark_all. apply fold_left_app. Qed.
Lemma functions_names : forall l, fnames l = functions_of l.
Proof. intros l. unfold fnames, functions_of. symmetry. apply flat_map_concat_map. Qed.
Lemma at_round_aset : forall i l, map (aset i) l = map (at_round i) l.
Proof. reflexivity. Qed.
Lemma commit_panic : forall v st er st', commit v st = (RErr er, st') \/ commit v st = (RPanic er, st') -> is_invalid_index er = false.
Proof.
  intros v st er st' H. unfold commit in H. destruct (st_dollar st); [|destruct H; discriminate].
  destruct (hashable v); [destruct (dict_find v (st_dict st)); destruct H; discriminate|]. destruct H as [H|H]; [discriminate H|]. injection H as <- _. reflexivity.
Qed.
Lemma commit_fuel : forall v st st', commit v st <> (RFuel, st').
Proof. intros v st st' H. unfold commit in H. destruct (st_dollar st); [|discriminate]. destruct (hashable v); [destruct (dict_find v (st_dict st))|]; discriminate. Qed.

Lemma prep_sound : forall n e l st, match prep_names (build n) e l st with
  | (ROk k, st') => k = List.length l /\ accepts e l st st'
  | (RErr er, _) => is_invalid_index er = false
  | (RPanic _, _) => False
  | (RFuel, _) => True end.
Proof.
  intros n e. induction l as [|nm l IH]; intros st; cbn [prep_names].
  - split; [reflexivity|constructor].
  - destruct (lookup_fn e nm) as [f|] eqn:El; [|reflexivity].
    assert (J : match join_compat (build n) nm f st with
      | (true, _, st1) => forall st', accepts e l st1 st' -> accepts e (nm :: l) st st' | _ => True end).
    { unfold join_compat. destruct (join_sig (sig_of f)) eqn:Js; cbn [negb]; [|exact Logic.I].
      destruct f as [| | |sg body]; try discriminate Js.
      - intros st' K. apply ac_builtin; auto.
      - intros st' K. apply ac_builtin; auto.
      - destruct (run_prog (build n) [[]] (body [LInt 0]) (new_store style_question (st_heap st))) as [r st1] eqn:Er.
        cbn [sig_of] in Js. assert (Jo : joinable sg /\ norm_outs (fs_outs sg) r = r).
        { unfold join_sig in Js. apply andb_prop in Js as [J1 J2]. unfold joinable. split.
          - split.
            + destruct (fs_outs sg) as [|t [|[] [|x y]]]; try discriminate J1. eauto.
            + destruct (fs_ins sg) as [|[] [|[] [|x y]]]; try discriminate J2; auto.
          - destruct (fs_outs sg) as [|t [|u [|x y]]]; try discriminate J1; reflexivity. }
        destruct Jo as [Jo No]. rewrite No. destruct r as [s|er|er|]; cbn [safe fst]; try exact Logic.I; cbn [is_invalid_index].
        + destruct (is_invalid_index er) eqn:Ei; [|exact Logic.I]. intros st' K. eapply ac_custom; [exact El|exact Jo| | |exact K].
          * exists n. split; [exact Er|discriminate].
          * exists er. split; [auto|]. apply index_iff. exact Ei.
        + destruct (is_invalid_index er) eqn:Ei; [|exact Logic.I]. intros st' K. eapply ac_custom; [exact El|exact Jo| | |exact K].
          * exists n. split; [exact Er|discriminate].
          * exists er. split; [auto|]. apply index_iff. exact Ei. }
    destruct (join_compat (build n) nm f st) as [[[] b] st1].
    + specialize (IH st1). destruct (prep_names (build n) e l st1) as [[k|er|er|] st2]; try exact IH.
      destruct IH as [-> IH]. split; [reflexivity|]. apply J. exact IH.
    + destruct b; [exact Logic.I|]. unfold incompatible. cbn [is_invalid_index]. reflexivity.
Qed.

Section Sound.
Variable e : env.
Variable args : list value.
Variable frags : list builder.
Hypothesis He : proper_env e.
Let fc := mkFrame args frags.

Definition told (R : result -> list Z -> list Z -> store -> Prop) (X : fstate) (r : outcome string) (X' : fstate) : Prop :=
  match r with
  | ROk s => exists ua uf, R (Gives s) ua uf (fs_st X') /\ fs_ua X' = mark_all ua (fs_ua X) /\ fs_uf X' = mark_all uf (fs_uf X)
  | RErr er => is_invalid_index er = true -> exists ua uf, R Lacks ua uf (fs_st X') /\ fs_ua X' = mark_all ua (fs_ua X) /\ fs_uf X' = mark_all uf (fs_uf X)
  | RPanic er => is_invalid_index er = false
  | RFuel => True
  end.

Section Rc.
Variable n : nat.
Variable rc : env -> frame -> list expr -> fstate -> outcome string * fstate.
Variable jf : nat.
Hypothesis Hrc : forall i es X r X', rc e fc (set_index i es) X = (r, X') ->
  told (steps_all e args frags (map (at_round i) (norm (map strip es))) (fs_st X)) X r X'.

Lemma loop_sound : forall es sep from to k i acc X o X', join_loop rc k e fc es sep from to i acc X = (o, X') ->
  match o with
  | ROk s => exists ss ua uf, rounds e args frags (norm (map strip es)) from to i (fs_st X) (Some ss) ua uf (fs_st X') /\
      s = acc_join sep acc ss /\ fs_ua X' = mark_all ua (fs_ua X) /\ fs_uf X' = mark_all uf (fs_uf X)
  | RErr er => is_invalid_index er = true -> exists ua uf, rounds e args frags (norm (map strip es)) from to i (fs_st X) None ua uf (fs_st X') /\
      fs_ua X' = mark_all ua (fs_ua X) /\ fs_uf X' = mark_all uf (fs_uf X)
  | RPanic er => is_invalid_index er = false
  | RFuel => True
  end.
Proof.
  intros es sep from to. induction k as [|k IH]; intros i acc X o X' H; cbn [join_loop] in H; [injection H as <- <-; exact Logic.I|].
  destruct (rc e fc (set_index i es) X) as [r X1] eqn:Er. apply Hrc in Er. destruct r as [s|er|er|]; cbn [told] in Er.
  - destruct Er as (ua & uf & S1 & A1 & F1). set (acc' := if is_empty s then acc else if is_empty acc then s else acc ++ sep ++ s) in *.
    destruct ((0 <? to)%Z && (to <=? i)%Z) eqn:Et.
    + apply andb_prop in Et as [T1 T2]. apply Z.ltb_lt in T1. apply Z.leb_le in T2. injection H as <- <-.
      exists [s], ua, uf. split; [apply rd_last; assumption|]. split; [reflexivity|]. auto.
    + assert (T : ~ (0 < to <= i)%Z) by (intros [T1 T2]; apply Z.ltb_lt in T1; apply Z.leb_le in T2; rewrite T1, T2 in Et; discriminate Et).
      apply IH in H. destruct o as [t|er|er|]; try exact H.
      * destruct H as (ss & ua2 & uf2 & R & -> & A2 & F2). exists (s :: ss), (ua ++ ua2)%list, (uf ++ uf2)%list.
        split; [exact (rd_more e args frags _ from to i _ s ua uf _ (Some ss) ua2 uf2 _ T S1 R)|]. split; [reflexivity|].
        rewrite !mark_all_app, <- A1, <- F1. auto.
      * intros Hi. destruct (H Hi) as (ua2 & uf2 & R & A2 & F2). exists (ua ++ ua2)%list, (uf ++ uf2)%list.
        split; [exact (rd_more e args frags _ from to i _ s ua uf _ None ua2 uf2 _ T S1 R)|]. rewrite !mark_all_app, <- A1, <- F1. auto.
  - destruct (is_invalid_index er) eqn:Ei; [|injection H as <- <-; intros K; congruence].
    destruct (Er eq_refl) as (ua & uf & S1 & A1 & F1).
    destruct ((0 <? from)%Z && (i =? from)%Z || (0 <? to)%Z && (i <=? to)%Z) eqn:Eb; injection H as <- <-.
    + intros _. exists ua, uf. split; [|auto]. apply rd_lacks; [lia|exact S1].
    + exists [], ua, uf. split; [apply rd_end; [lia|lia|exact S1]|]. split; [reflexivity|auto].
  - injection H as <- <-. exact Er.
  - injection H as <- <-. exact Logic.I.
Qed.

Lemma expr_sound : forall x X r X', eval_expr (build n) rc jf e fc (unstrip x) X = (r, X') ->
  told (steps e args frags x (fs_st X)) X r X'.
Proof.
  intros x X r X' H. destruct x as [t|sty i|nm l|nm]; cbn [unstrip eval_expr] in H.
  - injection H as <- <-. exists [], []. split; [constructor|auto].
  - change (fr_args fc) with args in H. destruct (nth1 args i) as [v|] eqn:Ev.
    + unfold func_arg in H. change (fr_args fc) with args in H. rewrite Ev in H. destruct (commit v (fs_st X)) as [o st'] eqn:Ec. injection H as <- <-.
      destruct o as [s|er|er|]; cbn [told fs_st fs_ua fs_uf].
      * exists [i], []. split; [eapply st_bind; eassumption|]. split; reflexivity.
      * intros K. rewrite (commit_panic v (fs_st X) er st' (or_introl Ec)) in K. discriminate K.
      * exact (commit_panic v (fs_st X) er st' (or_intror Ec)).
      * exact Logic.I.
    + injection H as <- <-. intros K. discriminate K.
  - unfold eval_function in H. destruct (lookup_fn e nm) as [f|] eqn:El; [|injection H as <- <-; intros K; discriminate K].
    pose proof (He nm f El) as Hp. destruct (suits_dec f l Hp) as [Su|Su].
    2: { destruct (call_misfit (build n) rc jf e fc nm f l X Hp Su) as (o & er & E & O & Ei). rewrite E in H. injection H as <- <-.
         destruct O as [->| ->]; cbn [told]; [intros K; congruence|exact Ei]. }
    rewrite call_suits in H by assumption.
    (* what the function does becomes what the call does *)
    assert (Safe : forall c, call_fn (build n) rc jf e fc f l X = c ->
      match c with
      | (ROk s, X1) => exists ua uf, steps e args frags (ACall nm l) (fs_st X) (Gives s) ua uf (fs_st X1) /\ fs_ua X1 = mark_all ua (fs_ua X) /\ fs_uf X1 = mark_all uf (fs_uf X)
      | (RErr er, X1) | (RPanic er, X1) => is_invalid_index er = true -> exists ua uf, steps e args frags (ACall nm l) (fs_st X) Lacks ua uf (fs_st X1) /\ fs_ua X1 = mark_all ua (fs_ua X) /\ fs_uf X1 = mark_all uf (fs_uf X)
      | (RFuel, _) => True
      end).
    { intros c Hc. destruct f as [| | |sg body]; cbn [call_fn] in Hc.
      - (* arg *) apply suits_num in Su as (a & -> & N); [|auto]. unfold func_arg in Hc. change (fr_args fc) with args in Hc.
        destruct (nth1 args (lit_int a)) as [v|] eqn:Ev.
        + destruct (commit v (fs_st X)) as [o st'] eqn:Ec. subst c. destruct o as [s|er|er|]; cbn [fs_st fs_ua fs_uf].
          * exists [lit_int a], []. split; [eapply st_arg; eassumption|]. split; reflexivity.
          * intros K. rewrite (commit_panic v (fs_st X) er st' (or_introl Ec)) in K. discriminate K.
          * intros K. rewrite (commit_panic v (fs_st X) er st' (or_intror Ec)) in K. discriminate K.
          * exact Logic.I.
        + subst c. intros _. exists [], []. split; [eapply st_no_arg; eassumption|split; reflexivity].
      - (* fragment *) apply suits_num in Su as (a & -> & N); [|auto]. unfold func_fragment in Hc. change (fr_frags fc) with frags in Hc.
        destruct (nth1 frags (lit_int a)) as [b|] eqn:Eb.
        + destruct (build n e b (fs_st X)) as [o st'] eqn:Ebd. subst c. assert (Fi : o <> RFuel -> finishes e b (fs_st X) o st') by (intros Q; exists n; auto).
          destruct o as [s|er|er|]; cbn [fs_st fs_ua fs_uf].
          * exists [], [lit_int a]. split; [eapply st_frag; try eassumption; apply Fi; discriminate|]. split; reflexivity.
          * intros Q. exists [], [lit_int a]. split; [|split; reflexivity]. eapply st_frag_lacks; try eassumption; [apply Fi; discriminate|].
            exists er. split; [auto|]. apply index_iff. exact Q.
          * intros Q. exists [], [lit_int a]. split; [|split; reflexivity]. eapply st_frag_lacks; try eassumption; [apply Fi; discriminate|].
            exists er. split; [auto|]. apply index_iff. exact Q.
          * exact Logic.I.
        + subst c. intros _. exists [], []. split; [eapply st_no_frag; eassumption|split; reflexivity].
      - (* join *) apply suits_join in Su as (tmpl & sep & nums & -> & Hn). 
        set (G := fun from to => if (0 <? to)%Z && (to <? from)%Z then (RErr (bad_range from to), X) else
          match parse tmpl with
          | PErr o m => (RErr (bad_template tmpl o m), X)
          | PPanic => (RPanic index_range, X)
          | PFuel => (RFuel, X)
          | POk es =>
            let '(r, st') := join_prep (build n) e es (fs_st X) in
            let S' := mkFS st' (fs_ua X) (fs_uf X) in
            match r with
            | ROk O => (RErr (no_function tmpl), S')
            | ROk _ => join_loop rc jf e fc es sep from to (if (from <=? 0)%Z then 1%Z else from) "" S'
            | RErr er => (RErr er, S')
            | RPanic er => (RPanic er, S')
            | RFuel => (RFuel, S')
            end
          end) in *.
        assert (K : forall from to, (limits (map lit_int nums) from to \/ (0 < to < from)%Z) -> forall c, G from to = c ->
          match c with
          | (ROk s, X1) => exists ua uf, steps e args frags (ACall nm (LStr tmpl :: LStr sep :: nums)) (fs_st X) (Gives s) ua uf (fs_st X1) /\ fs_ua X1 = mark_all ua (fs_ua X) /\ fs_uf X1 = mark_all uf (fs_uf X)
          | (RErr er, X1) | (RPanic er, X1) => is_invalid_index er = true -> exists ua uf, steps e args frags (ACall nm (LStr tmpl :: LStr sep :: nums)) (fs_st X) Lacks ua uf (fs_st X1) /\ fs_ua X1 = mark_all ua (fs_ua X) /\ fs_uf X1 = mark_all uf (fs_uf X)
          | (RFuel, _) => True
          end).
        { intros from to L c' Hc'. unfold G in Hc'. destruct ((0 <? to)%Z && (to <? from)%Z) eqn:Eb; [subst c'; intros Q; discriminate Q|].
          destruct L as [L|L]; [|lia]. destruct (parse tmpl) as [es|o m| |] eqn:Ep; [|subst c'; intros Q; discriminate Q|subst c'; intros Q; discriminate Q|subst c'; exact Logic.I].
          rewrite join_prep_names in Hc'. pose proof (prep_sound n e (fnames (norm (map strip es))) (fs_st X)) as P.
          destruct (prep_names (build n) e (fnames (norm (map strip es))) (fs_st X)) as [[k|er|er|] st1].
          - destruct P as [Pk P]. rewrite functions_names in Pk, P. cbn zeta in Hc'. destruct k as [|k]; [subst c'; intros Q; discriminate Q|].
            assert (Pa : parsed tmpl = Some (norm (map strip es))) by (unfold parsed; rewrite Ep; reflexivity).
            assert (Ne : functions_of (norm (map strip es)) <> []) by (intros Q; rewrite Q in Pk; discriminate Pk).
            replace (if (from <=? 0)%Z then 1%Z else from) with (Z.max 1 from) in Hc' by (destruct (Z.leb_spec from 0); lia).
            destruct (join_loop rc jf e fc es sep from to (Z.max 1 from) "" (mkFS st1 (fs_ua X) (fs_uf X))) as [o X1] eqn:Ej.
            apply loop_sound in Ej. cbn [fs_st fs_ua fs_uf] in Ej. subst c'. destruct o as [s|er|er|].
            + destruct Ej as (ss & ua & uf & R & -> & A1 & F1). exists ua, uf. split; [|auto]. rewrite acc_join_ok. eapply st_join; eassumption.
            + intros Q. destruct (Ej Q) as (ua & uf & R & A1 & F1). exists ua, uf. split; [|auto]. eapply st_join_lacks; eassumption.
            + intros Q. congruence.
            + exact Logic.I.
          - subst c'. intros Q. congruence.
          - destruct P.
          - subst c'. exact Logic.I. }
        unfold func_join in Hc. fold G in Hc. clear H. unfold limits in K. destruct (map lit_int nums) as [|a [|b [|d idx]]].
        + exact (K 0%Z 0%Z (or_introl (conj eq_refl eq_refl)) c Hc).
        + exact (K a 0%Z (or_introl (conj eq_refl eq_refl)) c Hc).
        + apply (K a b); [|exact Hc]. destruct (Z_lt_dec 0 b) as [Q1|Q1]; [|left; split; [reflexivity|split; [reflexivity|lia]]].
          destruct (Z_lt_dec b a) as [Q2|Q2]; [right; lia|left; split; [reflexivity|split; [reflexivity|lia]]].
        + subst c. intros Q. discriminate Q.
      - (* custom *) destruct (run_prog (build n) e (body l) (fs_st X)) as [o st'] eqn:Er. subst c.
        assert (Re : o <> RFuel -> returns e (body l) (fs_st X) o st') by (intros Q; exists n; auto).
        assert (Fu : norm_outs (fs_outs sg) o <> RFuel -> o <> RFuel).
        { intros Q ->. apply Q. destruct (fs_outs sg) as [|t [|u v]]; reflexivity. }
        destruct (norm_outs (fs_outs sg) o) as [s|er|er|] eqn:En; cbn [fs_st fs_ua fs_uf].
        + exists [], []. split; [|split; reflexivity]. eapply st_custom; try eassumption. apply Re, Fu. discriminate.
        + intros Q. exists [], []. split; [|split; reflexivity]. eapply st_custom_lacks; try eassumption; [apply Re, Fu; discriminate|].
          rewrite En. exists er. split; [auto|]. apply index_iff. exact Q.
        + intros Q. exists [], []. split; [|split; reflexivity]. eapply st_custom_lacks; try eassumption; [apply Re, Fu; discriminate|].
          rewrite En. exists er. split; [auto|]. apply index_iff. exact Q.
        + exact Logic.I. }
    destruct (call_fn (build n) rc jf e fc f l X) as [o X1] eqn:Ec. specialize (Safe _ eq_refl). cbn [safe] in H.
    destruct o as [s|er|er|]; injection H as <- <-; cbn [told]; try exact Safe; cbn [is_invalid_index]; exact Safe.
  - injection H as <- <-. intros K. discriminate K.
Qed.

Lemma clause_sound : forall l X r X', clause (build n) rc jf e fc (map unstrip l) X = (r, X') ->
  told (steps_all e args frags l (fs_st X)) X r X'.
Proof.
  induction l as [|x l IH]; intros X r X' H; cbn [map clause] in H.
  - injection H as <- <-. exists [], []. split; [constructor|split; reflexivity].
  - destruct (eval_expr (build n) rc jf e fc (unstrip x) X) as [o X1] eqn:Ex. apply expr_sound in Ex. destruct o as [s|er|er|]; cbn [told] in Ex.
    + destruct Ex as (ua & uf & S1 & A1 & F1). destruct (clause (build n) rc jf e fc (map unstrip l) X1) as [o2 X2] eqn:E2. apply IH in E2.
      destruct o2 as [s2|er|er|]; injection H as <- <-; cbn [told] in *; try exact E2.
      * destruct E2 as (ua2 & uf2 & S2 & A2 & F2). exists (ua ++ ua2)%list, (uf ++ uf2)%list. split; [eapply sa_cons; eassumption|].
        rewrite !mark_all_app, <- A1, <- F1. auto.
      * intros Q. destruct (E2 Q) as (ua2 & uf2 & S2 & A2 & F2). exists (ua ++ ua2)%list, (uf ++ uf2)%list. split; [eapply sa_later; eassumption|].
        rewrite !mark_all_app, <- A1, <- F1. auto.
    + injection H as <- <-. cbn [told]. intros Q. destruct (Ex Q) as (ua & uf & S1 & A1). exists ua, uf. split; [apply sa_here; exact S1|exact A1].
    + injection H as <- <-. exact Ex.
    + injection H as <- <-. exact Logic.I.
Qed.
End Rc.

Lemma clause_n_sound : forall n m l X r X', clause_n m (build n) e fc (map unstrip l) X = (r, X') ->
  told (steps_all e args frags l (fs_st X)) X r X'.
Proof.
  intros n. induction m as [|m IH]; intros l X r X' H; cbn [clause_n] in H; [injection H as <- <-; exact Logic.I|].
  eapply clause_sound; [|exact H]. intros i es Y r2 Y' K. rewrite join_item in K. rewrite <- at_round_aset. apply IH. exact K.
Qed.
End Sound.

(* ------------------------------------------------------------------ *)
(** * The steps are what is computed *)

Lemma finishes_at : forall e b st o st', finishes e b st o st' -> exists N, forall n, N <= n -> build n e b st = (o, st').
Proof.
  intros e b st o st' (N & E & F). exists N. intros n L. destruct (mono_build N n e b st L) as [K|K]; [rewrite E in K; cbn in K; congruence|congruence].
Qed.
Lemma returns_at : forall e p st o st', returns e p st o st' -> exists N, forall n, N <= n -> run_prog (build n) e p st = (o, st').
Proof.
  intros e p st o st' (N & E & F). exists N. intros n L.
  destruct (mono_prog (build N) (build n) (fun e b st => mono_build N n e b st L) p e st) as [K|K]; [rewrite E in K; cbn in K; congruence|congruence].
Qed.
Lemma accepts_at : forall e l st st', accepts e l st st' -> exists N, forall n, N <= n -> prep_names (build n) e l st = (ROk (List.length l), st').
Proof.
  intros e l st st' H. induction H as [st|nm l st st' L H (N & IH)|nm sg body l st o st1 st' L J R W H (N & IH)].
  - exists 0. reflexivity.
  - exists N. intros n Hn. cbn [prep_names]. destruct L as [-> | ->]; cbn [join_compat join_sig sig_of fs_outs fs_ins andb negb];
      unfold join_compat; cbn; rewrite (IH n Hn); reflexivity.
  - apply returns_at in R as (N1 & R). exists (Nat.max N N1). intros n Hn. cbn [prep_names]. rewrite L.
    unfold join_compat. cbn [sig_of]. rewrite (R n) by lia.
    destruct J as [(t & Jo) Ji]. assert (Js : join_sig sg = true) by (unfold join_sig; rewrite Jo; destruct Ji as [-> | ->]; reflexivity).
    rewrite Js, Jo. cbn [negb]. destruct W as (er & O & B). apply index_iff in B.
    destruct O as [-> | ->]; cbn [norm_outs safe fst is_invalid_index]; rewrite B, (IH n) by lia; reflexivity.
Qed.

Scheme steps_mind := Minimality for steps Sort Prop
  with steps_all_mind := Minimality for steps_all Sort Prop
  with rounds_mind := Minimality for rounds Sort Prop.
Combined Scheme steps_ind3 from steps_mind, steps_all_mind, rounds_mind.

Definition meets (r : result) (o : outcome string) : Prop :=
  match r with Gives s => o = ROk s | Lacks => exists er, o = RErr er /\ is_invalid_index er = true end.

Section Complete.
Variable e : env.
Variable args : list value.
Variable frags : list builder.
Hypothesis He : proper_env e.
Let fc := mkFrame args frags.
Definition moved (X : fstate) (st' : store) (ua uf : list Z) : fstate := mkFS st' (mark_all ua (fs_ua X)) (mark_all uf (fs_uf X)).

Lemma call_meets : forall rb rc jf nm f l X r o X', lookup_fn e nm = Some f -> suits f l ->
  call_fn rb rc jf e fc f l X = (o, X') ->
  (match r with Gives s => o = ROk s | Lacks => exists er, (o = RErr er \/ o = RPanic er) /\ by_index er end) ->
  exists o', meets r o' /\ eval_expr rb rc jf e fc (unstrip (ACall nm l)) X = (o', X').
Proof.
  intros rb rc jf nm f l X r o X' L Su C M. cbn [unstrip eval_expr]. unfold eval_function. rewrite L, call_suits by (try exact Su; exact (He nm f L)).
  rewrite C. destruct r as [s|].
  - subst o. exists (ROk s). split; reflexivity.
  - destruct M as (er & O & B). apply index_iff in B. destruct O as [-> | ->]; (eexists; split; [|reflexivity]; eexists; split; [reflexivity|exact B]).
Qed.
Lemma moved_none : forall X, mkFS (fs_st X) (fs_ua X) (fs_uf X) = X.
Proof. intros []. reflexivity. Qed.
Lemma moved_moved : forall X st1 ua uf st2 ua2 uf2, moved (moved X st1 ua uf) st2 ua2 uf2 = moved X st2 (ua ++ ua2) (uf ++ uf2).
Proof. intros. unfold moved. cbn [fs_st fs_ua fs_uf]. rewrite !mark_all_app. reflexivity. Qed.

Lemma join_at : forall n m jf tmpl sep nums tl from to st1 X es, limits (map lit_int nums) from to -> parse tmpl = POk es -> norm (map strip es) = tl ->
  functions_of tl <> [] -> prep_names (build n) e (functions_of tl) (fs_st X) = (ROk (List.length (functions_of tl)), st1) ->
  func_join (build n) (clause_n m (build n)) jf e fc tmpl sep (map lit_int nums) X =
  join_loop (clause_n m (build n)) jf e fc es sep from to (Z.max 1 from) "" (mkFS st1 (fs_ua X) (fs_uf X)).
Proof.
  intros n m jf tmpl sep nums tl from to st1 X es L Hp Hl Ne Pr. unfold func_join. rewrite Hp, join_prep_names, Hl, functions_names, Pr. cbn zeta.
  destruct (functions_of tl) as [|nm fs]; [destruct Ne; reflexivity|]. cbn [List.length].
  assert (M : forall a, (if (a <=? 0)%Z then 1%Z else a) = Z.max 1 a) by (intros a; destruct (Z.leb_spec a 0); lia).
  unfold limits in L. destruct (map lit_int nums) as [|a [|b [|c idx]]]; try contradiction.
  - destruct L as [-> ->]. reflexivity.
  - destruct L as [-> ->]. cbn [Z.ltb Z.compare andb]. rewrite M. reflexivity.
  - destruct L as (-> & -> & L). replace ((0 <? b)%Z && (b <? a)%Z) with false by lia. rewrite M. reflexivity.
Qed.

Lemma complete :
  (forall x st r ua uf st', steps e args frags x st r ua uf st' -> exists N, forall n m jf, N <= n -> N <= m -> N <= jf -> forall X, fs_st X = st ->
     exists o, meets r o /\ eval_expr (build n) (clause_n m (build n)) jf e fc (unstrip x) X = (o, moved X st' ua uf)) /\
  (forall l st r ua uf st', steps_all e args frags l st r ua uf st' -> exists N, forall n m, N <= n -> N <= m -> forall X, fs_st X = st ->
     exists o, meets r o /\ clause_n m (build n) e fc (map unstrip l) X = (o, moved X st' ua uf)) /\
  (forall tl from to i st r ua uf st', rounds e args frags tl from to i st r ua uf st' -> exists N, forall n m jf, N <= n -> N <= m -> N <= jf ->
     forall es sep acc X, norm (map strip es) = tl -> fs_st X = st ->
     exists o, match r with Some ss => o = ROk (acc_join sep acc ss) | None => exists er, o = RErr er /\ is_invalid_index er = true end /\
       join_loop (clause_n m (build n)) jf e fc es sep from to i acc X = (o, moved X st' ua uf)).
Proof.
  apply steps_ind3.
  - (* text *) intros t st. exists 0. intros n m jf _ _ _ X HX. exists (ROk t). split; [reflexivity|]. subst st. unfold moved. cbn [mark_all fold_left]. rewrite moved_none. reflexivity.
  - (* bind *) intros sty i v st s st' Hv Hc. exists 0. intros n m jf _ _ _ X HX. exists (ROk s). split; [reflexivity|]. cbn [unstrip eval_expr].
    change (fr_args fc) with args. rewrite Hv. unfold func_arg. change (fr_args fc) with args. rewrite Hv, HX, Hc. reflexivity.
  - (* arg *) intros nm a v st s st' L Na Hv Hc. exists 0. intros n m jf _ _ _ X HX. eapply call_meets with (o := ROk s); [exact L|apply suits_num; eauto| |reflexivity].
    cbn [call_fn]. unfold func_arg. change (fr_args fc) with args. rewrite Hv, HX, Hc. reflexivity.
  - (* no arg *) intros nm a st L Na Hv. exists 0. intros n m jf _ _ _ X HX. eapply call_meets with (o := RErr (EInvalidIndex (lit_int a))); [exact L|apply suits_num; eauto| |].
    + cbn [call_fn]. unfold func_arg. change (fr_args fc) with args. rewrite Hv. subst st. unfold moved. cbn [mark_all fold_left]. rewrite moved_none. reflexivity.
    + eexists. split; [left; reflexivity|constructor].
  - (* fragment *) intros nm a b st s st' L Na Hv Hb. apply finishes_at in Hb as (N & Hb). exists N. intros n m jf Hn _ _ X HX.
    eapply call_meets with (o := ROk s); [exact L|apply suits_num; eauto| |reflexivity].
    cbn [call_fn]. unfold func_fragment. change (fr_frags fc) with frags. rewrite Hv, HX, (Hb n Hn). reflexivity.
  - (* no fragment *) intros nm a st L Na Hv. exists 0. intros n m jf _ _ _ X HX. eapply call_meets with (o := RErr (EInvalidIndex (lit_int a))); [exact L|apply suits_num; eauto| |].
    + cbn [call_fn]. unfold func_fragment. change (fr_frags fc) with frags. rewrite Hv. subst st. unfold moved. cbn [mark_all fold_left]. rewrite moved_none. reflexivity.
    + eexists. split; [left; reflexivity|constructor].
  - (* lacking fragment *) intros nm a b st o st' L Na Hv Hb W. apply finishes_at in Hb as (N & Hb). exists N. intros n m jf Hn _ _ X HX.
    eapply call_meets with (o := o); [exact L|apply suits_num; eauto| |exact W].
    cbn [call_fn]. unfold func_fragment. change (fr_frags fc) with frags. rewrite Hv, HX, (Hb n Hn). reflexivity.
  - (* custom *) intros nm sg body l st o s st' L Su Re No. apply returns_at in Re as (N & Re). exists N. intros n m jf Hn _ _ X HX.
    eapply call_meets with (o := ROk s); [exact L|exact Su| |reflexivity]. cbn [call_fn]. rewrite HX, (Re n Hn), No. reflexivity.
  - (* lacking custom *) intros nm sg body l st o st' L Su Re W. apply returns_at in Re as (N & Re). exists N. intros n m jf Hn _ _ X HX.
    eapply call_meets with (o := norm_outs (fs_outs sg) o); [exact L|exact Su| |exact W]. cbn [call_fn]. rewrite HX, (Re n Hn). reflexivity.
  - (* join *) intros nm tmpl sep nums tl from to st st1 ss ua uf st' L Hn Li Pa Ne Ac _ (N & IH). apply accepts_at in Ac as (N1 & Ac).
    apply parsed_ok in Pa as (es & Hp & Hl). exists (Nat.max N N1). intros n m jf Ln Lm Lj X HX. subst st.
    destruct (IH n m jf ltac:(lia) ltac:(lia) ltac:(lia) es sep "" (mkFS st1 (fs_ua X) (fs_uf X)) Hl eq_refl) as (o & -> & E).
    eapply call_meets with (o := ROk (str_join sep (nonempty_items ss))); [exact L|apply suits_join; eauto| |reflexivity].
    cbn [call_fn]. rewrite (join_at n m jf tmpl sep nums tl from to st1 X es Li Hp Hl Ne (Ac n ltac:(lia))), E, acc_join_ok. reflexivity.
  - (* lacking join *) intros nm tmpl sep nums tl from to st st1 ua uf st' L Hn Li Pa Ne Ac _ (N & IH). apply accepts_at in Ac as (N1 & Ac).
    apply parsed_ok in Pa as (es & Hp & Hl). exists (Nat.max N N1). intros n m jf Ln Lm Lj X HX. subst st.
    destruct (IH n m jf ltac:(lia) ltac:(lia) ltac:(lia) es sep "" (mkFS st1 (fs_ua X) (fs_uf X)) Hl eq_refl) as (o & (er & -> & Ei) & E).
    eapply call_meets with (o := RErr er); [exact L|apply suits_join; eauto| |exists er; split; [auto|apply index_iff; exact Ei]].
    cbn [call_fn]. rewrite (join_at n m jf tmpl sep nums tl from to st1 X es Li Hp Hl Ne (Ac n ltac:(lia))), E. reflexivity.
  - (* nothing *) intros st. exists 1. intros n m _ Hm X HX. destruct m as [|m]; [lia|]. exists (ROk ""). split; [reflexivity|]. subst st. unfold moved. cbn [mark_all fold_left]. rewrite moved_none. reflexivity.
  - (* one more *) intros x l st s ua uf st1 s2 ua2 uf2 st2 _ (N1 & H1) _ (N2 & H2). exists (S (Nat.max N1 N2)). intros n m Hn Hm X HX. destruct m as [|m]; [lia|].
    destruct (H1 n m m ltac:(lia) ltac:(lia) ltac:(lia) X HX) as (o & -> & E1). rewrite clause_n_S. cbn [map]. rewrite clause_cons, E1. cbn [andthen].
    destruct (H2 n (S m) ltac:(lia) ltac:(lia) (moved X st1 ua uf) eq_refl) as (o & -> & E2). rewrite clause_n_S in E2. rewrite E2.
    exists (ROk (s ++ s2)). split; [reflexivity|]. rewrite moved_moved. reflexivity.
  - (* lacking here *) intros x l st ua uf st1 _ (N1 & H1). exists (S N1). intros n m Hn Hm X HX. destruct m as [|m]; [lia|].
    destruct (H1 n m m ltac:(lia) ltac:(lia) ltac:(lia) X HX) as (o & (er & -> & Ei) & E1). rewrite clause_n_S. cbn [map]. rewrite clause_cons, E1. cbn [andthen].
    exists (RErr er). split; [exists er; auto|reflexivity].
  - (* lacking later *) intros x l st s ua uf st1 ua2 uf2 st2 _ (N1 & H1) _ (N2 & H2). exists (S (Nat.max N1 N2)). intros n m Hn Hm X HX. destruct m as [|m]; [lia|].
    destruct (H1 n m m ltac:(lia) ltac:(lia) ltac:(lia) X HX) as (o & -> & E1). rewrite clause_n_S. cbn [map]. rewrite clause_cons, E1. cbn [andthen].
    destruct (H2 n (S m) ltac:(lia) ltac:(lia) (moved X st1 ua uf) eq_refl) as (o & (er & -> & Ei) & E2). rewrite clause_n_S in E2. rewrite E2.
    exists (RErr er). split; [exists er; auto|]. rewrite moved_moved. reflexivity.
  - (* last round *) intros tl from to i st s ua uf st' T1 T2 _ (N & H). exists (S N). intros n m jf Hn Hm Hj es sep acc X Hl HX. destruct jf as [|jf]; [lia|]. cbn [join_loop].
    destruct (H n m ltac:(lia) ltac:(lia) X HX) as (o & -> & E). rewrite join_item, Hl, at_round_aset, E. replace ((0 <? to)%Z && (to <=? i)%Z) with true by lia.
    eexists. split; [|reflexivity]. reflexivity.
  - (* more rounds *) intros tl from to i st s ua uf st1 r ua2 uf2 st2 T _ (N1 & H1) _ (N2 & H2). exists (S (Nat.max N1 N2)). intros n m jf Hn Hm Hj es sep acc X Hl HX.
    destruct jf as [|jf]; [lia|]. cbn [join_loop]. destruct (H1 n m ltac:(lia) ltac:(lia) X HX) as (o & -> & E). rewrite join_item, Hl, at_round_aset, E.
    replace ((0 <? to)%Z && (to <=? i)%Z) with false by lia.
    destruct (H2 n m jf ltac:(lia) ltac:(lia) ltac:(lia) es sep (if is_empty s then acc else if is_empty acc then s else acc ++ sep ++ s) (moved X st1 ua uf) Hl eq_refl) as (o & M & E2).
    cbn zeta. rewrite E2, moved_moved. exists o. split; [|reflexivity]. destruct r as [ss|]; exact M.
  - (* the end *) intros tl from to i st ua uf st' T1 T2 _ (N & H). exists (S N). intros n m jf Hn Hm Hj es sep acc X Hl HX. destruct jf as [|jf]; [lia|]. cbn [join_loop].
    destruct (H n m ltac:(lia) ltac:(lia) X HX) as (o & (er & -> & Ei) & E). rewrite join_item, Hl, at_round_aset, E, Ei.
    replace ((0 <? from)%Z && (i =? from)%Z || (0 <? to)%Z && (i <=? to)%Z) with false by lia. eexists. split; [|reflexivity]. reflexivity.
  - (* lacking *) intros tl from to i st ua uf st' T _ (N & H). exists (S N). intros n m jf Hn Hm Hj es sep acc X Hl HX. destruct jf as [|jf]; [lia|]. cbn [join_loop].
    destruct (H n m ltac:(lia) ltac:(lia) X HX) as (o & (er & -> & Ei) & E). rewrite join_item, Hl, at_round_aset, E, Ei.
    replace ((0 <? from)%Z && (i =? from)%Z || (0 <? to)%Z && (i <=? to)%Z) with true by lia. eexists. split; [|reflexivity]. exists er. auto.
Qed.

(** Only items that are there are used. *)
Lemma used_inside :
  (forall x st r ua uf st', steps e args frags x st r ua uf st' -> (forall k, In k ua -> 1 <= k <= Z.of_nat (List.length args))%Z /\ (forall k, In k uf -> 1 <= k <= Z.of_nat (List.length frags))%Z) /\
  (forall l st r ua uf st', steps_all e args frags l st r ua uf st' -> (forall k, In k ua -> 1 <= k <= Z.of_nat (List.length args))%Z /\ (forall k, In k uf -> 1 <= k <= Z.of_nat (List.length frags))%Z) /\
  (forall tl from to i st r ua uf st', rounds e args frags tl from to i st r ua uf st' -> (forall k, In k ua -> 1 <= k <= Z.of_nat (List.length args))%Z /\ (forall k, In k uf -> 1 <= k <= Z.of_nat (List.length frags))%Z).
Proof.
  assert (N1 : forall A (l : list A) i x, nth1 l i = Some x -> (1 <= i <= Z.of_nat (List.length l))%Z).
  { intros A l i x H. unfold nth1 in H. destruct ((1 <=? i)%Z && (i <=? Z.of_nat (List.length l))%Z) eqn:E; [lia|discriminate]. }
  assert (S1 : forall A (l : list A) i x, nth1 l i = Some x -> forall k, In k [i] -> (1 <= k <= Z.of_nat (List.length l))%Z).
  { intros A l i x H k [<-|[]]. eapply N1. exact H. }
  assert (Ap : forall a b (P : Z -> Prop), (forall k, In k a -> P k) -> (forall k, In k b -> P k) -> forall k, In k (a ++ b)%list -> P k).
  { intros a b P Ha Hb k Hk. apply in_app_or in Hk as [Hk|Hk]; auto. }
  apply steps_ind3; intros; split; intros; cbn [In] in *;
    try contradiction;
    repeat match goal with H : _ /\ _ |- _ => destruct H end;
    try match goal with H : _ \/ False |- _ => destruct H as [<-|[]]; eapply N1; eassumption end;
    try match goal with H : In _ (_ ++ _)%list |- _ => apply in_app_or in H as [H|H]; auto end; auto.
Qed.
End Complete.

(* ------------------------------------------------------------------ *)
(** * Fragments *)

Theorem fragment_steps : forall e raw args frags p s st t st', proper_env e ->
  (finishes e (BFrag (Frag raw args frags p s)) st (ROk t) st' <->
   exists l body ua uf, parsed raw = Some l /\ steps_all e args frags l st (Gives body) ua uf st' /\
     covers ua args /\ covers uf frags /\ t = wrapped p (trim_space body) s).
Proof.
  intros e raw args frags p s st t st' He.
  assert (W : forall body, (if is_empty (trim_space body) then ROk "" else ROk ((if is_empty p then "" else p ++ " ") ++ trim_space body ++ (if is_empty s then "" else " " ++ s))) = ROk (wrapped p (trim_space body) s)).
  { intros body. unfold wrapped. destruct (is_empty (trim_space body)); reflexivity. }
  assert (U : forall l body ua uf st', steps_all e args frags l st (Gives body) ua uf st' ->
    (all_used (mark_all ua (map (fun _ => false) args)) && all_used (mark_all uf (map (fun _ => false) frags)) = true <-> covers ua args /\ covers uf frags)).
  { intros l body ua uf st2 H. destruct (proj1 (proj2 (used_inside e args frags)) _ _ _ _ _ _ H) as [B1 B2].
    rewrite andb_true_iff, !used_flags, (marks_all ua _ B1), (marks_all uf _ B2). reflexivity. }
  split.
  - intros (n & E & _). destruct n as [|n]; [discriminate E|]. cbn [build] in E. unfold build_frag in E. cbn [f_raw f_args f_frags f_prefix f_suffix] in E.
    destruct (parse raw) as [es|o m| |] eqn:Ep; try discriminate E.
    destruct (clause_n n (build n) e (mkFrame args frags) es _) as [r X'] eqn:Ec. rewrite <- clause_n_parsed in Ec. apply (clause_n_sound e args frags He) in Ec.
    destruct r as [body|er|er|]; try discriminate E. cbn [told fs_st fs_ua fs_uf] in Ec. destruct Ec as (ua & uf & S1 & A1 & F1).
    destruct (all_used (fs_ua X') && all_used (fs_uf X')) eqn:Eu; [|discriminate E]. rewrite A1, F1 in Eu.
    cbn zeta in E. exists (norm (map strip es)), body, ua, uf. split; [unfold parsed; rewrite Ep; reflexivity|].
    assert (E' : (ROk t, st') = (ROk (wrapped p (trim_space body) s), fs_st X')) by (rewrite <- W, <- E; destruct (is_empty (trim_space body)); reflexivity).
    injection E' as -> ->. split; [exact S1|]. apply (U _ _ _ _ _ S1) in Eu as [Eu1 Eu2]. auto.
  - intros (l & body & ua & uf & Pa & S1 & C1 & C2 & ->). destruct (proj1 (proj2 (complete e args frags He)) _ _ _ _ _ _ S1) as (N & H).
    exists (S N). split; [|discriminate]. cbn [build]. rewrite (build_parsed N (build N) e (Frag raw args frags p s) st l Pa). cbn [f_raw f_args f_frags f_prefix f_suffix].
    destruct (H N N (le_n N) (le_n N) (mkFS st (map (fun _ => false) args) (map (fun _ => false) frags)) eq_refl) as (o & -> & E). rewrite E.
    unfold moved. cbn [fs_st fs_ua fs_uf]. rewrite (proj2 (U _ _ _ _ _ S1) (conj C1 C2)). cbn zeta. rewrite <- W. destruct (is_empty (trim_space body)); reflexivity.
Qed.

Theorem fragment_lacks : forall e raw args frags p s st st', proper_env e ->
  ((exists o, finishes e (BFrag (Frag raw args frags p s)) st o st' /\ wanting o) <->
   exists l ua uf, parsed raw = Some l /\ steps_all e args frags l st Lacks ua uf st').
Proof.
  intros e raw args frags p s st st' He. split.
  - intros (o & (n & E & _) & (er & O & B)). apply index_iff in B. destruct n as [|n]; [injection E as <- _; destruct O as [O|O]; discriminate O|].
    cbn [build] in E. unfold build_frag in E. cbn [f_raw f_args f_frags f_prefix f_suffix] in E.
    destruct (parse raw) as [es|k m| |] eqn:Ep; try (injection E as <- _; destruct O as [O|O]; try discriminate O; injection O as <-; discriminate B).
    destruct (clause_n n (build n) e (mkFrame args frags) es _) as [r X'] eqn:Ec. rewrite <- clause_n_parsed in Ec. apply (clause_n_sound e args frags He) in Ec.
    destruct r as [body|er2|er2|]; cbn [told fs_st fs_ua fs_uf] in Ec.
    + cbn zeta in E. destruct (all_used (fs_ua X') && all_used (fs_uf X')) eqn:Eu; [destruct (is_empty (trim_space body)); injection E as <- _; destruct O as [O|O]; discriminate O|].
      injection E as <- _. destruct O as [O|O]; [|discriminate O]. injection O as <-. unfold in_frag, unused in B. 
      destruct (all_used (fs_ua X')); cbn in B; discriminate B.
    + injection E as <- <-. destruct O as [O|O]; [|discriminate O]. injection O as <-.
      destruct (Ec B) as (ua & uf & S1 & _). exists (norm (map strip es)), ua, uf. split; [unfold parsed; rewrite Ep; reflexivity|exact S1].
    + injection E as <- _. destruct O as [O|O]; [discriminate O|]. injection O as <-. congruence.
    + injection E as <- _. destruct O as [O|O]; discriminate O.
  - intros (l & ua & uf & Pa & S1). destruct (proj1 (proj2 (complete e args frags He)) _ _ _ _ _ _ S1) as (N & H).
    destruct (H N N (le_n N) (le_n N) (mkFS st (map (fun _ => false) args) (map (fun _ => false) frags)) eq_refl) as (o & (er & -> & B) & E).
    exists (RErr (in_frag (Frag raw args frags p s) er)). split.
    + exists (S N). split; [|discriminate]. cbn [build]. rewrite (build_parsed N (build N) e (Frag raw args frags p s) st l Pa). cbn [f_raw f_args f_frags f_prefix f_suffix].
      rewrite E. reflexivity.
    + exists (in_frag (Frag raw args frags p s) er). split; [auto|]. apply index_iff. exact B.
Qed.

(** What a template comes to is determined. *)
Theorem steps_determined : forall e args frags l st r ua uf st1 r2 ua2 uf2 st2, proper_env e ->
  steps_all e args frags l st r ua uf st1 -> steps_all e args frags l st r2 ua2 uf2 st2 -> r = r2 /\ st1 = st2.
Proof.
  intros e args frags l st r ua uf st1 r2 ua2 uf2 st2 He H1 H2.
  destruct (proj1 (proj2 (complete e args frags He)) _ _ _ _ _ _ H1) as (N1 & K1).
  destruct (proj1 (proj2 (complete e args frags He)) _ _ _ _ _ _ H2) as (N2 & K2).
  destruct (K1 (N1 + N2) (N1 + N2) ltac:(lia) ltac:(lia) (mkFS st [] []) eq_refl) as (o1 & M1 & E1).
  destruct (K2 (N1 + N2) (N1 + N2) ltac:(lia) ltac:(lia) (mkFS st [] []) eq_refl) as (o2 & M2 & E2).
  rewrite E1 in E2. unfold moved in E2. injection E2 as -> -> _ _. split; [|reflexivity].
  destruct r as [s1|], r2 as [s2|]; cbn [meets] in M1, M2; try reflexivity.
  - congruence.
  - destruct M2 as (er & M2 & _). congruence.
  - destruct M1 as (er & M1 & _). congruence.
Qed.
