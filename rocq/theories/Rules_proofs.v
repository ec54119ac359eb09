(** Facts about the rules of the whole library. *)
From Coq Require Import Strings.String Strings.Ascii NArith ZArith List Bool Lia.
From Verif Require Import GoStr GoNum Syntax Value Util Model Sqlf Sqlb Spec_syntax RefSem Spec_build Spec_eval Spec_base Spec_query
  Fuel_proofs Eval_proofs Use_proofs Join_proofs Base_proofs Again_proofs Deps_proofs Query_proofs Spec_keep Keep_proofs Spec_steps Steps_proofs Spec_rules.
Import ListNotations.
Open Scope string_scope.

Lemma heap_evolves : forall st st', evolves st st' -> heap_ok st -> heap_ok st'.
Proof.
  intros st st' [_ Ev] Ok id. destruct (Ok id) as (Ht & Hc & Hd). pose proof (evolved_fixed _ _ (Ev id)) as F. revert Ht Hc Hd.
  destruct F as (F1 & F2 & F3 & F4 & F5 & _ & _ & _ & _ & _ & _ & _ & F13 & _).
  unfold tables_ok, ctes_ok, cte_of. rewrite F1, F2, F3, F4, F5, F13. auto.
Qed.
Lemma evolves_commit : forall v st, evolves st (snd (commit v st)).
Proof. intros v st. eapply evolves_heap; [symmetry; apply commit_heap|apply evolves_refl]. Qed.
Lemma evolves_fresh : forall z st st', evolves (new_store z (st_heap st)) st' -> evolves st (set_heap st (st_heap st')).
Proof. intros z st st' H. apply (evolves_heap st st'); [reflexivity|]. destruct H as [H1 H2]. split; [exact H1|exact H2]. Qed.
Lemma prog_evolves : forall n p e st, evolves st (snd (run_prog (build n) e p st)).
Proof. intros n. apply step_prog; [exact evolves_refl|exact evolves_trans|exact evolves_commit|exact evolves_fresh|intros; apply evolves_build]. Qed.
Lemma prep_evolves : forall n e es st, evolves st (snd (join_prep (build n) e es st)).
Proof. intros n. apply step_prep; [exact evolves_refl|exact evolves_trans|exact evolves_commit|exact evolves_fresh|intros; apply evolves_build]. Qed.
Lemma expr_evolves_all : forall n rc jf, (forall e fc es X, evolves (fs_st X) (fs_st (snd (rc e fc es X)))) ->
  forall e fc x X, evolves (fs_st X) (fs_st (snd (eval_expr (build n) rc jf e fc x X))).
Proof. intros n rc jf H. apply step_expr; [exact evolves_refl|exact evolves_trans|exact evolves_commit|exact evolves_fresh|intros; apply evolves_build|exact H]. Qed.
Lemma clause_n_evolves : forall n m e fc es X, evolves (fs_st X) (fs_st (snd (clause_n m (build n) e fc es X))).
Proof. intros n. apply step_clause_n; [exact evolves_refl|exact evolves_trans|exact evolves_commit|exact evolves_fresh|intros; apply evolves_build]. Qed.

(* ------------------------------------------------------------------ *)
(** * What is computed follows the rules *)

(** What an outcome says. *)
Definition done (R : result -> store -> Prop) (o : outcome string) (st' : store) : Prop :=
  match o with
  | ROk s => R (Gives s) st'
  | RErr er | RPanic er => is_invalid_index er = true -> R Lacks st'
  | RFuel => True
  end.

Section Sound.
Variable e : env.
Hypothesis He : proper_env e.
Definition below (n : nat) : Prop := forall b st o st', heap_ok st -> build n e b st = (o, st') -> done (makes e b st) o st'.

Section Template.
Variable args : list value.
Variable frags : list builder.
Let fc := mkFrame args frags.
Lemma expr_evolves : forall n rc jf, (forall e fc es X, evolves (fs_st X) (fs_st (snd (rc e fc es X)))) ->
  forall x X, evolves (fs_st X) (fs_st (snd (eval_expr (build n) rc jf e fc x X))).
Proof. intros n rc jf H x X. apply expr_evolves_all. exact H. Qed.

Section Rc.
Variable n : nat.
Hypothesis Hb : below n.
Variable rc : env -> frame -> list expr -> fstate -> outcome string * fstate.
Variable jf : nat.
Hypothesis Hev : forall e fc es X, evolves (fs_st X) (fs_st (snd (rc e fc es X))).
Hypothesis Hrc : forall i es X r X', heap_ok (fs_st X) -> rc e fc (set_index i es) X = (r, X') ->
  told (parts e args frags (map (at_round i) (norm (map strip es))) (fs_st X)) X r X'.

Lemma loop_sound : forall es sep from to k i acc X o X', heap_ok (fs_st X) -> join_loop rc k e fc es sep from to i acc X = (o, X') ->
  match o with
  | ROk s => exists ss ua uf, turns e args frags (norm (map strip es)) from to i (fs_st X) (Some ss) ua uf (fs_st X') /\
      s = acc_join sep acc ss /\ fs_ua X' = mark_all ua (fs_ua X) /\ fs_uf X' = mark_all uf (fs_uf X)
  | RErr er => is_invalid_index er = true -> exists ua uf, turns e args frags (norm (map strip es)) from to i (fs_st X) None ua uf (fs_st X') /\
      fs_ua X' = mark_all ua (fs_ua X) /\ fs_uf X' = mark_all uf (fs_uf X)
  | RPanic er => is_invalid_index er = false
  | RFuel => True
  end.
Proof.
  intros es sep from to. induction k as [|k IH]; intros i acc X o X' Ok H; cbn [join_loop] in H; [injection H as <- <-; exact Logic.I|].
  destruct (rc e fc (set_index i es) X) as [r X1] eqn:Er. pose proof (Hev e fc (set_index i es) X) as Ev. rewrite Er in Ev. cbn [snd] in Ev. apply Hrc in Er; [|exact Ok]. destruct r as [s|er|er|]; cbn [told] in Er.
  - destruct Er as (ua & uf & S1 & A1 & F1). set (acc' := if is_empty s then acc else if is_empty acc then s else acc ++ sep ++ s) in *.
    destruct ((0 <? to)%Z && (to <=? i)%Z) eqn:Et.
    + apply andb_prop in Et as [T1 T2]. apply Z.ltb_lt in T1. apply Z.leb_le in T2. injection H as <- <-.
      exists [s], ua, uf. split; [apply tn_last; assumption|]. split; [reflexivity|]. auto.
    + assert (T : ~ (0 < to <= i)%Z) by (intros [T1 T2]; apply Z.ltb_lt in T1; apply Z.leb_le in T2; rewrite T1, T2 in Et; discriminate Et).
      apply IH in H; [|exact (heap_evolves _ _ Ev Ok)]. destruct o as [t|er|er|]; try exact H.
      * destruct H as (ss & ua2 & uf2 & R & -> & A2 & F2). exists (s :: ss), (ua ++ ua2)%list, (uf ++ uf2)%list.
        split; [exact (tn_more e args frags _ from to i _ s ua uf _ (Some ss) ua2 uf2 _ T S1 R)|]. split; [reflexivity|].
        rewrite !mark_all_app, <- A1, <- F1. auto.
      * intros Hi. destruct (H Hi) as (ua2 & uf2 & R & A2 & F2). exists (ua ++ ua2)%list, (uf ++ uf2)%list.
        split; [exact (tn_more e args frags _ from to i _ s ua uf _ None ua2 uf2 _ T S1 R)|]. rewrite !mark_all_app, <- A1, <- F1. auto.
  - destruct (is_invalid_index er) eqn:Ei; [|injection H as <- <-; intros K; congruence].
    destruct (Er eq_refl) as (ua & uf & S1 & A1 & F1).
    destruct ((0 <? from)%Z && (i =? from)%Z || (0 <? to)%Z && (i <=? to)%Z) eqn:Eb; injection H as <- <-.
    + intros _. exists ua, uf. split; [|auto]. apply tn_lacks; [lia|exact S1].
    + exists [], ua, uf. split; [apply tn_end; [lia|lia|exact S1]|]. split; [reflexivity|auto].
  - injection H as <- <-. exact Er.
  - injection H as <- <-. exact Logic.I.
Qed.

Lemma expr_sound : forall x X r X', heap_ok (fs_st X) -> eval_expr (build n) rc jf e fc (unstrip x) X = (r, X') ->
  told (part e args frags x (fs_st X)) X r X'.
Proof.
  intros x X r X' Ok H. destruct x as [t|sty i|nm l|nm]; cbn [unstrip eval_expr] in H.
  - injection H as <- <-. exists [], []. split; [constructor|auto].
  - change (fr_args fc) with args in H. destruct (nth1 args i) as [v|] eqn:Ev.
    + unfold func_arg in H. change (fr_args fc) with args in H. rewrite Ev in H. destruct (commit v (fs_st X)) as [o st'] eqn:Ec. injection H as <- <-.
      destruct o as [s|er|er|]; cbn [told fs_st fs_ua fs_uf].
      * exists [i], []. split; [eapply pt_bind; eassumption|]. split; reflexivity.
      * intros K. rewrite (commit_panic v (fs_st X) er st' (or_introl Ec)) in K. discriminate K.
      * exact (commit_panic v (fs_st X) er st' (or_intror Ec)).
      * exact Logic.I.
    + injection H as <- <-. intros K. discriminate K.
  - unfold eval_function in H. destruct (lookup_fn e nm) as [f|] eqn:El; [|injection H as <- <-; intros K; discriminate K].
    pose proof (He nm f El) as Hp. destruct (suits_dec f l Hp) as [Su|Su].
    2: { destruct (call_misfit (build n) rc jf e fc nm f l X Hp Su) as (o & er & E & O & Ei). rewrite E in H. injection H as <- <-.
         destruct O as [->| ->]; cbn [told]; [intros K; congruence|exact Ei]. }
    rewrite call_suits in H by assumption.
    (* what the function does becomes what the call does *)
    assert (Safe : forall c, call_fn (build n) rc jf e fc f l X = c ->
      match c with
      | (ROk s, X1) => exists ua uf, part e args frags (ACall nm l) (fs_st X) (Gives s) ua uf (fs_st X1) /\ fs_ua X1 = mark_all ua (fs_ua X) /\ fs_uf X1 = mark_all uf (fs_uf X)
      | (RErr er, X1) | (RPanic er, X1) => is_invalid_index er = true -> exists ua uf, part e args frags (ACall nm l) (fs_st X) Lacks ua uf (fs_st X1) /\ fs_ua X1 = mark_all ua (fs_ua X) /\ fs_uf X1 = mark_all uf (fs_uf X)
      | (RFuel, _) => True
      end).
    { intros c Hc. destruct f as [| | |sg body]; cbn [call_fn] in Hc.
      - (* arg *) apply suits_num in Su as (a & -> & N); [|auto]. unfold func_arg in Hc. change (fr_args fc) with args in Hc.
        destruct (nth1 args (lit_int a)) as [v|] eqn:Ev.
        + destruct (commit v (fs_st X)) as [o st'] eqn:Ec. subst c. destruct o as [s|er|er|]; cbn [fs_st fs_ua fs_uf].
          * exists [lit_int a], []. split; [eapply pt_arg; eassumption|]. split; reflexivity.
          * intros K. rewrite (commit_panic v (fs_st X) er st' (or_introl Ec)) in K. discriminate K.
          * intros K. rewrite (commit_panic v (fs_st X) er st' (or_intror Ec)) in K. discriminate K.
          * exact Logic.I.
        + subst c. intros _. exists [], []. split; [eapply pt_no_arg; eassumption|split; reflexivity].
      - (* fragment *) apply suits_num in Su as (a & -> & N); [|auto]. unfold func_fragment in Hc. change (fr_frags fc) with frags in Hc.
        destruct (nth1 frags (lit_int a)) as [b|] eqn:Eb.
        + destruct (build n e b (fs_st X)) as [o st'] eqn:Ebd. subst c. apply Hb in Ebd; [|exact Ok].
          destruct o as [s|er|er|]; cbn [fs_st fs_ua fs_uf]; cbn [done] in Ebd.
          * exists [], [lit_int a]. split; [eapply pt_frag; eassumption|]. split; reflexivity.
          * intros Q. exists [], [lit_int a]. split; [|split; reflexivity]. eapply pt_frag_lacks; try eassumption. apply Ebd. exact Q.
          * intros Q. exists [], [lit_int a]. split; [|split; reflexivity]. eapply pt_frag_lacks; try eassumption. apply Ebd. exact Q.
          * exact Logic.I.
        + subst c. intros _. exists [], []. split; [eapply pt_no_frag; eassumption|split; reflexivity].
      - (* join *) apply suits_join in Su as (tmpl & sep & nums & -> & Hn). 
        set (G := fun from to => if (0 <? to)%Z && (to <? from)%Z then (RErr (bad_range from to), X) else
          match parse tmpl with
          | PErr o m => (RErr (bad_template tmpl o m), X)
          | PPanic => (RPanic index_range, X)
          | PFuel => (RFuel, X)
          | POk es =>
            let '(r, st') := join_prep (build n) e es (fs_st X) in
            let S' := mkFS st' (fs_ua X) (fs_uf X) in
            match r with
            | ROk O => (RErr (no_function tmpl), S')
            | ROk _ => join_loop rc jf e fc es sep from to (if (from <=? 0)%Z then 1%Z else from) "" S'
            | RErr er => (RErr er, S')
            | RPanic er => (RPanic er, S')
            | RFuel => (RFuel, S')
            end
          end) in *.
        assert (K : forall from to, (limits (map lit_int nums) from to \/ (0 < to < from)%Z) -> forall c, G from to = c ->
          match c with
          | (ROk s, X1) => exists ua uf, part e args frags (ACall nm (LStr tmpl :: LStr sep :: nums)) (fs_st X) (Gives s) ua uf (fs_st X1) /\ fs_ua X1 = mark_all ua (fs_ua X) /\ fs_uf X1 = mark_all uf (fs_uf X)
          | (RErr er, X1) | (RPanic er, X1) => is_invalid_index er = true -> exists ua uf, part e args frags (ACall nm (LStr tmpl :: LStr sep :: nums)) (fs_st X) Lacks ua uf (fs_st X1) /\ fs_ua X1 = mark_all ua (fs_ua X) /\ fs_uf X1 = mark_all uf (fs_uf X)
          | (RFuel, _) => True
          end).
        { intros from to L c' Hc'. unfold G in Hc'. destruct ((0 <? to)%Z && (to <? from)%Z) eqn:Eb; [subst c'; intros Q; discriminate Q|].
          destruct L as [L|L]; [|lia]. destruct (parse tmpl) as [es|o m| |] eqn:Ep; [|subst c'; intros Q; discriminate Q|subst c'; intros Q; discriminate Q|subst c'; exact Logic.I].
          rewrite join_prep_names in Hc'. pose proof (prep_sound n e (fnames (norm (map strip es))) (fs_st X)) as P. pose proof (prep_evolves n e es (fs_st X)) as Pe. rewrite join_prep_names in Pe.
          destruct (prep_names (build n) e (fnames (norm (map strip es))) (fs_st X)) as [[k|er|er|] st1]; cbn [snd] in Pe.
          - destruct P as [Pk P]. rewrite functions_names in Pk, P. cbn zeta in Hc'. destruct k as [|k]; [subst c'; intros Q; discriminate Q|].
            assert (Pa : parsed tmpl = Some (norm (map strip es))) by (unfold parsed; rewrite Ep; reflexivity).
            assert (Ne : functions_of (norm (map strip es)) <> []) by (intros Q; rewrite Q in Pk; discriminate Pk).
            replace (if (from <=? 0)%Z then 1%Z else from) with (Z.max 1 from) in Hc' by (destruct (Z.leb_spec from 0); lia).
            destruct (join_loop rc jf e fc es sep from to (Z.max 1 from) "" (mkFS st1 (fs_ua X) (fs_uf X))) as [o X1] eqn:Ej.
            apply loop_sound in Ej; [|exact (heap_evolves _ _ Pe Ok)]. cbn [fs_st fs_ua fs_uf] in Ej. subst c'. destruct o as [s|er|er|].
            + destruct Ej as (ss & ua & uf & R & -> & A1 & F1). exists ua, uf. split; [|auto]. rewrite acc_join_ok. eapply pt_join; eassumption.
            + intros Q. destruct (Ej Q) as (ua & uf & R & A1 & F1). exists ua, uf. split; [|auto]. eapply pt_join_lacks; eassumption.
            + intros Q. congruence.
            + exact Logic.I.
          - subst c'. intros Q. congruence.
          - destruct P.
          - subst c'. exact Logic.I. }
        unfold func_join in Hc. fold G in Hc. clear H. unfold limits in K. destruct (map lit_int nums) as [|a [|b [|d idx]]].
        + exact (K 0%Z 0%Z (or_introl (conj eq_refl eq_refl)) c Hc).
        + exact (K a 0%Z (or_introl (conj eq_refl eq_refl)) c Hc).
        + apply (K a b); [|exact Hc]. destruct (Z_lt_dec 0 b) as [Q1|Q1]; [|left; split; [reflexivity|split; [reflexivity|lia]]].
          destruct (Z_lt_dec b a) as [Q2|Q2]; [right; lia|left; split; [reflexivity|split; [reflexivity|lia]]].
        + subst c. intros Q. discriminate Q.
      - (* custom *) destruct (run_prog (build n) e (body l) (fs_st X)) as [o st'] eqn:Er. subst c.
        assert (Re : o <> RFuel -> returns e (body l) (fs_st X) o st') by (intros Q; exists n; auto).
        assert (Fu : norm_outs (fs_outs sg) o <> RFuel -> o <> RFuel).
        { intros Q ->. apply Q. destruct (fs_outs sg) as [|t [|u v]]; reflexivity. }
        destruct (norm_outs (fs_outs sg) o) as [s|er|er|] eqn:En; cbn [fs_st fs_ua fs_uf].
        + exists [], []. split; [|split; reflexivity]. eapply pt_custom; try eassumption. apply Re, Fu. discriminate.
        + intros Q. exists [], []. split; [|split; reflexivity]. eapply pt_custom_lacks; try eassumption; [apply Re, Fu; discriminate|].
          rewrite En. exists er. split; [auto|]. apply index_iff. exact Q.
        + intros Q. exists [], []. split; [|split; reflexivity]. eapply pt_custom_lacks; try eassumption; [apply Re, Fu; discriminate|].
          rewrite En. exists er. split; [auto|]. apply index_iff. exact Q.
        + exact Logic.I. }
    destruct (call_fn (build n) rc jf e fc f l X) as [o X1] eqn:Ec. specialize (Safe _ eq_refl). cbn [safe] in H.
    destruct o as [s|er|er|]; injection H as <- <-; cbn [told]; try exact Safe; cbn [is_invalid_index]; exact Safe.
  - injection H as <- <-. intros K. discriminate K.
Qed.

Lemma clause_sound : forall l X r X', heap_ok (fs_st X) -> clause (build n) rc jf e fc (map unstrip l) X = (r, X') ->
  told (parts e args frags l (fs_st X)) X r X'.
Proof.
  induction l as [|x l IH]; intros X r X' Ok H; cbn [map clause] in H.
  - injection H as <- <-. exists [], []. split; [constructor|split; reflexivity].
  - destruct (eval_expr (build n) rc jf e fc (unstrip x) X) as [o X1] eqn:Ex. pose proof (expr_evolves n rc jf Hev (unstrip x) X) as Ev. rewrite Ex in Ev. cbn [snd] in Ev. apply expr_sound in Ex; [|exact Ok]. destruct o as [s|er|er|]; cbn [told] in Ex.
    + destruct Ex as (ua & uf & S1 & A1 & F1). destruct (clause (build n) rc jf e fc (map unstrip l) X1) as [o2 X2] eqn:E2. apply IH in E2; [|exact (heap_evolves _ _ Ev Ok)].
      destruct o2 as [s2|er|er|]; injection H as <- <-; cbn [told] in *; try exact E2.
      * destruct E2 as (ua2 & uf2 & S2 & A2 & F2). exists (ua ++ ua2)%list, (uf ++ uf2)%list. split; [eapply pa_cons; eassumption|].
        rewrite !mark_all_app, <- A1, <- F1. auto.
      * intros Q. destruct (E2 Q) as (ua2 & uf2 & S2 & A2 & F2). exists (ua ++ ua2)%list, (uf ++ uf2)%list. split; [eapply pa_later; eassumption|].
        rewrite !mark_all_app, <- A1, <- F1. auto.
    + injection H as <- <-. cbn [told]. intros Q. destruct (Ex Q) as (ua & uf & S1 & A1). exists ua, uf. split; [apply pa_here; exact S1|exact A1].
    + injection H as <- <-. exact Ex.
    + injection H as <- <-. exact Logic.I.
Qed.
End Rc.

Lemma clause_n_sound : forall n, below n -> forall m l X r X', heap_ok (fs_st X) -> clause_n m (build n) e fc (map unstrip l) X = (r, X') ->
  told (parts e args frags l (fs_st X)) X r X'.
Proof.
  intros n Hb. induction m as [|m IH]; intros l X r X' Ok H; cbn [clause_n] in H; [injection H as <- <-; exact Logic.I|].
  eapply clause_sound; [exact Hb| | |exact Ok|exact H].
  - intros e0 fc0 es0 X0. apply clause_n_evolves.
  - intros i es Y r2 Y' OkY K. rewrite join_item in K. rewrite <- at_round_aset. apply IH; assumption.
Qed.
End Template.
End Sound.
