(** Reference semantics: commit order and meaning of placeholders. *)
From Coq Require Import Strings.String Strings.Ascii NArith ZArith List Bool Lia.
From Verif Require Import GoStr GoNum Syntax Value Util Model Sqlf Sqlb Spec_syntax ByteLex Lex_proofs RefSem Text_proofs
  Sim_proofs Fresh_proofs Order_proofs Store_proofs Spec_build Build_proofs Spec_eval Spec_query Deps_proofs Query_proofs Spec_mean.
Import ListNotations.
Open Scope string_scope.

(** What a number of builds makes of a query builder. *)
Definition rebuilt (q q' : qb) : Prop :=
  exists s k es, q' = set_errors (set_touches (set_selects q s) (more_frags (q_touches q) (copies k (hidden_columns q)))) es /\
    (s = q_selects q \/ s = select_clause q).

Lemma nth1_item : forall A (l : list A) i x, nth1 l i = Some x -> item l i x.
Proof.
  intros A l i x H. unfold nth1 in H. destruct ((1 <=? i)%Z && _) eqn:E; [|discriminate].
  apply andb_prop in E as [E _]. apply Z.leb_le in E. split; assumption.
Qed.

Section Den.
Variable e0 : env.
Hypothesis He0 : lib_env e0 = true.
Variable P : value -> bool.
(** Whether the builders are trees without query builders. *)
Variable ord : bool.
(** The query builders at the start, and what builds make of them. *)
Variable h0 : list qb.

Definition inv (g : gst) : Prop := forall id, rebuilt (nth id h0 new_qb) (gget g id).

(** Result of a build from [g] to [g']. *)
Definition den (Q : list value -> text -> Prop) (g : gst) (o : outcome text) (g' : gst) : Prop :=
  inv g -> inv g' /\ ext (g_log g) (g_log g') /\
  match o with
  | ROk t => (ord = true -> within (List.length (g_log g)) (List.length (g_log g')) (placeholders t)) /\
             forall log, ext (g_log g') log -> Q log t
  | _ => True
  end.

Lemma den_none : forall Q g o, match o with ROk _ => False | _ => True end -> den Q g o g.
Proof. intros Q g [] H; try contradiction; repeat split; auto using ext_refl. Qed.

Lemma den_lit : forall (Q : list value -> text -> Prop) g s, (forall log, Q log (tlit s)) -> den Q g (ROk (tlit s)) g.
Proof. intros Q g s H K. split; [exact K|]. split; [apply ext_refl|]. split; [intros _; apply within_nil|auto]. Qed.

Section Clause.
Variable rb : env -> builder -> gst -> outcome text * gst.
Hypothesis Hrb : forall b g, (ord = true -> tree P b = true) ->
  den (fun log t => means e0 h0 log b t) g (fst (rb e0 b g)) (snd (rb e0 b g)).
Variable rc : env -> frame -> list expr -> gfs -> outcome text * gfs.
Definition okf (fc : frame) : Prop := ord = true -> forallb (tree P) (fr_frags fc) = true.
Definition denc (fc : frame) (es : list expr) (S : gfs) (r : outcome text * gfs) : Prop :=
  den (fun log t => means_clause e0 h0 log (fr_args fc) (fr_frags fc) es t) (gf_g S) (fst r) (gf_g (snd r)).
Hypothesis Hrc : forall fc es S, okf fc -> denc fc es S (rc e0 fc es S).
Variable jf : nat.

Lemma den_fail : forall Q Q' g o o' g', den Q g o g' -> match o' with ROk _ => False | _ => True end -> den Q' g o' g'.
Proof. intros Q Q' g o o' g' H K J. destruct (H J) as (H1 & H2 & _). destruct o'; try contradiction; auto. Qed.
Lemma den_imp : forall (Q Q' : list value -> text -> Prop) g o g', den Q g o g' -> (forall log t, Q log t -> Q' log t) -> den Q' g o g'.
Proof.
  intros Q Q' g o g' H K J. destruct (H J) as (H1 & H2 & H3). split; [exact H1|]. split; [exact H2|].
  destruct o; auto. destruct H3 as [W M]. split; auto.
Qed.

Lemma den_arg : forall fc i S (Q : list value -> text -> Prop),
  (forall v j log, item (fr_args fc) i v -> nth_error log j = Some v -> Q log (tph j)) ->
  den Q (gf_g S) (fst (gfunc_arg fc i S)) (gf_g (snd (gfunc_arg fc i S))).
Proof.
  intros fc i S Q HQ. unfold gfunc_arg. destruct (nth1 (fr_args fc) i) as [v|] eqn:E;
    [|apply den_none; exact I].
  unfold gcommit. cbn [fst snd gf_g g_log]. intros J. split; [exact J|]. split; [exists [v]; reflexivity|].
  cbn [g_log]. split.
  - intros _. rewrite app_length. cbn. split; [cbn; lia|]. constructor; [cbn; lia|constructor].
  - intros log [x ->]. apply (HQ v); [apply nth1_item; exact E|].
    rewrite <- app_assoc. rewrite nth_error_app2 by lia. rewrite Nat.sub_diag. reflexivity.
Qed.

Lemma den_fragment : forall fc i S (Q : list value -> text -> Prop), okf fc ->
  (forall b t log, item (fr_frags fc) i b -> means e0 h0 log b t -> Q log t) ->
  den Q (gf_g S) (fst (gfunc_fragment rb e0 fc i S)) (gf_g (snd (gfunc_fragment rb e0 fc i S))).
Proof.
  intros fc i S Q Hf HQ. unfold gfunc_fragment.
  destruct (nth1 (fr_frags fc) i) as [b|] eqn:E; [|apply den_none; exact I].
  assert (Hb : ord = true -> tree P b = true).
  { intros Ho. specialize (Hf Ho). rewrite forallb_forall in Hf. apply Hf. exact (nth1_In _ _ _ _ E). }
  pose proof (Hrb b (gf_g S) Hb) as H1. destruct (rb e0 b (gf_g S)) as [o g']. cbn [fst snd gf_g] in *.
  eapply den_imp; [exact H1|]. intros log t. apply HQ. apply nth1_item. exact E.
Qed.

Lemma set_index_eq : forall i es, set_index i es = map (at_index i) es.
Proof. reflexivity. Qed.

Lemma means_items_app : forall log a fs es ts i us, means_items e0 h0 log a fs es i ts ->
  means_items e0 h0 log a fs es (i + Z.of_nat (List.length ts))%Z us -> means_items e0 h0 log a fs es i (ts ++ us).
Proof.
  intros log a fs es. induction ts as [|t ts IH]; intros i us H K.
  - cbn in K. rewrite Z.add_0_r in K. exact K.
  - inversion H; subst. cbn [app]. constructor; [assumption|]. apply IH; [assumption|].
    cbn [List.length] in K. replace (i + 1 + Z.of_nat (List.length ts))%Z with (i + Z.of_nat (S (List.length ts)))%Z by lia.
    exact K.
Qed.

Lemma means_items_pre : forall log a fs es ts i us, means_items e0 h0 log a fs es i (ts ++ us) ->
  means_items e0 h0 log a fs es i ts.
Proof.
  intros log a fs es. induction ts as [|t ts IH]; intros i us H; [constructor|].
  cbn in H. inversion H; subst. constructor; [assumption|]. eapply IH; eassumption.
Qed.

Lemma filter_all : forall l, Forall (fun t => tempty t = false) (tkeep l).
Proof.
  induction l as [|t l IH]; cbn; [constructor|]. destruct (tempty t) eqn:E; cbn; [exact IH|constructor; assumption].
Qed.

Lemma den_loop : forall n fc es sep from to i0 ts S g0, okf fc ->
  let f := tkeep in
  inv (gf_g S) -> ext (g_log g0) (g_log (gf_g S)) ->
  (ord = true -> within (List.length (g_log g0)) (List.length (g_log (gf_g S))) (placeholders (tjoin sep (f ts)))) ->
  (forall log, ext (g_log (gf_g S)) log -> means_items e0 h0 log (fr_args fc) (fr_frags fc) es i0 ts) ->
  let r := gjoin_loop rc n e0 fc es sep from to (i0 + Z.of_nat (List.length ts))%Z (tjoin sep (f ts)) S in
  den (fun log t => exists ts, t = tjoin sep (f ts) /\
         means_items e0 h0 log (fr_args fc) (fr_frags fc) es i0 ts) g0 (fst r) (gf_g (snd r)).
Proof.
  intros n fc es sep from to i0 ts S g0 Hf f. revert ts S.
  induction n as [|n IH]; intros ts S J Hx Hw Hm; cbn zeta; cbn [gjoin_loop].
  - cbn. intros _. split; [exact J|]. split; [exact Hx|exact I].
  - pose proof (Hrc fc (set_index (i0 + Z.of_nat (List.length ts))%Z es) S Hf J) as [J1 [H1 H2]].
    destruct (rc e0 fc (set_index (i0 + Z.of_nat (List.length ts))%Z es) S) as [o S'].
    cbn [fst snd] in *. pose proof (ext_trans _ _ _ Hx H1) as Hx'.
    pose proof (ext_length _ _ Hx) as L1. pose proof (ext_length _ _ H1) as L2.
    assert (Hend : den (fun log t => exists ts, t = tjoin sep (f ts) /\
         means_items e0 h0 log (fr_args fc) (fr_frags fc) es i0 ts) g0 (ROk (tjoin sep (f ts))) (gf_g S')).
    { intros _. split; [exact J1|]. split; [exact Hx'|]. split; [intros Ho; eapply within_weaken; [| |exact (Hw Ho)]; lia|].
      intros log Hl. exists ts. split; [reflexivity|]. apply Hm. eapply ext_trans; eassumption. }
    assert (Hbad : forall Q o, match o with ROk _ => False | _ => True end -> den Q g0 o (gf_g S')).
    { intros Q o' Ho'. eapply den_fail; [exact Hend|exact Ho']. }
    destruct o as [t|er|er|]; cbn [fst snd].
    + destruct H2 as [W M].
      assert (Ef : f (ts ++ [t])%list = if tempty t then f ts else (f ts ++ [t])%list).
      { unfold f, tkeep. rewrite filter_app. cbn [filter]. destruct (tempty t); cbn; [apply app_nil_r|reflexivity]. }
      assert (Ea : (if tempty t then tjoin sep (f ts)
                    else if tempty (tjoin sep (f ts)) then t
                    else tapp (tjoin sep (f ts)) (tapp (tlit sep) t)) = tjoin sep (f (ts ++ [t])%list)).
      { rewrite Ef. destruct (tempty t); [reflexivity|].
        rewrite (tempty_join sep (f ts)) by apply filter_all.
        rewrite tjoin_snoc. destruct (f ts); reflexivity. }
      assert (Hw' : ord = true -> within (List.length (g_log g0)) (List.length (g_log (gf_g S'))) (placeholders (tjoin sep (f (ts ++ [t])%list)))).
      { intros Ho. specialize (Hw Ho). specialize (W Ho). rewrite Ef. destruct (tempty t); [eapply within_weaken; [| |exact Hw]; lia|].
        rewrite tjoin_snoc. destruct (f ts) as [|x l].
        - eapply within_weaken; [| |exact W]; lia.
        - rewrite !placeholders_app, placeholders_lit. cbn [app].
          eapply within_app; [| |exact Hw|exact W]; lia. }
      assert (Hm' : forall log, ext (g_log (gf_g S')) log -> means_items e0 h0 log (fr_args fc) (fr_frags fc) es i0 (ts ++ [t])).
      { intros log Hl. apply means_items_app; [apply Hm; eapply ext_trans; eassumption|].
        constructor; [|constructor]. rewrite <- set_index_eq. apply M. exact Hl. }
      rewrite Ea. destruct ((0 <? to)%Z && _).
      * cbn [fst snd]. intros _. split; [exact J1|]. split; [exact Hx'|]. split; [exact Hw'|]. intros log Hl. exists (ts ++ [t])%list.
        split; [reflexivity|apply Hm'; exact Hl].
      * replace (i0 + Z.of_nat (List.length ts) + 1)%Z with (i0 + Z.of_nat (List.length (ts ++ [t])))%Z
          by (rewrite app_length; cbn; lia).
        apply IH; assumption.
    + destruct (is_invalid_index er); [destruct (_ || _)|]; cbn [fst snd]; try exact Hend; apply Hbad; exact I.
    + apply Hbad; exact I.
    + apply Hbad; exact I.
Qed.

Lemma den_join : forall fc tmpl sep idx S (Q : list value -> text -> Prop), okf fc ->
  (forall es ts log, parse tmpl = POk es ->
     means_items e0 h0 log (fr_args fc) (fr_frags fc) es (first_index idx) ts ->
     Q log (tjoin sep (tkeep ts))) ->
  den Q (gf_g S) (fst (gfunc_join rc jf e0 fc tmpl sep (map lit_int idx) S))
      (gf_g (snd (gfunc_join rc jf e0 fc tmpl sep (map lit_int idx) S))).
Proof.
  intros fc tmpl sep idx S Q Hf HQ. unfold gfunc_join.
  assert (G : forall from to, (if (from <=? 0)%Z then 1%Z else from) = first_index idx ->
    let r := if (0 <? to)%Z && (to <? from)%Z then (RErr (bad_range from to), S) else
       match parse tmpl with
       | PErr o m => (RErr (bad_template tmpl o m), S)
       | PPanic => (RPanic index_range, S)
       | PFuel => (RFuel, S)
       | POk es =>
         match gjoin_prep e0 es with
         | ROk O => (RErr (no_function tmpl), S)
         | ROk _ => gjoin_loop rc jf e0 fc es sep from to (if (from <=? 0)%Z then 1%Z else from) (tlit "") S
         | RErr er => (RErr er, S)
         | RPanic er => (RPanic er, S)
         | RFuel => (RFuel, S)
         end
       end in den Q (gf_g S) (fst r) (gf_g (snd r))).
  { intros from to Hfrom. cbn zeta. destruct ((0 <? to)%Z && (to <? from)%Z); [apply den_none; exact I|].
    destruct (parse tmpl) as [es|p m| |] eqn:Ep; try (apply den_none; exact I).
    destruct (gjoin_prep e0 es) as [[|k]|er|er|]; try (apply den_none; exact I).
    rewrite Hfrom.
    intros J. revert J. pose proof (fun J => den_loop jf fc es sep from to (first_index idx) [] S (gf_g S) Hf J (ext_refl _)) as H.
    cbn [List.length tkeep filter tjoin] in H. rewrite Z.add_0_r in H. intros J.
    eapply den_imp; [apply H; [exact J|intros _; apply within_nil|intros; constructor]| |exact J].
    cbv beta. intros log t (ts & -> & Hts). apply (HQ es ts log eq_refl Hts). }
  destruct idx as [|a [|b [|c idx]]]; cbn [map].
  - apply G. reflexivity.
  - apply G. cbn [first_index]. destruct (lit_int a <=? 0)%Z eqn:E; [apply Z.leb_le in E|apply Z.leb_gt in E]; lia.
  - apply G. cbn [first_index]. destruct (lit_int a <=? 0)%Z eqn:E; [apply Z.leb_le in E|apply Z.leb_gt in E]; lia.
  - apply den_none. exact I.
Qed.

Lemma den_safe : forall name Q g r, den Q g (fst r) (gf_g (snd r)) ->
  den Q g (fst (gsafe name r)) (gf_g (snd (gsafe name r))).
Proof. intros name Q g [[] S'] H; exact H. Qed.

Lemma den_expr : forall fc x S, okf fc ->
  den (fun log t => means_expr e0 h0 log (fr_args fc) (fr_frags fc) x t) (gf_g S)
    (fst (geval_expr rb rc jf e0 fc x S)) (gf_g (snd (geval_expr rb rc jf e0 fc x S))).
Proof.
  intros fc x S Hf. destruct x as [t p|k i p|name args p|name p]; cbn [geval_expr].
  - apply den_lit. intros; constructor.
  - destruct (nth1 (fr_args fc) i) eqn:E; [|apply den_none; exact I].
    apply den_arg. intros. econstructor; eassumption.
  - unfold geval_function. destruct (lookup_fn e0 name) as [f|] eqn:El; [|apply den_none; exact I].
    unfold geval_call. destruct (arity_ok (sig_of f) (List.length args)) eqn:Ea; [|apply den_none; exact I].
    destruct (eval_args _ _); try (apply den_none; exact I).
    destruct (any_rejected _ _); apply den_safe; [apply den_none; exact I|].
    pose proof (lookup_lib _ _ _ He0 El) as Hlib.
    destruct f; try discriminate Hlib; cbn [gcall_fn].
    + destruct args as [|x1 [|]]; try discriminate Ea. apply den_arg. intros. eapply ME_arg; eassumption.
    + destruct args as [|x1 [|]]; try discriminate Ea. apply den_fragment; [exact Hf|]. intros. eapply ME_frag; eassumption.
    + destruct args as [|[| |tmpl| |] [|[| |sep| |] idx]]; try (apply den_none; exact I).
      apply den_join; [exact Hf|]. intros. eapply ME_join; eassumption.
  - apply den_none. exact I.
Qed.

Lemma den_clause : forall fc es S, okf fc -> denc fc es S (gclause rb rc jf e0 fc es S).
Proof.
  intros fc es. induction es as [|x es IH]; intros S Hf; unfold denc; cbn [gclause].
  - apply den_lit. intros; constructor.
  - intros J. pose proof (den_expr fc x S Hf J) as [J1 [H1 H2]]. destruct (geval_expr rb rc jf e0 fc x S) as [o S']. cbn [fst snd] in *.
    destruct o as [t|er|er|]; cbn [fst snd]; try (split; [exact J1|split; [exact H1|exact I]]).
    destruct H2 as [W M]. specialize (IH S' Hf J1). destruct IH as [J2 [K1 K2]].
    destruct (gclause rb rc jf e0 fc es S') as [o2 S2]. cbn [fst snd] in *.
    pose proof (ext_trans _ _ _ H1 K1) as HH.
    pose proof (ext_length _ _ H1) as L1. pose proof (ext_length _ _ K1) as L2.
    destruct o2 as [t2|er|er|]; cbn [fst snd]; try (split; [exact J2|split; [exact HH|exact I]]).
    destruct K2 as [W2 M2]. split; [exact J2|]. split; [exact HH|]. split.
    + intros Ho. rewrite placeholders_app. eapply within_app; [| |exact (W Ho)|exact (W2 Ho)]; assumption.
    + intros log Hl. constructor; [apply M; eapply ext_trans; eassumption|apply M2; exact Hl].
Qed.
End Clause.

Lemma den_clause_n : forall rb, (forall b g, (ord = true -> tree P b = true) ->
  den (fun log t => means e0 h0 log b t) g (fst (rb e0 b g)) (snd (rb e0 b g))) ->
  forall n fc es S, okf fc -> denc fc es S (gclause_n n rb e0 fc es S).
Proof.
  intros rb Hrb. induction n as [|n IH]; intros fc es S Hf; cbn [gclause_n].
  - apply den_none. exact I.
  - apply den_clause; assumption.
Qed.

Lemma placeholders_wrap : forall f t, placeholders (gwrap f t) = [] \/ placeholders (gwrap f t) = placeholders t.
Proof.
  intros f t. unfold gwrap. destruct (tempty (ttrim t)); [left; reflexivity|right].
  rewrite !placeholders_app, !placeholders_lit, placeholders_trim, app_nil_r. reflexivity.
Qed.

Lemma den_frag : forall rb, (forall b g, (ord = true -> tree P b = true) ->
  den (fun log t => means e0 h0 log b t) g (fst (rb e0 b g)) (snd (rb e0 b g))) ->
  forall n f g (Q : list value -> text -> Prop), (ord = true -> tree_frag P f = true) ->
  (forall es t log, parse (f_raw f) = POk es -> means_clause e0 h0 log (f_args f) (f_frags f) es t -> Q log (spaced f t)) ->
  den Q g (fst (gbuild_frag n rb e0 f g)) (snd (gbuild_frag n rb e0 f g)).
Proof.
  intros rb Hrb n f g Q Hf HQ. unfold gbuild_frag.
  destruct (parse (f_raw f)) as [es|p m| |] eqn:Ep; try (apply den_none; exact I).
  assert (Hf' : ord = true -> forallb (tree P) (f_frags f) = true).
  { intros Ho. specialize (Hf Ho). rewrite tree_frag_eq in Hf. apply andb_prop in Hf as [_ Hf]. exact Hf. }
  match goal with |- context [gclause_n n rb e0 ?fc es ?S] =>
    pose proof (den_clause_n rb Hrb n fc es S Hf') as H1; destruct (gclause_n n rb e0 fc es S) as [o S'] end.
  unfold denc in H1. cbn [fst snd gf_g fr_args fr_frags] in *.
  destruct o as [t|er|er|]; cbn [fst snd]; try (eapply den_fail; [exact H1|exact I]).
  destruct (_ && _); cbn [fst snd]; [|eapply den_fail; [exact H1|exact I]].
  intros J. destruct (H1 J) as (J1 & X & W & M). split; [exact J1|]. split; [exact X|]. split.
  - intros Ho. destruct (placeholders_wrap f t) as [-> | ->]; [apply within_nil|exact (W Ho)].
  - intros log Hl. change (gwrap f t) with (spaced f t). apply (HQ es); [reflexivity|]. apply M. exact Hl.
Qed.

(* ------------------------------------------------------------------ *)
(** * Query builders *)

Definition dn {A} (Q : list value -> A -> Prop) (g : gst) (r : outcome A * gst) : Prop :=
  inv g -> inv (snd r) /\ ext (g_log g) (g_log (snd r)) /\
  match fst r with ROk a => forall log, ext (g_log (snd r)) log -> Q log a | _ => True end.

Lemma dn_none : forall A (Q : list value -> A -> Prop) g o, match o with ROk _ => False | _ => True end -> dn Q g (o, g).
Proof. intros A Q g [] H; try contradiction; repeat split; auto using ext_refl. Qed.
Lemma dn_ret : forall A (Q : list value -> A -> Prop) g a, (forall log, Q log a) -> dn Q g (ROk a, g).
Proof. intros A Q g a H J. split; [exact J|]. split; [apply ext_refl|]. cbn. intros; apply H. Qed.
Lemma dn_imp : forall A (Q Q' : list value -> A -> Prop) g r, dn Q g r -> (forall log a, Q log a -> Q' log a) -> dn Q' g r.
Proof.
  intros A Q Q' g r H K J. destruct (H J) as (J1 & X & M). split; [exact J1|]. split; [exact X|].
  destruct (fst r); auto.
Qed.
Lemma dn_inv : forall A (Q : list value -> A -> Prop) g r, (inv g -> dn Q g r) -> dn Q g r.
Proof. intros A Q g r H J. exact (H J J). Qed.
(** Sequencing, with any way of passing failures on. *)
Lemma dn_then : forall A B (Q1 : list value -> A -> Prop) (Q : list value -> B -> Prop) g (r : outcome A * gst) (k : A -> gst -> outcome B * gst) r',
  dn Q1 g r ->
  match fst r with ROk a => r' = k a (snd r) | _ => snd r' = snd r /\ (match fst r' with ROk _ => False | _ => True end) end ->
  (forall a g1, inv g1 -> dn (fun log b => Q1 log a -> Q log b) g1 (k a g1)) -> dn Q g r'.
Proof.
  intros A B Q1 Q g [o g1] k r' H Hr K J. cbn [fst snd] in *. destruct (H J) as (J1 & X & M). cbn [fst snd] in *.
  destruct o as [a|er|er|].
  2, 3, 4: destruct Hr as [Hr1 Hr2]; rewrite Hr1; destruct (fst r'); try contradiction; auto.
  subst r'. destruct (K a g1 J1 J1) as (J2 & X2 & M2). split; [exact J2|]. split; [eapply ext_trans; eassumption|].
  destruct (fst (k a g1)); auto. intros log Hl. apply M2; [exact Hl|]. apply M. eapply ext_trans; eassumption.
Qed.
Lemma dn_bind : forall (Q1 Q : list value -> text -> Prop) g r k, dn Q1 g r ->
  (forall a g1, inv g1 -> dn (fun log b => Q1 log a -> Q log b) g1 (k a g1)) -> dn Q g (gbind r k).
Proof.
  intros Q1 Q g r k H K. apply (dn_then _ _ Q1 Q g r k _ H); [|exact K].
  destruct r as [[a|er|er|] g1]; cbn; auto.
Qed.

Lemma copies_snoc : forall f a b, more_frags (more_frags f a) b = more_frags f (a ++ b).
Proof. intros [raw args frags p s] a b. unfold more_frags. cbn. rewrite app_assoc. reflexivity. Qed.
Lemma rebuilt_fixed : forall q q', rebuilt q q' -> fixed q q'.
Proof.
  intros q q' (s & k & es & -> & Hs). unfold fixed. cbn. repeat apply conj; try reflexivity.
  unfold select_clause. cbn. destruct Hs as [-> | ->]; [reflexivity|]. apply with_prefix_twice.
Qed.
Lemma fixed_hidden : forall q q', fixed q q' -> hidden_columns q' = hidden_columns q.
Proof. intros q q' H. unfold hidden_columns. destruct H as (_ & _ & _ & _ & _ & _ & -> & _ & -> & _). reflexivity. Qed.
Lemma rebuilt_refl : forall q, rebuilt q q.
Proof.
  intros q. exists (q_selects q), 0, (q_errors q). split; [|auto]. cbn [copies]. change more_frags with append_frags.
  rewrite append_frags_nil. destruct q. reflexivity.
Qed.
Lemma rebuilt_orders : forall q q', rebuilt q q' -> rebuilt q (with_orders q').
Proof.
  intros q q' H. pose proof (fixed_hidden _ _ (rebuilt_fixed _ _ H)) as Hh. destruct H as (s & k & es & E & Hs).
  exists s, (Datatypes.S k), (es ++ order_errors q')%list. split; [|exact Hs].
  unfold with_orders. rewrite Hh. subst q'. cbn [copies]. rewrite <- copies_snoc. destruct q. reflexivity.
Qed.
Lemma rebuilt_select : forall q q', rebuilt q q' -> rebuilt q (with_select q').
Proof.
  intros q q' H. pose proof (rebuilt_fixed _ _ H) as Hf. destruct H as (s & k & es & E & Hs).
  exists (select_clause q), k, es. split; [|auto]. unfold with_select.
  destruct Hf as (_ & _ & _ & _ & _ & _ & _ & _ & _ & _ & _ & _ & _ & ->). subst q'. destruct q. reflexivity.
Qed.
Lemma inv_set : forall g id q, inv g -> rebuilt (nth id h0 new_qb) q -> inv (gset g id q).
Proof.
  intros g id q J H i. unfold gget, gset. cbn [g_heap]. rewrite nth_upd. destruct (_ && _) eqn:E; [|apply J].
  apply andb_prop in E. destruct E as [E _]. apply Nat.eqb_eq in E. subst i. exact H.
Qed.

Section Query.
Variable rb : builder -> gst -> outcome text * gst.
Hypothesis Hrb : forall b g, dn (fun log t => means e0 h0 log b t) g (rb b g).

Lemma dn_ctes_loop : forall d cs g, dn (fun log l => exists ts, means_all e0 h0 log (map c_builder (filter (fun c => dep_mem (c_name c, "") d) cs)) ts /\
    l = map (fun nt => tapp (tlit (fst nt ++ " AS (")) (tapp (snd nt) (tlit ")")))
          (filter (fun nt => negb (tempty (snd nt))) (combine (map c_name (filter (fun c => dep_mem (c_name c, "") d) cs)) ts)))
  g (gctes_loop rb cs d g).
Proof.
  intros d. induction cs as [|c cs IH]; intros g; cbn [gctes_loop filter].
  - apply dn_ret. intros log. exists []. split; [constructor|reflexivity].
  - destruct (dep_mem (c_name c, "") d); [|apply IH].
    eapply (dn_then _ _ _ _ g (rb (c_builder c) g)
      (fun s g' => match gctes_loop rb cs d g' with
        | (ROk l, g2) => (ROk (if tempty s then l else tapp (tlit (c_name c ++ " AS (")) (tapp s (tlit ")")) :: l), g2)
        | r => r end)); [apply Hrb|destruct (rb (c_builder c) g) as [[]]; cbn; auto|].
    intros s g1 J1. cbv beta.
    eapply (dn_then _ _ _ _ g1 (gctes_loop rb cs d g1) (fun l g2 => (ROk (if tempty s then l else tapp (tlit (c_name c ++ " AS (")) (tapp s (tlit ")")) :: l), g2))); [apply IH|destruct (gctes_loop rb cs d g1) as [[]]; cbn; auto|].
    intros l g2 J2. apply dn_ret. intros log (ts & Hts & ->) Hs. exists (s :: ts). split; [constructor; assumption|].
    cbn [map combine filter snd]. destruct (tempty s); reflexivity.
Qed.
Lemma dn_ctes : forall cs d g, dn (fun log t => exists ts, means_all e0 h0 log (map c_builder (filter (fun c => dep_mem (c_name c, "") d) cs)) ts /\
    tnonempty t = twith (combine (map c_name (filter (fun c => dep_mem (c_name c, "") d) cs)) ts)) g (gctes rb cs d g).
Proof.
  intros cs d g. unfold gctes.
  eapply (dn_then _ _ _ _ g (gctes_loop rb cs d g) (fun l g' => match l with [] => (ROk (tlit ""), g') | _ => (ROk (tapp (tlit "With ") (tjoin ", " l)), g') end));
    [apply dn_ctes_loop|destruct (gctes_loop rb cs d g) as [[[]| | |]]; cbn; auto|].
  intros l g1 J1. cbv beta.
  assert (G : dn (fun log t => (exists ts, means_all e0 h0 log (map c_builder (filter (fun c => dep_mem (c_name c, "") d) cs)) ts /\
      l = map (fun nt => tapp (tlit (fst nt ++ " AS (")) (tapp (snd nt) (tlit ")")))
          (filter (fun nt => negb (tempty (snd nt))) (combine (map c_name (filter (fun c => dep_mem (c_name c, "") d) cs)) ts))) ->
      exists ts, means_all e0 h0 log (map c_builder (filter (fun c => dep_mem (c_name c, "") d) cs)) ts /\
      tnonempty t = twith (combine (map c_name (filter (fun c => dep_mem (c_name c, "") d) cs)) ts)) g1
    (ROk (match l with [] => tlit "" | _ => tapp (tlit "With ") (tjoin ", " l) end), g1)).
  { apply dn_ret. intros log (ts & H & E). exists ts. split; [exact H|]. unfold twith.
    destruct (filter (fun nt => negb (tempty (snd nt))) _) as [|x y]; cbn [map] in E; subst l; [reflexivity|].
    unfold tnonempty. rewrite tempty_app. cbn [tempty tlit]. reflexivity. }
  destruct l; exact G.
Qed.
Lemma dn_from_loop : forall di d fts g, dn (fun log l =>
    means_all e0 h0 log (map table_builder (filter (fun ft => negb (di && ft_optional ft && negb (dep_mem (ft_names ft) d))) fts)) l)
  g (gfrom_loop rb di fts d g).
Proof.
  intros di d. induction fts as [|ft fts IH]; intros g; cbn [gfrom_loop filter].
  - apply dn_ret. intros log. constructor.
  - destruct (di && ft_optional ft && negb (dep_mem (ft_names ft) d)); cbn [negb]; [apply IH|].
    replace (gofrag rb (ft_frag ft) g) with (rb (table_builder ft) g) by (unfold gofrag, table_builder; destruct (ft_frag ft); reflexivity).
    eapply (dn_then _ _ _ _ g (rb (table_builder ft) g)
      (fun s g' => match gfrom_loop rb di fts d g' with (ROk l, g2) => (ROk (s :: l), g2) | r => r end));
      [apply Hrb|destruct (rb (table_builder ft) g) as [[]]; cbn; auto|].
    intros s g1 J1. cbv beta.
    eapply (dn_then _ _ _ _ g1 (gfrom_loop rb di fts d g1) (fun l g2 => (ROk (s :: l), g2))); [apply IH|destruct (gfrom_loop rb di fts d g1) as [[]]; cbn; auto|].
    intros l g2 J2. apply dn_ret. intros log Hl Hs. cbn [map]. constructor; assumption.
Qed.
Lemma dn_from : forall q d g, dn (fun log t => exists l, means_all e0 h0 log (map table_builder (filter (kept q d) (listed q))) l /\
    t = tapp (tlit "FROM ") (tjoin " " l)) g (gfrom rb q d g).
Proof.
  intros q d g. unfold gfrom.
  eapply (dn_then _ _ _ _ g (gfrom_loop rb (q_distinct q) (from_tables q) d g) (fun l g' => (ROk (tapp (tlit "FROM ") (tjoin " " l)), g')));
    [apply dn_from_loop|destruct (gfrom_loop rb (q_distinct q) (from_tables q) d g) as [[]]; cbn; auto|].
  intros l g1 J1. apply dn_ret. intros log H. exists l. split; [exact H|reflexivity].
Qed.
Lemma dn_union_loop : forall bs g, dn (fun log l => exists us, means_all e0 h0 log bs us /\ l = tkeep us) g (gunion_loop rb bs g).
Proof.
  induction bs as [|b bs IH]; intros g; cbn [gunion_loop].
  - apply dn_ret. intros log. exists []. split; [constructor|reflexivity].
  - eapply (dn_then _ _ _ _ g (rb b g)
      (fun s g' => match gunion_loop rb bs g' with (ROk l, g2) => (ROk (if tempty s then l else s :: l), g2) | r => r end));
      [apply Hrb|destruct (rb b g) as [[]]; cbn; auto|].
    intros s g1 J1. cbv beta.
    eapply (dn_then _ _ _ _ g1 (gunion_loop rb bs g1) (fun l g2 => (ROk (if tempty s then l else s :: l), g2))); [apply IH|destruct (gunion_loop rb bs g1) as [[]]; cbn; auto|].
    intros l g2 J2. apply dn_ret. intros log (us & Hu & ->) Hs. exists (s :: us). split; [constructor; assumption|].
    unfold tkeep. cbn [filter]. destruct (tempty s); reflexivity.
Qed.
Lemma dn_union : forall bs g, dn (fun log t => exists us, means_all e0 h0 log bs us /\
    t = tapp (tlit "UNION (") (tapp (tjoin ") UNION (" (tkeep us)) (tlit ")"))) g (gunion rb bs g).
Proof.
  intros bs g. unfold gunion.
  eapply (dn_then _ _ _ _ g (gunion_loop rb bs g) (fun l g' => (ROk (tapp (tlit "UNION (") (tapp (tjoin ") UNION (" l) (tlit ")"))), g')));
    [apply dn_union_loop|destruct (gunion_loop rb bs g) as [[]]; cbn; auto|].
  intros l g1 J1. apply dn_ret. intros log (us & Hu & ->). exists us. split; [exact Hu|reflexivity].
Qed.
Lemma dn_set : forall A (Q : list value -> A -> Prop) g id q r, rebuilt (nth id h0 new_qb) q -> dn Q (gset g id q) r -> dn Q g r.
Proof. intros A Q g id q r H K J. exact (K (inv_set g id q J H)). Qed.
Lemma dn_orders : forall id g, dn (fun log t => means e0 h0 log (BFrag (order_clause (nth id h0 new_qb))) t) g (gorders rb id g).
Proof.
  intros id g. apply dn_inv. intros J. unfold gorders. rewrite orders_spec.
  change (Frag join_comma [] (order_items (gget g id)) "ORDER BY" "") with (order_clause (gget g id)).
  rewrite (fixed_orders _ _ (rebuilt_fixed _ _ (J id))).
  eapply dn_set; [apply rebuilt_orders; apply J|]. apply Hrb.
Qed.
Lemma dn_selects : forall id g, let q := nth id h0 new_qb in
  dn (fun log t => exists s hd k, means e0 h0 log (BFrag (select_clause q)) s /\ tempty s = false /\
       means e0 h0 log (BFrag (more_frags (q_touches q) (copies k (hidden_columns q)))) hd /\
       t = if tempty hd then s else tapp s (tapp (tlit ", ") hd)) g (gselects rb id g).
Proof.
  intros id g q. apply dn_inv. intros J. unfold gselects.
  change (with_prefix (q_selects (gget g id)) (if q_distinct (gget g id) then "SELECT DISTINCT" else "SELECT")) with (select_clause (gget g id)).
  fold (with_select (gget g id)).
  destruct (rebuilt_fixed _ _ (J id)) as (_ & _ & _ & _ & _ & _ & _ & _ & _ & _ & _ & _ & _ & Q). rewrite Q. clear Q. fold q.
  eapply dn_set; [apply rebuilt_select; apply J|].
  eapply (dn_then _ _ _ _ _ (rb (BFrag (select_clause q)) (gset g id (with_select (gget g id))))
    (fun s g' => match rb (BFrag (q_touches (gget g' id))) g' with
      | (ROk t, g2) => if tempty s then (RErr (EMsg "no columns selected"), g2)
                       else if tempty t then (ROk s, g2) else (ROk (tapp s (tapp (tlit ", ") t)), g2)
      | r => r end));
    [apply Hrb|destruct (rb (BFrag (select_clause q)) (gset g id (with_select (gget g id)))) as [[]]; cbn; auto|].
  intros s g1 J1. cbv beta. destruct (J1 id) as (ss & k & es & E & _). fold q in E.
  assert (Et : q_touches (gget g1 id) = more_frags (q_touches q) (copies k (hidden_columns q))) by (rewrite E; reflexivity).
  rewrite Et.
  eapply (dn_then _ _ _ _ g1 (rb (BFrag (more_frags (q_touches q) (copies k (hidden_columns q)))) g1)
    (fun t g2 => if tempty s then (RErr (EMsg "no columns selected"), g2)
                 else if tempty t then (ROk s, g2) else (ROk (tapp s (tapp (tlit ", ") t)), g2)));
    [apply Hrb|destruct (rb _ g1) as [[]]; cbn; auto|].
  intros t g2 J2. cbv beta. destruct (tempty s) eqn:Es; [apply dn_none; exact I|].
  destruct (tempty t) eqn:E2; apply dn_ret; intros log Ht Hs; exists s, t, k; rewrite E2; repeat apply conj; auto.
Qed.

Lemma dn_internal : forall id g, dn (fun log t => means e0 h0 log (BQuery (Some id)) t) g (ginternal rb id g).
Proof.
  intros id g. apply dn_inv. intros J. pose (q := nth id h0 new_qb).
  assert (Fx : forall a, inv a -> fixed q (gget a id)) by (intros a Ja; apply rebuilt_fixed; apply Ja).
  unfold ginternal. destruct (q_errors (gget g id)); [|apply dn_none; exact I].
  destruct (collect_deps (gget g id)) as [d|er|er|] eqn:Ed; try (apply dn_none; exact I). clear Ed.
  replace (q_ctes (gget g id)) with (q_ctes q) by (symmetry; destruct (Fx g J) as (-> & _); reflexivity).
  eapply dn_bind; [apply dn_ctes|]. intros sq g1 J1. cbv beta.
  eapply dn_bind; [apply dn_from|]. intros fr g2 J2. cbv beta.
  rewrite (fixed_listed q (gget g1 id)) by (apply Fx; exact J1).
  eapply dn_bind; [apply Hrb|]. intros w g3 J3. cbv beta.
  replace (q_conds (gget g2 id)) with (q_conds q) by (symmetry; destruct (Fx g2 J2) as (_ & _ & _ & _ & _ & -> & _); reflexivity).
  eapply dn_bind; [apply Hrb|]. intros gr g4 J4. cbv beta.
  replace (q_groups (gget g3 id)) with (q_groups q) by (symmetry; destruct (Fx g3 J3) as (_ & _ & _ & _ & _ & _ & _ & -> & _); reflexivity).
  eapply dn_bind; [apply dn_orders|]. intros o g5 J5. cbv beta zeta. fold q.
  replace (q_limit (gget g5 id)) with (q_limit q) by (symmetry; destruct (Fx g5 J5) as (_ & _ & _ & _ & _ & _ & _ & _ & _ & -> & _); reflexivity).
  replace (q_offset (gget g5 id)) with (q_offset q) by (symmetry; destruct (Fx g5 J5) as (_ & _ & _ & _ & _ & _ & _ & _ & _ & _ & -> & _); reflexivity).
  eapply dn_bind; [apply dn_selects|]. intros se g6 J6. cbv beta. fold q.
  replace (q_unions (gget g6 id)) with (q_unions q) by (symmetry; destruct (Fx g6 J6) as (_ & _ & _ & _ & _ & _ & _ & _ & _ & _ & _ & -> & _); reflexivity).
  assert (L : (if (0 <? q_limit q)%Z then [tlit ("LIMIT " ++ itoa (q_limit q))] else []) = map tlit (number_clause "LIMIT " (q_limit q)))
    by (unfold number_clause; destruct (0 <? q_limit q)%Z; reflexivity).
  assert (O : (if (0 <? q_offset q)%Z then [tlit ("OFFSET " ++ itoa (q_offset q))] else []) = map tlit (number_clause "OFFSET " (q_offset q)))
    by (unfold number_clause; destruct (0 <? q_offset q)%Z; reflexivity).
  rewrite L, O. clear L O.
  assert (Fr : forall l, tnonempty (tapp (tlit "FROM ") (tjoin " " l)) = [tapp (tlit "FROM ") (tjoin " " l)]).
  { intros l. unfold tnonempty. rewrite tempty_app. reflexivity. }
  destruct (q_unions q) as [|u us0] eqn:Eu.
  - apply dn_ret. intros log (s & hd & k & Hs & Es & Hh & ->) Ho Hg Hw (l & Hl & ->) (ts & Hts & Esq).
    rewrite Esq, Fr. change tnonempty with tany.
    pose proof (M_query e0 h0 log id q k _ _ ts l w gr o s hd [] eq_refl Hts Hl Hw Hg Ho Hs Es Hh) as M.
    rewrite Eu in M. apply M. constructor.
  - rewrite <- Eu. eapply dn_bind; [apply dn_union|]. intros ut g7 J7. cbv beta. apply dn_ret.
    intros log (us & Hus & ->) (s & hd & k & Hs & Es & Hh & ->) Ho Hg Hw (l & Hl & ->) (ts & Hts & Esq).
    rewrite Esq, Fr. change tnonempty with tany.
    pose proof (M_query e0 h0 log id q k _ _ ts l w gr o s hd us eq_refl Hts Hl Hw Hg Ho Hs Es Hh Hus) as M.
    rewrite Eu in M. exact M.
Qed.
End Query.

Theorem den_build : forall n b g, (ord = true -> tree P b = true) ->
  den (fun log t => means e0 h0 log b t) g (fst (gbuild n e0 b g)) (snd (gbuild n e0 b g)).
Proof.
  induction n as [|n IH]; intros b g Hb; cbn [gbuild]; [apply den_none; exact I|].
  destruct b as [| |f| |[f|] t|t|x a|[id|]|p];
    try (apply den_none; exact I); try (apply den_lit; intros; constructor).
  - apply den_frag; [exact IH|exact Hb|]. intros. econstructor; eassumption.
  - apply den_frag; [exact IH|exact Hb|]. intros. econstructor; eassumption.
  - destruct (bool_dec ord true) as [Ho|Ho]; [specialize (Hb Ho); discriminate Hb|].
    assert (Hrb : forall b g, dn (fun log t => means e0 h0 log b t) g (gbuild n e0 b g)).
    { intros b' g' J'. destruct (IH b' g') with (1 := fun K => False_ind (tree P b' = true) (Ho K)) as (J1 & X & M); [exact J'|].
      split; [exact J1|]. split; [exact X|]. destruct (fst (gbuild n e0 b' g')); auto. apply M. }
    intros J. destruct (dn_internal (gbuild n e0) Hrb id g J) as (J1 & X & M). split; [exact J1|]. split; [exact X|].
    destruct (fst (ginternal (gbuild n e0) id g)); auto. split; [intros K; contradiction|exact M].
Qed.
End Den.

(* ------------------------------------------------------------------ *)
(** * Builds *)

Theorem question_values : forall n style h b s args,
  style <> style_dollar -> lib all_values b = true -> forallb (lib_qb all_values) h = true ->
  fst (build_query n style h b) = ROk (s, args) ->
  exists t, means [builtins] h args b t /\ s = render qmark t /\
    NoDup (placeholders t) /\ (forall j, In j (placeholders t) -> j < List.length args) /\
    (tree all_values b = true -> increasing 0 (placeholders t) /\
      (List.length (placeholders t) = List.length args -> placeholders t = seq 0 (List.length args))).
Proof.
  intros n style h b s args Hst Hb Hh H. unfold build_query in H.
  assert (Hd : st_dollar (new_store style h) = false).
  { unfold new_store. cbn [st_dollar]. apply Z.eqb_neq. exact Hst. }
  destruct (build_general all_values n [builtins] b (new_store style h) eq_refl Hb Hh) as [E [G C]].
  { rewrite Hd. discriminate. }
  rewrite E in H. cbn [new_store st_heap] in *.
  pose proof (fun ord Ho => den_build [builtins] eq_refl all_values ord h n b (mkG [] h) Ho (fun id => rebuilt_refl _)) as D0.
  pose proof (D0 (tree all_values b) (fun K => K)) as [_ [X D]]. cbn [g_log] in *.
  pose proof (proj2 (fr_build n [builtins] b (mkG [] h))) as N.
  set (r := gbuild n [builtins] b (mkG [] h)) in *. set (log := g_log (snd r)) in *.
  destruct (fst r) as [t|er|er|]; cbn [omap fst okT] in *; try discriminate.
  cbn [set_heap st_args] in H. destruct (replay_question log (new_store style h) Hd) as [Q _].
  cbn [new_store st_args app] in Q. rewrite Q in H.
  assert (Es : s = render (shown (new_store style h) log) t) by congruence.
  assert (Ea : args = log) by congruence. rewrite Es, Ea. clear H Es Ea. exists t.
  destruct D as [D1 D2]. split; [apply D2; apply ext_refl|]. split.
  { apply render_question; assumption. }
  split; [apply N|]. split; [exact C|]. intros Ht. destruct (D1 Ht) as [W1 W2]. split; [exact W1|]. intros Hl. cbn [List.length] in *.
  rewrite <- Hl. apply increasing_seq; [exact W1|]. cbn [plus]. rewrite Hl. exact W2.
Qed.

Theorem dollar_values : forall n h b s args,
  lib hashable b = true -> forallb (lib_qb hashable) h = true ->
  fst (build_query n style_dollar h b) = ROk (s, args) ->
  exists t log p, means [builtins] h log b t /\ s = render p t /\
    forall j, In j (placeholders t) -> exists v, nth_error log j = Some v /\ dollar_denotes args (p j) v.
Proof.
  intros n h b s args Hb Hh H. unfold build_query in H.
  destruct (build_general hashable n [builtins] b (new_store style_dollar h) eq_refl Hb Hh) as [E [G C]].
  { auto. }
  rewrite E in H. cbn [new_store st_heap] in *.
  pose proof (den_build [builtins] eq_refl hashable false h n b (mkG [] h) (fun K => False_ind _ (diff_false_true K)) (fun id => rebuilt_refl _)) as [_ [X D]]. cbn [g_log] in *.
  set (r := gbuild n [builtins] b (mkG [] h)) in *. set (log := g_log (snd r)) in *.
  destruct (fst r) as [t|er|er|]; cbn [omap fst okT] in *; try discriminate.
  cbn [set_heap st_args] in H.
  assert (Es : s = render (shown (new_store style_dollar h) log) t) by congruence.
  assert (Ea : args = st_args (replay (new_store style_dollar h) log)) by congruence. rewrite Es, Ea. clear H Es Ea. exists t, log, (shown (new_store style_dollar h) log).
  destruct D as [_ D2]. split; [apply D2; apply ext_refl|]. split; [reflexivity|].
  intros j Hj. destruct (nth_error log j) as [v|] eqn:En.
  - exists v. split; [reflexivity|]. refine (shown_denotes (new_store style_dollar h) log j v _ _ En).
    + intros _ w k Hk. discriminate Hk.
    + intros _. exact G.
  - apply nth_error_None in En. specialize (C j Hj). lia.
Qed.
