(** The model builds exactly the rendered reference semantics. *)
From Coq Require Import Strings.String Strings.Ascii NArith ZArith List Bool Lia.
From Verif Require Import GoStr GoNum Syntax Value Util Model Sqlf Sqlb Spec_syntax ByteLex Lex_proofs Num_proofs RefSem Text_proofs.
Import ListNotations.
Open Scope string_scope.

(* ------------------------------------------------------------------ *)
(** * Replaying a log of commits *)

Fixpoint replay (st : store) (log : list value) : store :=
  match log with [] => st | v :: l => replay (snd (commit v st)) l end.

(** The placeholder shown for commit number [j]. *)
Definition shown (st : store) (log : list value) (j : nat) : string :=
  match nth_error log j with
  | Some v => match fst (commit v (replay st (firstn j log))) with ROk s => s | _ => "" end
  | None => ""
  end.

Definition inst (st : store) (g : gst) : store := set_heap (replay st (g_log g)) (g_heap g).
Definition instF (st : store) (S : gfs) : fstate := mkFS (inst st (gf_g S)) (gf_ua S) (gf_uf S).

Definition omap {A B} (f : A -> B) (o : outcome A) : outcome B :=
  match o with ROk a => ROk (f a) | RErr e => RErr e | RPanic e => RPanic e | RFuel => RFuel end.

Lemma replay_app : forall a st b, replay st (a ++ b) = replay (replay st a) b.
Proof. induction a as [|v a IH]; intros st b; [reflexivity|]. cbn. apply IH. Qed.

Lemma commit_heap : forall v st h, commit v (set_heap st h) =
  (fst (commit v st), set_heap (snd (commit v st)) h).
Proof.
  intros v [d a di h0] h. unfold commit, set_heap. cbn [st_dollar st_args st_dict st_heap].
  destruct d; [|reflexivity]. destruct (hashable v); [|reflexivity].
  destruct (dict_find v di); reflexivity.
Qed.

Lemma commit_dollar : forall v st, st_dollar (snd (commit v st)) = st_dollar st.
Proof.
  intros v st. unfold commit. destruct (st_dollar st) eqn:E; [|cbn; reflexivity].
  destruct (hashable v); [|exact E]. destruct (dict_find v (st_dict st)); [exact E|reflexivity].
Qed.
Lemma replay_dollar : forall log st, st_dollar (replay st log) = st_dollar st.
Proof. induction log as [|v l IH]; intros st; [reflexivity|]. cbn. rewrite IH. apply commit_dollar. Qed.

Lemma set_heap_same : forall st, set_heap st (st_heap st) = st.
Proof. intros []; reflexivity. Qed.

Lemma nilempty_nonempty : forall d, d <> Decimal.Nil -> exists a s,
  Numbers.DecimalString.NilEmpty.string_of_uint d = String a s.
Proof. intros [| | | | | | | | | |]; intros H; try contradiction; cbn; eauto. Qed.

Lemma digit_vis : forall a, is_digit a = true -> vis a = true.
Proof. intros [[] [] [] [] [] [] [] []]; try discriminate; reflexivity. Qed.

Lemma last_digit : forall s, all is_digit s = true -> s <> "" ->
  exists r a, s = r ++ String a "" /\ is_digit a = true.
Proof.
  induction s as [|a s IH]; intros H Hne; [contradiction|]. cbn in H. apply andb_prop in H as [H1 H2].
  destruct s as [|b s]; [exists "", a; auto|].
  destruct IH as [r [c [E Hc]]]; [exact H2|discriminate|].
  exists (String a r), c. split; [cbn; rewrite E; reflexivity|exact Hc].
Qed.

Lemma all_digits_uint2 : forall d, all is_digit (Numbers.DecimalString.NilZero.string_of_uint d) = true.
Proof. intros d. destruct d; try reflexivity; apply (all_digits_uint). Qed.

Lemma vis_dollar : forall i, vis_str ("$" ++ itoa_nat i).
Proof.
  intros i. split.
  - exists "$"%char, (itoa_nat i). split; reflexivity.
  - unfold itoa_nat.
    destruct (last_digit (Numbers.DecimalString.NilZero.string_of_uint (Nat.to_uint i))) as [r [a [E Ha]]].
    + apply all_digits_uint2.
    + destruct (Nat.to_uint i); discriminate.
    + exists ("$" ++ r), a. rewrite E. split; [rewrite append_assoc; reflexivity|apply digit_vis; exact Ha].
Qed.

Lemma vis_question : vis_str "?".
Proof. split; [exists "?"%char, ""|exists "", "?"%char]; split; reflexivity. Qed.

Definition ext (l l' : list value) : Prop := exists x, l' = (l ++ x)%list.
Lemma ext_refl : forall l, ext l l.
Proof. intros l. exists []. rewrite app_nil_r. reflexivity. Qed.
Lemma ext_trans : forall a b c, ext a b -> ext b c -> ext a c.
Proof. intros a b c [x ->] [y ->]. exists (x ++ y)%list. rewrite app_assoc. reflexivity. Qed.
Lemma ext_length : forall a b, ext a b -> List.length a <= List.length b.
Proof. intros a b [x ->]. rewrite app_length. lia. Qed.

Lemma shown_ext : forall st l l' j, ext l l' -> j < List.length l -> shown st l' j = shown st l j.
Proof.
  intros st l l' j [x ->] H. unfold shown. rewrite nth_error_app1 by exact H.
  rewrite firstn_app. replace (j - List.length l) with 0 by lia. cbn [firstn]. rewrite app_nil_r. reflexivity.
Qed.

Definition covers (log : list value) (t : text) : Prop :=
  forall j, In j (placeholders t) -> j < List.length log.

Lemma covers_ext : forall l l' t, ext l l' -> covers l t -> covers l' t.
Proof. intros l l' t H Hc j Hj. apply ext_length in H. specialize (Hc j Hj). lia. Qed.
Lemma covers_lit : forall l s, covers l (tlit s).
Proof. intros l s j []. Qed.
Lemma covers_app : forall l x y, covers l x -> covers l y -> covers l (tapp x y).
Proof. intros l x y Hx Hy j. rewrite placeholders_app, in_app_iff. intros [H|H]; auto. Qed.
Lemma covers_trim : forall l t, covers l t -> covers l (ttrim t).
Proof. intros l t H j. rewrite placeholders_trim. apply H. Qed.
Lemma covers_join : forall l sep ts, Forall (covers l) ts -> covers l (tjoin sep ts).
Proof.
  intros l sep ts H j. rewrite placeholders_join. rewrite in_concat. intros [x [Hx Hj]].
  apply in_map_iff in Hx as [t [<- Ht]]. rewrite Forall_forall in H. exact (H t Ht j Hj).
Qed.

Lemma render_stable : forall st l l' t, ext l l' -> covers l t ->
  render (shown st l') t = render (shown st l) t.
Proof. intros st l l' t He Hc. apply render_ext. intros j Hj. apply shown_ext; [exact He|apply Hc; exact Hj]. Qed.

(* ------------------------------------------------------------------ *)
(** * Library-built trees *)

Lemma lib_frag_eq : forall P f, lib_frag P f = forallb P (f_args f) && forallb (lib P) (f_frags f).
Proof.
  intros P [raw args frags p s]. cbn [lib_frag f_args f_frags]. f_equal.
Qed.

Lemma lookup_lib : forall e name f, lib_env e = true -> lookup_fn e name = Some f -> lib_fn f = true.
Proof.
  induction e as [|m e IH]; intros name f H Hl; [discriminate|].
  cbn in H. apply andb_prop in H as [H1 H2]. cbn [lookup_fn] in Hl.
  destruct (assoc name m) as [g|] eqn:E.
  - inversion Hl; subst. clear -H1 E. induction m as [|[k g] m IH]; [discriminate|].
    cbn in H1, E. apply andb_prop in H1 as [Ha Hb]. destruct (String.eqb name k).
    + inversion E; subst. exact Ha.
    + apply IH; assumption.
  - exact (IH _ _ H2 Hl).
Qed.

Lemma forallb_nth : forall A (P : A -> bool) l i x, forallb P l = true -> nth_error l i = Some x -> P x = true.
Proof. intros A P l i x H Hn. rewrite forallb_forall in H. apply H. apply nth_error_In in Hn. exact Hn. Qed.

Lemma nth1_In : forall A (l : list A) i x, nth1 l i = Some x -> In x l.
Proof. intros A l i x H. unfold nth1 in H. destruct (_ && _); [|discriminate]. apply nth_error_In in H. exact H. Qed.

(* ------------------------------------------------------------------ *)
(** * Simulation *)

Section Sim.
Variable P : value -> bool.
Variable st0 : store.
Hypothesis HP : st_dollar st0 = true -> forall v, P v = true -> hashable v = true.

Definition good (log : list value) : Prop := forallb P log = true.
Definition libh (h : list qb) : Prop := forallb (lib_qb P) h = true.

Lemma commit_shows : forall v st, P v = true -> st_dollar st = st_dollar st0 ->
  exists s, fst (commit v st) = ROk s /\ vis_str s.
Proof.
  intros v st Hv Hd. unfold commit. rewrite Hd. destruct (st_dollar st0) eqn:E.
  - rewrite (HP eq_refl v Hv). destruct (dict_find v (st_dict st)); cbn [fst]; eexists; split; try reflexivity; apply vis_dollar.
  - cbn [fst]. eexists; split; [reflexivity|apply vis_question].
Qed.

Lemma shown_vis : forall log j, good log -> j < List.length log -> vis_str (shown st0 log j).
Proof.
  intros log j Hg Hj. unfold shown.
  destruct (nth_error log j) as [v|] eqn:E; [|apply nth_error_None in E; lia].
  destruct (commit_shows v (replay st0 (firstn j log))) as [s [-> Hs]].
  - exact (forallb_nth _ _ _ _ _ Hg E).
  - apply replay_dollar.
  - exact Hs.
Qed.

Lemma vis_nonempty : forall s, vis_str s -> s <> "".
Proof. intros s [[a [r [-> _]]] _]. discriminate. Qed.

Lemma render_empty_g : forall log t, good log -> covers log t ->
  is_empty (render (shown st0 log) t) = tempty t.
Proof.
  intros log t Hg Hc. apply render_empty. intros j Hj. apply vis_nonempty. apply shown_vis; [exact Hg|exact (Hc j Hj)].
Qed.
Lemma render_trim_g : forall log t, good log -> covers log t ->
  trim_space (render (shown st0 log) t) = render (shown st0 log) (ttrim t).
Proof. intros log t Hg Hc. apply render_trim. intros j Hj. apply shown_vis; [exact Hg|exact (Hc j Hj)]. Qed.

Definition okg (g : gst) : Prop := good (g_log g) /\ libh (g_heap g).

Definition okT (log : list value) (o : outcome text) : Prop :=
  match o with ROk t => covers log t | _ => True end.

Definition sim (g : gst) (m : outcome string * store) (r : outcome text * gst) : Prop :=
  ext (g_log g) (g_log (snd r)) /\ okg (snd r) /\ okT (g_log (snd r)) (fst r) /\
  m = (omap (render (shown st0 (g_log (snd r)))) (fst r), inst st0 (snd r)).

Definition simF (S : gfs) (m : outcome string * fstate) (r : outcome text * gfs) : Prop :=
  ext (g_log (gf_g S)) (g_log (gf_g (snd r))) /\ okg (gf_g (snd r)) /\
  okT (g_log (gf_g (snd r))) (fst r) /\
  m = (omap (render (shown st0 (g_log (gf_g (snd r))))) (fst r), instF st0 (snd r)).

Lemma sim_commit : forall v g, P v = true -> okg g -> sim g (commit v (inst st0 g)) (gcommit v g).
Proof.
  intros v [log h] Hv [Hg Hh]. unfold sim, gcommit, inst. cbn [g_log g_heap fst snd] in *.
  split; [exists [v]; reflexivity|]. split.
  { split; [|exact Hh]. unfold good in *. cbn [g_log]. rewrite forallb_app, Hg. cbn. rewrite Hv. reflexivity. }
  split.
  { intros j [<-|[]]. rewrite app_length. cbn. lia. }
  rewrite commit_heap. rewrite replay_app. cbn [replay omap].
  destruct (commit_shows v (replay st0 log) Hv (replay_dollar _ _)) as [s [Es _]].
  f_equal. rewrite render_ph. rewrite Es. unfold shown.
  rewrite nth_error_app2 by lia. rewrite Nat.sub_diag. cbn [nth_error].
  rewrite firstn_app, Nat.sub_diag, firstn_all. cbn [firstn]. rewrite app_nil_r, Es. reflexivity.
Qed.

Lemma simF_arg : forall fc i S, forallb P (fr_args fc) = true -> okg (gf_g S) ->
  simF S (func_arg fc i (instF st0 S)) (gfunc_arg fc i S).
Proof.
  intros fc i S Hp Hg. unfold func_arg, gfunc_arg. destruct (nth1 (fr_args fc) i) as [v|] eqn:E.
  - assert (Hv : P v = true) by (rewrite forallb_forall in Hp; apply Hp; exact (nth1_In _ _ _ _ E)).
    pose proof (sim_commit v (gf_g S) Hv Hg) as (H1 & H2 & H3 & H4).
    cbn [instF fs_st fs_ua fs_uf] in *. rewrite H4.
    destruct (gcommit v (gf_g S)) as [o g']. cbn [fst snd] in *.
    unfold simF. cbn [fst snd gf_g]. auto.
  - unfold simF. cbn [fst snd]. repeat apply conj; [apply ext_refl|apply Hg|apply Hg|exact I|reflexivity].
Qed.

Lemma simF_same : forall (S : gfs) (o : outcome text) (o' : outcome string), okg (gf_g S) ->
  match o, o' with
  | ROk t, ROk s => exists u, t = tlit u /\ s = u
  | RErr a, RErr b => a = b
  | RPanic a, RPanic b => a = b
  | RFuel, RFuel => True
  | _, _ => False
  end -> simF S (o', instF st0 S) (o, S).
Proof.
  intros S o o' Hg H. unfold simF. cbn [fst snd].
  apply conj; [apply ext_refl|]. apply conj; [exact Hg|].
  destruct o, o'; try contradiction; cbn [okT omap].
  - destruct H as [u [-> ->]]. rewrite render_lit. split; [apply covers_lit|reflexivity].
  - subst. auto.
  - subst. auto.
  - auto.
Qed.

Lemma simF_safe : forall name S m r, simF S m r -> simF S (safe name m) (gsafe name r).
Proof.
  intros name S m [o S'] (H1 & H2 & H3 & H4). cbn [fst snd] in *. subst m. unfold simF.
  destruct o; cbn [omap safe gsafe fst snd] in *; auto.
Qed.

Section Clause.
Variable mrb : env -> builder -> store -> outcome string * store.
Variable grb : env -> builder -> gst -> outcome text * gst.
Hypothesis Hrb : forall e b g, lib_env e = true -> lib P b = true -> okg g ->
  sim g (mrb e b (inst st0 g)) (grb e b g).
Variable mrc : env -> frame -> list expr -> fstate -> outcome string * fstate.
Variable grc : env -> frame -> list expr -> gfs -> outcome text * gfs.
Definition okfc (fc : frame) : Prop := forallb P (fr_args fc) = true /\ forallb (lib P) (fr_frags fc) = true.
Hypothesis Hrc : forall e fc es S, lib_env e = true -> okfc fc -> okg (gf_g S) ->
  simF S (mrc e fc es (instF st0 S)) (grc e fc es S).
Variable jf : nat.

Lemma simF_fragment : forall e fc i S, lib_env e = true -> okfc fc -> okg (gf_g S) ->
  simF S (func_fragment mrb e fc i (instF st0 S)) (gfunc_fragment grb e fc i S).
Proof.
  intros e fc i S He [_ Hf] Hg. unfold func_fragment, gfunc_fragment.
  destruct (nth1 (fr_frags fc) i) as [b|] eqn:E.
  - assert (Hb : lib P b = true) by (rewrite forallb_forall in Hf; apply Hf; exact (nth1_In _ _ _ _ E)).
    pose proof (Hrb e b (gf_g S) He Hb Hg) as (H1 & H2 & H3 & H4).
    cbn [instF fs_st fs_ua fs_uf] in *. rewrite H4.
    destruct (grb e b (gf_g S)) as [o g']. cbn [fst snd] in *.
    unfold simF. cbn [fst snd gf_g]. auto.
  - apply simF_same; [exact Hg|reflexivity].
Qed.

Lemma compat_lib : forall name f st, lib_fn f = true -> join_compat mrb name f st = (gcompat f, false, st).
Proof. intros name f st H. destruct f; try discriminate; reflexivity. Qed.

Lemma prep_lib : forall e es st, lib_env e = true ->
  join_prep mrb e es st = (gjoin_prep e es, st).
Proof.
  intros e es st He. induction es as [|x es IH]; [reflexivity|].
  destruct x as [t p|a b p|name args p|name p]; cbn [join_prep gjoin_prep]; try exact IH.
  destruct (lookup_fn e name) as [f|] eqn:E; [|reflexivity].
  rewrite compat_lib by exact (lookup_lib _ _ _ He E).
  destruct (gcompat f); [|reflexivity]. rewrite IH. destruct (gjoin_prep e es); reflexivity.
Qed.

Lemma simF_trans : forall S S1 m r, ext (g_log (gf_g S)) (g_log (gf_g S1)) -> simF S1 m r -> simF S m r.
Proof.
  intros S S1 m r H (H1 & H2 & H3 & H4). unfold simF.
  apply conj; [exact (ext_trans _ _ _ H H1)|auto].
Qed.

Lemma simF_loop : forall n e fc es sep from to i acc S, lib_env e = true -> okfc fc -> okg (gf_g S) ->
  covers (g_log (gf_g S)) acc ->
  simF S (join_loop mrc n e fc es sep from to i (render (shown st0 (g_log (gf_g S))) acc) (instF st0 S))
         (gjoin_loop grc n e fc es sep from to i acc S).
Proof.
  induction n as [|n IH]; intros e fc es sep from to i acc S He Hfc Hg Hc.
  - cbn. apply simF_same; [exact Hg|exact I].
  - cbn [join_loop gjoin_loop].
    pose proof (Hrc e fc (set_index i es) S He Hfc Hg) as (H1 & H2 & H3 & H4). rewrite H4. clear H4.
    destruct (grc e fc (set_index i es) S) as [o S']. cbn [fst snd] in *.
    assert (Ha : covers (g_log (gf_g S')) acc) by (eapply covers_ext; eassumption).
    pose proof (render_stable st0 _ _ _ H1 Hc) as Er. rewrite <- Er.
    destruct o as [t|er|er|]; cbn [omap okT] in *.
    + rewrite (render_empty_g _ _ (proj1 H2) H3), (render_empty_g _ _ (proj1 H2) Ha).
      set (acc' := if tempty t then acc else if tempty acc then t else tapp acc (tapp (tlit sep) t)).
      assert (Hc' : covers (g_log (gf_g S')) acc').
      { unfold acc'. destruct (tempty t); [exact Ha|]. destruct (tempty acc); [exact H3|].
        apply covers_app; [exact Ha|]. apply covers_app; [apply covers_lit|exact H3]. }
      assert (Ea : (if tempty t then render (shown st0 (g_log (gf_g S'))) acc
                    else if tempty acc then render (shown st0 (g_log (gf_g S'))) t
                    else render (shown st0 (g_log (gf_g S'))) acc ++ sep ++ render (shown st0 (g_log (gf_g S'))) t)
                   = render (shown st0 (g_log (gf_g S'))) acc').
      { unfold acc'. destruct (tempty t); [reflexivity|]. destruct (tempty acc); [reflexivity|].
        rewrite !render_app, render_lit. reflexivity. }
      rewrite Ea.
      destruct ((0 <? to)%Z && (to <=? i)%Z).
      * unfold simF. cbn [fst snd omap okT]. auto.
      * apply simF_trans with S'; [exact H1|]. apply IH; assumption.
    + destruct (is_invalid_index er); [destruct (_ || _)|]; unfold simF; cbn [fst snd omap okT]; auto.
    + unfold simF; cbn [fst snd omap okT]; auto.
    + unfold simF; cbn [fst snd omap okT]; auto.
Qed.

Lemma simF_join : forall e fc tmpl sep idx S, lib_env e = true -> okfc fc -> okg (gf_g S) ->
  simF S (func_join mrb mrc jf e fc tmpl sep idx (instF st0 S)) (gfunc_join grc jf e fc tmpl sep idx S).
Proof.
  intros e fc tmpl sep idx S He Hfc Hg. unfold func_join, gfunc_join.
  match goal with |- context [match idx with [] => ?a | _ => _ end] =>
    assert (G : forall from to, simF S
      (if (0 <? to)%Z && (to <? from)%Z then (RErr (bad_range from to), instF st0 S) else
       match parse tmpl with
       | PErr o m => (RErr (bad_template tmpl o m), instF st0 S)
       | PPanic => (RPanic index_range, instF st0 S)
       | PFuel => (RFuel, instF st0 S)
       | POk es =>
         let '(r, st') := join_prep mrb e es (fs_st (instF st0 S)) in
         let S' := mkFS st' (fs_ua (instF st0 S)) (fs_uf (instF st0 S)) in
         match r with
         | ROk O => (RErr (no_function tmpl), S')
         | ROk _ => join_loop mrc jf e fc es sep from to (if (from <=? 0)%Z then 1%Z else from) "" S'
         | RErr er => (RErr er, S')
         | RPanic er => (RPanic er, S')
         | RFuel => (RFuel, S')
         end
       end)
      (if (0 <? to)%Z && (to <? from)%Z then (RErr (bad_range from to), S) else
       match parse tmpl with
       | PErr o m => (RErr (bad_template tmpl o m), S)
       | PPanic => (RPanic index_range, S)
       | PFuel => (RFuel, S)
       | POk es =>
         match gjoin_prep e es with
         | ROk O => (RErr (no_function tmpl), S)
         | ROk _ => gjoin_loop grc jf e fc es sep from to (if (from <=? 0)%Z then 1%Z else from) (tlit "") S
         | RErr er => (RErr er, S)
         | RPanic er => (RPanic er, S)
         | RFuel => (RFuel, S)
         end
       end)) end.
  { intros from to. destruct ((0 <? to)%Z && (to <? from)%Z); [apply simF_same; [exact Hg|reflexivity]|].
    destruct (parse tmpl) as [es|p m| |]; try (apply simF_same; [exact Hg|first [reflexivity|exact I]]).
    rewrite (prep_lib e es _ He). cbn [instF fs_st fs_ua fs_uf].
    fold (instF st0 S).
    destruct (gjoin_prep e es) as [[|k]|er|er|]; try (apply simF_same; [exact Hg|first [reflexivity|exact I]]).
    rewrite <- (render_lit (shown st0 (g_log (gf_g S))) "") at 1.
      apply simF_loop; try assumption. apply covers_lit. }
  destruct idx as [|a [|b [|c idx]]]; try apply G.
  apply simF_same; [exact Hg|reflexivity].
Qed.

Lemma simF_call : forall e fc f args S, lib_env e = true -> okfc fc -> okg (gf_g S) -> lib_fn f = true ->
  simF S (call_fn mrb mrc jf e fc f args (instF st0 S)) (gcall_fn grb grc jf e fc f args S).
Proof.
  intros e fc f args S He Hfc Hg Hf. destruct f; cbn [call_fn gcall_fn]; [| | |discriminate].
  - apply simF_arg; [apply Hfc|exact Hg].
  - apply simF_fragment; assumption.
  - destruct args as [|[] [|[] idx]]; try (apply simF_same; [exact Hg|reflexivity]).
    apply simF_join; assumption.
Qed.

Lemma simF_eval_call : forall e fc name f args S, lib_env e = true -> okfc fc -> okg (gf_g S) -> lib_fn f = true ->
  simF S (eval_call mrb mrc jf e fc name f args (instF st0 S)) (geval_call grb grc jf e fc name f args S).
Proof.
  intros e fc name f args S He Hfc Hg Hf. unfold eval_call, geval_call.
  destruct (arity_ok _ _); [|apply simF_same; [exact Hg|reflexivity]].
  destruct (eval_args _ _); try (apply simF_same; [exact Hg|first [reflexivity|exact I]]).
  destruct (any_rejected _ _).
  - apply simF_safe. apply simF_same; [exact Hg|reflexivity].
  - apply simF_safe. apply simF_call; assumption.
Qed.

Lemma simF_expr : forall e fc x S, lib_env e = true -> okfc fc -> okg (gf_g S) ->
  simF S (eval_expr mrb mrc jf e fc x (instF st0 S)) (geval_expr grb grc jf e fc x S).
Proof.
  intros e fc x S He Hfc Hg. destruct x as [t p|a i p|name args p|name p]; cbn [eval_expr geval_expr].
  - apply simF_same; [exact Hg|eauto].
  - destruct (nth1 (fr_args fc) i) as [v|] eqn:E; [|apply simF_same; [exact Hg|reflexivity]].
    apply simF_arg; [apply Hfc|exact Hg].
  - unfold eval_function, geval_function. destruct (lookup_fn e name) as [f|] eqn:E.
    + apply simF_eval_call; try assumption. exact (lookup_lib _ _ _ He E).
    + apply simF_same; [exact Hg|reflexivity].
  - apply simF_same; [exact Hg|reflexivity].
Qed.

Lemma simF_clause : forall e fc es S, lib_env e = true -> okfc fc -> okg (gf_g S) ->
  simF S (clause mrb mrc jf e fc es (instF st0 S)) (gclause grb grc jf e fc es S).
Proof.
  intros e fc es. induction es as [|x es IH]; intros S He Hfc Hg; cbn [clause gclause].
  - apply simF_same; [exact Hg|eauto].
  - pose proof (simF_expr e fc x S He Hfc Hg) as (H1 & H2 & H3 & H4). rewrite H4. clear H4.
    destruct (geval_expr grb grc jf e fc x S) as [o S']. cbn [fst snd] in *.
    destruct o as [t|er|er|]; cbn [omap okT] in *; try (unfold simF; cbn [fst snd omap okT]; auto; fail).
    pose proof (IH S' He Hfc H2) as (K1 & K2 & K3 & K4). rewrite K4. clear K4.
    destruct (gclause grb grc jf e fc es S') as [o2 S2]. cbn [fst snd] in *.
    pose proof (ext_trans _ _ _ H1 K1) as HH.
    destruct o2 as [t2|er|er|]; cbn [omap okT] in *; unfold simF; cbn [fst snd omap okT]; auto.
    apply conj; [exact HH|]. apply conj; [exact K2|]. apply conj.
    + apply covers_app; [exact (covers_ext _ _ _ K1 H3)|exact K3].
    + rewrite render_app. rewrite (render_stable st0 _ _ t K1 H3). reflexivity.
Qed.
End Clause.

Lemma simF_clause_n : forall mrb grb,
  (forall e b g, lib_env e = true -> lib P b = true -> okg g ->
    sim g (mrb e b (inst st0 g)) (grb e b g)) ->
  forall n e fc es S, lib_env e = true -> okfc fc -> okg (gf_g S) ->
  simF S (clause_n n mrb e fc es (instF st0 S)) (gclause_n n grb e fc es S).
Proof.
  intros mrb grb Hrb. induction n as [|n IH]; intros e fc es S He Hfc Hg; cbn [clause_n gclause_n].
  - apply simF_same; [exact Hg|exact I].
  - apply simF_clause; assumption.
Qed.

Lemma render_wrap : forall log f body, good log -> covers log body ->
  render (shown st0 log) (gwrap f body) =
  (let b := trim_space (render (shown st0 log) body) in
   if is_empty b then "" else
   (if is_empty (f_prefix f) then "" else f_prefix f ++ " ") ++ b ++
   (if is_empty (f_suffix f) then "" else " " ++ f_suffix f)).
Proof.
  intros log f body Hg Hc. unfold gwrap. rewrite (render_trim_g _ _ Hg Hc). cbn zeta.
  rewrite (render_empty_g _ _ Hg (covers_trim _ _ Hc)).
  destruct (tempty (ttrim body)); [apply render_lit|].
  rewrite !render_app, !render_lit. reflexivity.
Qed.

Lemma covers_wrap : forall log f body, covers log body -> covers log (gwrap f body).
Proof.
  intros log f body H. unfold gwrap. destruct (tempty (ttrim body)); [apply covers_lit|].
  apply covers_app; [apply covers_lit|]. apply covers_app; [apply covers_trim; exact H|apply covers_lit].
Qed.

Lemma sim_same : forall (g : gst) (o : outcome text) (o' : outcome string), okg g ->
  match o, o' with
  | ROk t, ROk s => exists u, t = tlit u /\ s = u
  | RErr a, RErr b => a = b
  | RPanic a, RPanic b => a = b
  | RFuel, RFuel => True
  | _, _ => False
  end -> sim g (o', inst st0 g) (o, g).
Proof.
  intros g o o' Hg H. unfold sim. cbn [fst snd].
  apply conj; [apply ext_refl|]. apply conj; [exact Hg|].
  destruct o, o'; try contradiction; cbn [okT omap].
  - destruct H as [u [-> ->]]. rewrite render_lit. split; [apply covers_lit|reflexivity].
  - subst. auto.
  - subst. auto.
  - auto.
Qed.

Lemma sim_frag : forall mrb grb,
  (forall e b g, lib_env e = true -> lib P b = true -> okg g ->
    sim g (mrb e b (inst st0 g)) (grb e b g)) ->
  forall n e f g, lib_env e = true -> lib_frag P f = true -> okg g ->
  sim g (build_frag n mrb e f (inst st0 g)) (gbuild_frag n grb e f g).
Proof.
  intros mrb grb Hrb n e f g He Hf Hg. unfold build_frag, gbuild_frag.
  destruct (parse (f_raw f)) as [es|p m| |]; try (apply sim_same; [exact Hg|first [reflexivity|exact I]]).
  rewrite lib_frag_eq in Hf. apply andb_prop in Hf as [Hf1 Hf2].
  set (S := mkGF g (map (fun _ => false) (f_args f)) (map (fun _ => false) (f_frags f))).
  pose proof (simF_clause_n mrb grb Hrb n e (mkFrame (f_args f) (f_frags f)) es S He (conj Hf1 Hf2) Hg)
    as (H1 & H2 & H3 & H4).
  cbn [fr_args fr_frags] in *. unfold instF in H4 at 1. cbn [S gf_g gf_ua gf_uf] in H4. fold S in H4. rewrite H4. clear H4.
  destruct (gclause_n n grb e (mkFrame (f_args f) (f_frags f)) es S) as [o S']. cbn [fst snd] in *.
  destruct o as [t|er|er|]; cbn [omap okT] in *; try (unfold sim; cbn [fst snd omap okT instF fs_st]; auto; fail).
  cbn [instF fs_ua fs_uf fs_st].
  destruct (all_used (gf_ua S') && all_used (gf_uf S')).
  - unfold sim. cbn [fst snd omap okT]. apply conj; [exact H1|]. apply conj; [exact H2|].
    apply conj; [apply covers_wrap; exact H3|].
    rewrite (render_wrap _ f t (proj1 H2) H3). cbn zeta. destruct (is_empty _); reflexivity.
  - unfold sim. cbn [fst snd omap okT]. auto.
Qed.

(* ------------------------------------------------------------------ *)
(** ** Query builders *)

Lemma lib_new_qb : lib_qb P new_qb = true.
Proof. reflexivity. Qed.

Lemma gget_lib : forall g id, okg g -> lib_qb P (gget g id) = true.
Proof.
  intros g id [_ H]. unfold gget. unfold libh in H. rewrite forallb_forall in H.
  destruct (nth_in_or_default id (g_heap g) new_qb) as [Hi| ->]; [auto|apply lib_new_qb].
Qed.

Lemma forallb_upd : forall A (p : A -> bool) l i x, forallb p l = true -> p x = true -> forallb p (upd i x l) = true.
Proof.
  intros A p. induction l as [|y l IH]; intros i x H Hx; [destruct i; exact H|].
  cbn in H. apply andb_prop in H as [H1 H2]. destruct i; cbn; [rewrite Hx, H2|rewrite H1, IH by assumption]; reflexivity.
Qed.

Lemma gset_ok : forall g id q, okg g -> lib_qb P q = true -> okg (gset g id q).
Proof.
  intros g id q [H1 H2] Hq. split; [exact H1|]. unfold libh, gset. cbn [g_heap].
  apply forallb_upd; assumption.
Qed.

Definition libq (q : qb) : Prop :=
  forallb (fun c => lib P (c_builder c)) (q_ctes q) = true
  /\ forallb (fun ft => lib_ofrag P (ft_frag ft)) (q_tobjs q) = true
  /\ lib_frag P (q_selects q) = true /\ lib_frag P (q_touches q) = true
  /\ lib_frag P (q_conds q) = true /\ lib_frag P (q_groups q) = true
  /\ forallb (fun o => lib P (fst o)) (q_orders q) = true
  /\ forallb (lib P) (q_unions q) = true
  /\ q_debug q = false.
Lemma lib_qb_iff : forall q, lib_qb P q = true <-> libq q.
Proof.
  intros q. unfold lib_qb, libq. rewrite !andb_true_iff, negb_true_iff. tauto.
Qed.

Lemma lib_frag_prefix : forall f p, lib_frag P (with_prefix f p) = lib_frag P f.
Proof. intros f p. rewrite !lib_frag_eq. reflexivity. Qed.
Lemma lib_frag_append : forall f l, lib_frag P (append_frags f l) = lib_frag P f && forallb (lib P) l.
Proof.
  intros f l. rewrite !lib_frag_eq. unfold append_frags, with_frags. cbn [f_args f_frags].
  rewrite forallb_app, andb_assoc. reflexivity.
Qed.

Lemma lib_ff : forall raw col, lib P (BFrag (Ff raw [col])) = lib P col.
Proof. intros raw col. change (lib_frag P (Ff raw [col]) = lib P col). rewrite lib_frag_eq. cbn [Ff f_args f_frags forallb andb]. apply andb_true_r. Qed.

Lemma orders_lib : forall os i q items, lib_qb P q = true -> forallb (fun o => lib P (fst o)) os = true ->
  forallb (lib P) items = true ->
  lib_qb P (fst (orders_loop i os q items)) = true /\ forallb (lib P) (snd (orders_loop i os q items)) = true.
Proof.
  induction os as [|[col o] os IH]; intros i q items Hq Ho Hi; cbn [orders_loop]; [auto|].
  cbn in Ho. apply andb_prop in Ho as [Hc Ho].
  destruct (max_order <? o)%N.
  - apply IH; assumption.
  - destruct (q_distinct q).
    + apply IH; [|assumption|].
      * apply lib_qb_iff in Hq. apply lib_qb_iff. unfold libq in *. cbn [set_touches q_ctes q_tobjs q_selects q_touches q_conds q_groups q_orders q_unions q_debug].
        rewrite lib_frag_append. cbn [forallb]. rewrite lib_ff, Hc. destruct Hq as (A & B & C & D & Hq). rewrite D. auto.
      * rewrite forallb_app, Hi. reflexivity.
    + apply IH; try assumption. rewrite forallb_app, Hi. cbn [forallb]. rewrite lib_ff, Hc. reflexivity.
Qed.

Definition simL (g : gst) (m : outcome (list string) * store) (r : outcome (list text) * gst) : Prop :=
  ext (g_log g) (g_log (snd r)) /\ okg (snd r) /\
  match fst r with ROk l => Forall (covers (g_log (snd r))) l | _ => True end /\
  m = (omap (map (render (shown st0 (g_log (snd r))))) (fst r), inst st0 (snd r)).

Lemma map_stable : forall l l' ts, ext l l' -> Forall (covers l) ts ->
  map (render (shown st0 l')) ts = map (render (shown st0 l)) ts.
Proof.
  intros l l' ts He H. induction H as [|t ts Ht H IH]; [reflexivity|]. cbn. rewrite IH.
  rewrite (render_stable st0 _ _ t He Ht). reflexivity.
Qed.

Lemma sim_trans : forall g g1 m r, ext (g_log g) (g_log g1) -> sim g1 m r -> sim g m r.
Proof.
  intros g g1 m r H (H1 & H2 & H3 & H4). unfold sim.
  apply conj; [exact (ext_trans _ _ _ H H1)|auto].
Qed.

Section QB.
Variable mrb : builder -> store -> outcome string * store.
Variable grb : builder -> gst -> outcome text * gst.
Hypothesis Hrb : forall b g, lib P b = true -> okg g -> sim g (mrb b (inst st0 g)) (grb b g).

Lemma sim_ctes_loop : forall cs d g, forallb (fun c => lib P (c_builder c)) cs = true -> okg g ->
  simL g (build_ctes_loop mrb cs d (inst st0 g)) (gctes_loop grb cs d g).
Proof.
  induction cs as [|c cs IH]; intros d g Hl Hg; cbn [build_ctes_loop gctes_loop].
  - unfold simL. cbn [fst snd omap map]. apply conj; [apply ext_refl|]. auto.
  - cbn in Hl. apply andb_prop in Hl as [Hc Hl].
    destruct (dep_mem (c_name c, "") d); [|apply IH; assumption].
    pose proof (Hrb (c_builder c) g Hc Hg) as (H1 & H2 & H3 & H4). rewrite H4. clear H4.
    destruct (grb (c_builder c) g) as [o g']. cbn [fst snd] in *.
    destruct o as [t|er|er|]; cbn [omap okT] in *; try (unfold simL; cbn [fst snd omap]; auto; fail).
    pose proof (IH d g' Hl H2) as (K1 & K2 & K3 & K4). rewrite K4. clear K4.
    destruct (gctes_loop grb cs d g') as [o2 g2]. cbn [fst snd] in *.
    pose proof (ext_trans _ _ _ H1 K1) as HH.
    destruct o2 as [l|er|er|]; cbn [omap] in *; unfold simL; cbn [fst snd omap]; auto.
    apply conj; [exact HH|]. apply conj; [exact K2|].
    pose proof (covers_ext _ _ _ K1 H3) as Ht.
    rewrite (render_empty_g _ _ (proj1 H2) H3). destruct (tempty t).
    + split; [exact K3|reflexivity].
    + split.
      * constructor; [|exact K3]. apply covers_app; [apply covers_lit|]. apply covers_app; [exact Ht|apply covers_lit].
      * cbn [map]. rewrite !render_app, !render_lit. rewrite (render_stable st0 _ _ t K1 H3).
        rewrite !append_assoc. reflexivity.
Qed.

Lemma sim_ctes : forall cs d g, forallb (fun c => lib P (c_builder c)) cs = true -> okg g ->
  sim g (build_ctes mrb cs d (inst st0 g)) (gctes grb cs d g).
Proof.
  intros cs d g Hl Hg. unfold build_ctes, gctes.
  pose proof (sim_ctes_loop cs d g Hl Hg) as (H1 & H2 & H3 & H4). rewrite H4. clear H4.
  destruct (gctes_loop grb cs d g) as [o g']. cbn [fst snd] in *.
  destruct o as [[|x l]|er|er|]; cbn [omap map] in *; unfold sim; cbn [fst snd omap okT]; auto.
  - apply conj; [exact H1|]. apply conj; [exact H2|]. split; [apply covers_lit|reflexivity].
  - apply conj; [exact H1|]. apply conj; [exact H2|]. split.
    + apply covers_app; [apply covers_lit|apply covers_join; exact H3].
    + rewrite render_app, render_lit, render_join. reflexivity.
Qed.

Lemma sim_from_loop : forall di fts d g, forallb (fun ft => lib_ofrag P (ft_frag ft)) fts = true -> okg g ->
  simL g (build_from_loop mrb di fts d (inst st0 g)) (gfrom_loop grb di fts d g).
Proof.
  induction fts as [|ft fts IH]; intros d g Hl Hg; cbn [build_from_loop gfrom_loop].
  - unfold simL. cbn [fst snd omap map]. apply conj; [apply ext_refl|]. auto.
  - cbn in Hl. apply andb_prop in Hl as [Hc Hl].
    destruct (di && ft_optional ft && negb (dep_mem (ft_names ft) d)); [apply IH; assumption|].
    assert (Hf : sim g (build_ofrag mrb (ft_frag ft) (inst st0 g)) (gofrag grb (ft_frag ft) g)).
    { unfold build_ofrag, gofrag. destruct (ft_frag ft) as [f|]; apply Hrb; try assumption. }
    destruct Hf as (H1 & H2 & H3 & H4). rewrite H4. clear H4.
    destruct (gofrag grb (ft_frag ft) g) as [o g']. cbn [fst snd] in *.
    destruct o as [t|er|er|]; cbn [omap okT] in *; try (unfold simL; cbn [fst snd omap]; auto; fail).
    pose proof (IH d g' Hl H2) as (K1 & K2 & K3 & K4). rewrite K4. clear K4.
    destruct (gfrom_loop grb di fts d g') as [o2 g2]. cbn [fst snd] in *.
    pose proof (ext_trans _ _ _ H1 K1) as HH.
    destruct o2 as [l|er|er|]; cbn [omap] in *; unfold simL; cbn [fst snd omap]; auto.
    apply conj; [exact HH|]. apply conj; [exact K2|]. split.
    + constructor; [exact (covers_ext _ _ _ K1 H3)|exact K3].
    + cbn [map]. rewrite (render_stable st0 _ _ t K1 H3). reflexivity.
Qed.

Lemma sim_from : forall q d g, lib_qb P q = true -> okg g ->
  sim g (build_from mrb q d (inst st0 g)) (gfrom grb q d g).
Proof.
  intros q d g Hq Hg. unfold build_from, gfrom.
  assert (Hl : forallb (fun ft => lib_ofrag P (ft_frag ft)) (from_tables q) = true).
  { apply lib_qb_iff in Hq. destruct Hq as (_ & Ho & _). rewrite forallb_forall in Ho |- *.
    intros ft Hin. unfold from_tables in Hin. apply in_map_iff in Hin as [id [<- _]].
    destruct (nth_in_or_default id (q_tobjs q) (mkFT ("", "") None false)) as [Hi| ->]; [auto|reflexivity]. }
  pose proof (sim_from_loop (q_distinct q) (from_tables q) d g Hl Hg) as (H1 & H2 & H3 & H4). rewrite H4. clear H4.
  destruct (gfrom_loop grb (q_distinct q) (from_tables q) d g) as [o g']. cbn [fst snd] in *.
  destruct o as [l|er|er|]; cbn [omap map] in *; unfold sim; cbn [fst snd omap okT]; auto.
  apply conj; [exact H1|]. apply conj; [exact H2|]. split.
  - apply covers_app; [apply covers_lit|apply covers_join; exact H3].
  - rewrite render_app, render_lit, render_join. reflexivity.
Qed.

Lemma sim_orders : forall id g, okg g -> sim g (build_orders mrb id (inst st0 g)) (gorders grb id g).
Proof.
  intros id g Hg. unfold build_orders, gorders.
  change (get_q (inst st0 g) id) with (gget g id).
  pose proof (gget_lib g id Hg) as Hq.
  assert (Ho : forallb (fun o => lib P (fst o)) (q_orders (gget g id)) = true).
  { apply lib_qb_iff in Hq. unfold libq in Hq. tauto. }
  pose proof (orders_lib (q_orders (gget g id)) 0 (gget g id) [] Hq Ho eq_refl) as [L1 L2].
  destruct (orders_loop 0 (q_orders (gget g id)) (gget g id) []) as [q' items]. cbn [fst snd] in *.
  change (set_q (inst st0 g) id q') with (inst st0 (gset g id q')).
  apply (sim_trans g (gset g id q')); [apply ext_refl|].
  apply Hrb; [|apply gset_ok; assumption].
  cbn [lib]. rewrite lib_frag_eq. exact L2.
Qed.

Lemma sim_selects : forall id g, okg g -> sim g (build_selects mrb id (inst st0 g)) (gselects grb id g).
Proof.
  intros id g Hg. unfold build_selects, gselects.
  change (get_q (inst st0 g) id) with (gget g id).
  pose proof (gget_lib g id Hg) as Hq.
  set (sel := with_prefix (q_selects (gget g id)) (if q_distinct (gget g id) then "SELECT DISTINCT" else "SELECT")).
  assert (Hs : lib_frag P sel = true).
  { unfold sel. rewrite lib_frag_prefix. apply lib_qb_iff in Hq. unfold libq in Hq. tauto. }
  assert (Hq2 : lib_qb P (set_selects (gget g id) sel) = true).
  { apply lib_qb_iff in Hq. apply lib_qb_iff. unfold libq in *. cbn [set_selects q_ctes q_tobjs q_selects q_touches q_conds q_groups q_orders q_unions q_debug]. tauto. }
  set (g1 := gset g id (set_selects (gget g id) sel)).
  change (set_q (inst st0 g) id (set_selects (gget g id) sel)) with (inst st0 g1).
  assert (Hg1 : okg g1) by (apply gset_ok; assumption).
  pose proof (Hrb (BFrag sel) g1 Hs Hg1) as (H1 & H2 & H3 & H4). rewrite H4. clear H4.
  change (g_log g1) with (g_log g) in H1.
  destruct (grb (BFrag sel) g1) as [o g']. cbn [fst snd] in *.
  destruct o as [s|er|er|]; cbn [omap okT] in *; try (unfold sim; cbn [fst snd omap okT]; auto; fail).
  change (get_q (inst st0 g') id) with (gget g' id).
  assert (Ht : lib P (BFrag (q_touches (gget g' id))) = true).
  { pose proof (gget_lib g' id H2) as Hq'. apply lib_qb_iff in Hq'. unfold libq in Hq'. cbn [lib]. tauto. }
  pose proof (Hrb (BFrag (q_touches (gget g' id))) g' Ht H2) as (K1 & K2 & K3 & K4). rewrite K4. clear K4.
  destruct (grb (BFrag (q_touches (gget g' id))) g') as [o2 g2]. cbn [fst snd] in *.
  pose proof (ext_trans _ _ _ H1 K1) as HH. pose proof (covers_ext _ _ _ K1 H3) as Hs'.
  destruct o2 as [t|er|er|]; cbn [omap okT] in *; try (unfold sim; cbn [fst snd omap okT]; auto; fail).
  rewrite (render_empty_g _ _ (proj1 H2) H3), (render_empty_g _ _ (proj1 K2) K3).
  destruct (tempty s); [unfold sim; cbn [fst snd omap okT]; auto|].
  destruct (tempty t); unfold sim; cbn [fst snd omap okT];
    (apply conj; [exact HH|]; apply conj; [exact K2|]).
  - split; [exact Hs'|]. rewrite (render_stable st0 _ _ s K1 H3). reflexivity.
  - split; [apply covers_app; [exact Hs'|apply covers_app; [apply covers_lit|exact K3]]|].
    rewrite !render_app, render_lit, (render_stable st0 _ _ s K1 H3). reflexivity.
Qed.

Lemma sim_union_loop : forall bs g, forallb (lib P) bs = true -> okg g ->
  simL g (build_union_loop mrb bs (inst st0 g)) (gunion_loop grb bs g).
Proof.
  induction bs as [|b bs IH]; intros g Hl Hg; cbn [build_union_loop gunion_loop].
  - unfold simL. cbn [fst snd omap map]. apply conj; [apply ext_refl|]. auto.
  - cbn in Hl. apply andb_prop in Hl as [Hc Hl].
    pose proof (Hrb b g Hc Hg) as (H1 & H2 & H3 & H4). rewrite H4. clear H4.
    destruct (grb b g) as [o g']. cbn [fst snd] in *.
    destruct o as [t|er|er|]; cbn [omap okT] in *; try (unfold simL; cbn [fst snd omap]; auto; fail).
    pose proof (IH g' Hl H2) as (K1 & K2 & K3 & K4). rewrite K4. clear K4.
    destruct (gunion_loop grb bs g') as [o2 g2]. cbn [fst snd] in *.
    pose proof (ext_trans _ _ _ H1 K1) as HH.
    destruct o2 as [l|er|er|]; cbn [omap] in *; unfold simL; cbn [fst snd omap]; auto.
    apply conj; [exact HH|]. apply conj; [exact K2|].
    rewrite (render_empty_g _ _ (proj1 H2) H3). destruct (tempty t); [auto|]. split.
    + constructor; [exact (covers_ext _ _ _ K1 H3)|exact K3].
    + cbn [map]. rewrite (render_stable st0 _ _ t K1 H3). reflexivity.
Qed.

Lemma sim_union : forall bs g, forallb (lib P) bs = true -> okg g ->
  sim g (build_union mrb bs (inst st0 g)) (gunion grb bs g).
Proof.
  intros bs g Hl Hg. unfold build_union, gunion.
  pose proof (sim_union_loop bs g Hl Hg) as (H1 & H2 & H3 & H4). rewrite H4. clear H4.
  destruct (gunion_loop grb bs g) as [o g']. cbn [fst snd] in *.
  destruct o as [l|er|er|]; cbn [omap map] in *; unfold sim; cbn [fst snd omap okT]; auto.
  apply conj; [exact H1|]. apply conj; [exact H2|]. split.
  - apply covers_app; [apply covers_lit|]. apply covers_app; [apply covers_join; exact H3|apply covers_lit].
  - rewrite !render_app, !render_lit, render_join. reflexivity.
Qed.

Lemma sim_bind : forall g m r km kr, sim g m r ->
  (forall t g', ext (g_log g) (g_log g') -> okg g' -> covers (g_log g') t ->
     sim g' (km (render (shown st0 (g_log g')) t) (inst st0 g')) (kr t g')) ->
  sim g (bind m km) (gbind r kr).
Proof.
  intros g m [o g'] km kr (H1 & H2 & H3 & H4) Hk. cbn [fst snd] in *. subst m.
  destruct o as [t|er|er|]; cbn [omap okT bind gbind] in *;
    try (unfold sim; cbn [fst snd omap okT]; auto; fail).
  apply sim_trans with g'; [exact H1|]. apply Hk; assumption.
Qed.

Lemma nonempty_render : forall log t, good log -> covers log t ->
  nonempty (render (shown st0 log) t) = map (render (shown st0 log)) (tnonempty t).
Proof.
  intros log t Hg Hc. unfold nonempty, tnonempty. rewrite (render_empty_g _ _ Hg Hc).
  destruct (tempty t); reflexivity.
Qed.

Lemma covers_nonempty : forall log t, covers log t -> Forall (covers log) (tnonempty t).
Proof. intros log t H. unfold tnonempty. destruct (tempty t); auto. Qed.

Lemma sim_internal : forall id g, okg g -> sim g (build_internal mrb id (inst st0 g)) (ginternal grb id g).
Proof.
  intros id g Hg. unfold build_internal, ginternal.
  change (get_q (inst st0 g) id) with (gget g id).
  destruct (q_errors (gget g id)); [|apply sim_same; [exact Hg|reflexivity]].
  destruct (collect_deps (gget g id)) as [d|er|er|]; try (apply sim_same; [exact Hg|first [reflexivity|exact I]]).
  pose proof (gget_lib g id Hg) as Hq. apply lib_qb_iff in Hq.
  apply sim_bind; [apply sim_ctes; [unfold libq in Hq; tauto|exact Hg]|]. clear Hq.
  intros sq g1 X1 G1 C1.
  apply sim_bind; [apply (sim_from (gget g1 id)); [apply gget_lib; exact G1|exact G1]|].
  intros fr g2 X2 G2 C2.
  assert (Hc : lib P (BFrag (q_conds (gget g2 id))) = true).
  { pose proof (gget_lib g2 id G2) as Hq. apply lib_qb_iff in Hq. unfold libq in Hq. cbn [lib]. tauto. }
  apply sim_bind; [apply (Hrb (BFrag (q_conds (gget g2 id)))); [exact Hc|exact G2]|]. clear Hc.
  intros wh g3 X3 G3 C3.
  assert (Hc : lib P (BFrag (q_groups (gget g3 id))) = true).
  { pose proof (gget_lib g3 id G3) as Hq. apply lib_qb_iff in Hq. unfold libq in Hq. cbn [lib]. tauto. }
  apply sim_bind; [apply (Hrb (BFrag (q_groups (gget g3 id)))); [exact Hc|exact G3]|]. clear Hc.
  intros gr g4 X4 G4 C4.
  apply sim_bind; [apply sim_orders; exact G4|].
  intros ord g5 X5 G5 C5. cbn zeta.
  change (get_q (inst st0 g5) id) with (gget g5 id).
  apply sim_bind; [apply sim_selects; exact G5|].
  intros sel g6 X6 G6 C6. cbn zeta.
  change (get_q (inst st0 g6) id) with (gget g6 id).
  set (tl := (tnonempty sq ++ [sel] ++ tnonempty fr ++ tnonempty wh ++ tnonempty gr ++ tnonempty ord
     ++ (if (0 <? q_limit (gget g5 id))%Z then [tlit ("LIMIT " ++ itoa (q_limit (gget g5 id)))] else [])
     ++ (if (0 <? q_offset (gget g5 id))%Z then [tlit ("OFFSET " ++ itoa (q_offset (gget g5 id)))] else []))%list).
  pose proof (ext_trans _ _ _ X5 X6) as Y5. pose proof (ext_trans _ _ _ X4 Y5) as Y4.
  pose proof (ext_trans _ _ _ X3 Y4) as Y3. pose proof (ext_trans _ _ _ X2 Y3) as Y2.
  pose proof (covers_ext _ _ _ Y2 C1) as D1. pose proof (covers_ext _ _ _ Y3 C2) as D2.
  pose proof (covers_ext _ _ _ Y4 C3) as D3. pose proof (covers_ext _ _ _ Y5 C4) as D4.
  pose proof (covers_ext _ _ _ X6 C5) as D5.
  match goal with |- context [trim_space (str_join " " ?l)] => set (ml := l) end.
  assert (El : ml = map (render (shown st0 (g_log g6))) tl).
  { unfold ml, tl. rewrite !map_app. rewrite <- !nonempty_render by (try exact (proj1 G6); assumption).
    rewrite !(render_stable st0 _ _ sq Y2 C1), !(render_stable st0 _ _ fr Y3 C2),
      !(render_stable st0 _ _ wh Y4 C3), !(render_stable st0 _ _ gr Y5 C4), !(render_stable st0 _ _ ord X6 C5).
    destruct (0 <? q_limit (gget g5 id))%Z; destruct (0 <? q_offset (gget g5 id))%Z;
      cbn [map]; rewrite ?render_lit; reflexivity. }
  assert (Cl : Forall (covers (g_log g6)) tl).
  { unfold tl. repeat (apply Forall_app; apply conj); try (apply covers_nonempty; assumption).
    - auto.
    - destruct (0 <? q_limit (gget g5 id))%Z; [constructor; [apply covers_lit|constructor]|constructor].
    - destruct (0 <? q_offset (gget g5 id))%Z; [constructor; [apply covers_lit|constructor]|constructor]. }
  rewrite El. rewrite <- render_join. pose proof (covers_join _ " " _ Cl) as Cj.
  rewrite (render_trim_g _ _ (proj1 G6) Cj). pose proof (covers_trim _ _ Cj) as Ct.
  set (query := ttrim (tjoin " " tl)) in *. clearbody query. clear El Cl Cj.
  pose proof (gget_lib g6 id G6) as Hq. apply lib_qb_iff in Hq.
  assert (Hu : forallb (lib P) (q_unions (gget g6 id)) = true) by (unfold libq in Hq; tauto). clear Hq.
  assert (Hbind : forall m r, sim g6 m r ->
    sim g6 (bind m (fun query st => if q_debug (get_q st id)
       then match interpolate (fun _ => "") query (st_args st) with
            | RPanic e => (RPanic e, st) | RFuel => (RFuel, st) | _ => (ROk query, st) end
       else (ROk query, st))) (gbind r (fun t g => (ROk t, g)))).
  { intros m r Hm. apply sim_bind; [exact Hm|]. intros t g' Xt Gt Ct'.
    change (get_q (inst st0 g') id) with (gget g' id).
    pose proof (gget_lib g' id Gt) as Hq. apply lib_qb_iff in Hq. unfold libq in Hq.
    destruct (q_debug (gget g' id)) eqn:Ed; [intuition congruence|].
    unfold sim. cbn [fst snd omap okT]. apply conj; [apply ext_refl|auto]. }
  assert (Hid : forall r : outcome text * gst, gbind r (fun t g => (ROk t, g)) = r).
  { intros [[] ?]; reflexivity. }
  destruct (q_unions (gget g6 id)) as [|u us].
  - rewrite <- (Hid (ROk query, g6)). apply Hbind.
    unfold sim. cbn [fst snd omap okT]. apply conj; [apply ext_refl|auto].
  - rewrite <- (Hid (gbind (gunion grb (u :: us) g6) _)). apply Hbind.
    apply sim_bind; [apply sim_union; assumption|].
    intros ut g7 X7 G7 C7.
    assert (Cq : covers (g_log g7) (tapp query (tapp (tlit " ") ut))).
    { apply covers_app; [exact (covers_ext _ _ _ X7 Ct)|]. apply covers_app; [apply covers_lit|exact C7]. }
    unfold sim. cbn [fst snd omap okT]. apply conj; [apply ext_refl|]. apply conj; [exact G7|].
    apply conj; [apply covers_trim; exact Cq|].
    rewrite <- (render_trim_g _ _ (proj1 G7) Cq). rewrite !render_app, render_lit.
    rewrite (render_stable st0 _ _ query X7 Ct). reflexivity.
Qed.
End QB.

Theorem sim_build : forall n e b g, lib_env e = true -> lib P b = true -> okg g ->
  sim g (build n e b (inst st0 g)) (gbuild n e b g).
Proof.
  induction n as [|n IH]; intros e b g He Hb Hg; cbn [build gbuild].
  - apply sim_same; [exact Hg|exact I].
  - destruct b as [| |f| |[f|] t|t|x a|[id|]|p]; cbn [lib] in Hb;
      try (apply sim_same; [exact Hg|first [reflexivity|exact I|eauto]]).
    + apply sim_frag; assumption.
    + apply sim_frag; assumption.
    + apply sim_internal; [|exact Hg]. intros b g' Hb' Hg'. apply IH; assumption.
    + discriminate.
Qed.
End Sim.
