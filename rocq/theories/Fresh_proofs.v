(** Reference semantics: every placeholder stands for a commit of its own. *)
From Coq Require Import Strings.String Strings.Ascii NArith ZArith List Bool Lia.
From Verif Require Import GoStr GoNum Syntax Value Util Model Sqlf Sqlb RefSem Text_proofs.
Import ListNotations.
Open Scope string_scope.

Definition fresh (a b : nat) (l : list nat) : Prop := NoDup l /\ Forall (fun j => a <= j < b) l.
Lemma fresh_nil : forall a b, fresh a b [].
Proof. intros a b. split; constructor. Qed.
Lemma fresh_weaken : forall a b c d l, c <= a -> b <= d -> fresh a b l -> fresh c d l.
Proof. intros a b c d l H K [N F]. split; [exact N|]. eapply Forall_impl; [|exact F]. cbv beta. intros; lia. Qed.
Lemma NoDup_cat : forall (x y : list nat), NoDup x -> NoDup y -> (forall j, In j x -> ~ In j y) -> NoDup (x ++ y).
Proof.
  intros x y Hx Hy D. induction x as [|j x IH]; [exact Hy|]. inversion Hx as [|? ? N Hx']; subst. cbn [app]. constructor.
  - intros K. apply in_app_or in K as [K|K]; [exact (N K)|]. exact (D j (or_introl eq_refl) K).
  - apply IH; [exact Hx'|]. intros i Hi. apply D. right. exact Hi.
Qed.
Lemma fresh_app : forall a b c x y, a <= b -> b <= c -> fresh a b x -> fresh b c y -> fresh a c (x ++ y).
Proof.
  intros a b c x y H K [N1 F1] [N2 F2]. rewrite Forall_forall in F1, F2. split.
  - apply NoDup_cat; [exact N1|exact N2|]. intros j J1 J2. specialize (F1 j J1). specialize (F2 j J2). cbv beta in *. lia.
  - apply Forall_forall. intros j J. apply in_app_or in J as [J|J]; [specialize (F1 j J)|specialize (F2 j J)]; cbv beta in *; lia.
Qed.
Lemma fresh_swap : forall a b c x y, a <= b -> b <= c -> fresh a b x -> fresh b c y -> fresh a c (y ++ x).
Proof.
  intros a b c x y H K [N1 F1] [N2 F2]. rewrite Forall_forall in F1, F2. split.
  - apply NoDup_cat; [exact N2|exact N1|]. intros j J1 J2. specialize (F1 j J2). specialize (F2 j J1). cbv beta in *. lia.
  - apply Forall_forall. intros j J. apply in_app_or in J as [J|J]; [specialize (F2 j J)|specialize (F1 j J)]; cbv beta in *; lia.
Qed.

Definition at_ (g : gst) : nat := List.length (g_log g).
(** From [g] to the state of the result. *)
Definition fr {A} (ph : A -> list nat) (g : gst) (r : outcome A * gst) : Prop :=
  at_ g <= at_ (snd r) /\ match fst r with ROk x => fresh (at_ g) (at_ (snd r)) (ph x) | _ => True end.
Definition frF (S : gfs) (r : outcome text * gfs) : Prop := fr placeholders (gf_g S) (fst r, gf_g (snd r)).
Definition phs (l : list text) : list nat := concat (map placeholders l).
Lemma fr_none : forall A (ph : A -> list nat) g o, match o with ROk _ => False | _ => True end -> fr ph g (o, g).
Proof. intros A ph g [] H; try contradiction; (split; [apply le_n|exact Logic.I]). Qed.
Lemma fr_ret : forall A (ph : A -> list nat) g x, ph x = [] -> fr ph g (ROk x, g).
Proof. intros A ph g x H. split; [apply le_n|]. cbn [fst snd]. rewrite H. apply fresh_nil. Qed.

Section Clause.
Variable rb : env -> builder -> gst -> outcome text * gst.
Hypothesis Hrb : forall e b g, fr placeholders g (rb e b g).
Variable rc : env -> frame -> list expr -> gfs -> outcome text * gfs.
Hypothesis Hrc : forall e fc es S, frF S (rc e fc es S).
Variable jf : nat.

Lemma fr_arg : forall fc i S, frF S (gfunc_arg fc i S).
Proof.
  intros fc i S. unfold gfunc_arg. destruct (nth1 _ _) as [v|]; [|apply fr_none; exact Logic.I]. unfold gcommit, frF. cbn [fst snd gf_g].
  split; unfold at_; cbn [snd g_log fst]; rewrite app_length; cbn [List.length]; [lia|].
  split; [constructor; [intros []|constructor]|]. constructor; [cbn; lia|constructor].
Qed.
Lemma fr_fragment : forall e fc i S, frF S (gfunc_fragment rb e fc i S).
Proof.
  intros e fc i S. unfold gfunc_fragment. destruct (nth1 _ _) as [b|]; [|apply fr_none; exact Logic.I].
  pose proof (Hrb e b (gf_g S)) as H. destruct (rb e b (gf_g S)) as [o g']. exact H.
Qed.
Lemma fr_loop : forall n e fc es sep from to i acc S a, a <= at_ (gf_g S) -> fresh a (at_ (gf_g S)) (placeholders acc) ->
  let r := gjoin_loop rc n e fc es sep from to i acc S in
  a <= at_ (gf_g (snd r)) /\ at_ (gf_g S) <= at_ (gf_g (snd r)) /\ match fst r with ROk t => fresh a (at_ (gf_g (snd r))) (placeholders t) | _ => True end.
Proof.
  induction n as [|n IH]; intros e fc es sep from to i acc S a Ha Hf; cbn [gjoin_loop]; cbv zeta; [cbn [fst snd]; auto|].
  pose proof (Hrc e fc (set_index i es) S) as [H1 H2]. destruct (rc e fc (set_index i es) S) as [o S']. cbn [fst snd] in *.
  assert (Hold : fresh a (at_ (gf_g S')) (placeholders acc)) by (eapply fresh_weaken; [| |exact Hf]; lia).
  destruct o as [t|er|er|]; cbn [fst snd]; try (repeat split; auto; lia).
  - assert (Hnew : fresh a (at_ (gf_g S')) (placeholders (if tempty t then acc else if tempty acc then t else tapp acc (tapp (tlit sep) t)))).
    { destruct (tempty t); [exact Hold|]. destruct (tempty acc); [eapply fresh_weaken; [| |exact H2]; lia|].
      rewrite !placeholders_app, placeholders_lit. cbn [app]. eapply fresh_app; [| |exact Hf|exact H2]; lia. }
    destruct (_ && _); cbn [fst snd]; [repeat split; [lia|lia|apply Hnew|apply Hnew]|].
    destruct (IH e fc es sep from to (i + 1)%Z _ S' a ltac:(lia) Hnew) as (K1 & K2 & K3). repeat split; [exact K1|lia|exact K3].
  - destruct (is_invalid_index er); [destruct (_ || _)|]; cbn [fst snd]; repeat split; auto; try lia; apply Hold.
Qed.
Lemma fr_join : forall e fc tmpl sep idx S, frF S (gfunc_join rc jf e fc tmpl sep idx S).
Proof.
  intros e fc tmpl sep idx S. unfold gfunc_join.
  assert (N : forall o : outcome text, match o with ROk _ => False | _ => True end -> frF S (o, S)) by (intros o; apply fr_none).
  assert (L : forall es f t i, frF S (gjoin_loop rc jf e fc es sep f t i (tlit "") S)).
  { intros es f t i. destruct (fr_loop jf e fc es sep f t i (tlit "") S (at_ (gf_g S)) (le_n _) (fresh_nil _ _)) as (K1 & K2 & K3). split; assumption. }
  destruct idx as [|x [|y [|z idx]]]; try (apply N; exact Logic.I).
  all: destruct (_ && _); [apply N; exact Logic.I|]; destruct (parse tmpl) as [es|p m| |]; try (apply N; exact Logic.I);
    destruct (gjoin_prep e es) as [[|k]|er|er|]; try (apply N; exact Logic.I).
  all: apply L.
Qed.
Lemma fr_safe : forall name S r, frF S r -> frF S (gsafe name r).
Proof. intros name S [[] S'] H; exact H. Qed.
Lemma fr_expr : forall e fc x S, frF S (geval_expr rb rc jf e fc x S).
Proof.
  intros e fc x S.
  assert (N : forall o : outcome text, match o with ROk _ => False | _ => True end -> frF S (o, S)) by (intros o; apply fr_none).
  destruct x as [t p|k i p|name args p|name p]; cbn [geval_expr]; try (apply N; exact Logic.I).
  - apply fr_ret. reflexivity.
  - destruct (nth1 _ _); [apply fr_arg|apply N; exact Logic.I].
  - unfold geval_function. destruct (lookup_fn e name) as [f|]; [|apply N; exact Logic.I]. unfold geval_call.
    destruct (arity_ok _ _); [|apply N; exact Logic.I]. destruct (eval_args _ _); try (apply N; exact Logic.I).
    destruct (any_rejected _ _); apply fr_safe; [apply N; exact Logic.I|]. destruct f; cbn [gcall_fn].
    + apply fr_arg.
    + apply fr_fragment.
    + destruct args as [|[] [|[] idx]]; try (apply N; exact Logic.I). apply fr_join.
    + apply N. exact Logic.I.
Qed.
Lemma fr_clause : forall e fc es S, frF S (gclause rb rc jf e fc es S).
Proof.
  intros e fc es. induction es as [|x es IH]; intros S; cbn [gclause]; [apply fr_ret; reflexivity|].
  pose proof (fr_expr e fc x S) as [H1 H2]. destruct (geval_expr rb rc jf e fc x S) as [o S']. cbn [fst snd] in *.
  destruct o as [t|er|er|]; try (split; cbn [fst snd]; [exact H1|exact Logic.I]).
  destruct (IH S') as [K1 K2]. destruct (gclause rb rc jf e fc es S') as [o2 S2]. cbn [fst snd] in *.
  destruct o2 as [u|er|er|]; split; cbn [fst snd]; try lia; try exact Logic.I.
  rewrite placeholders_app. eapply fresh_app; [| |exact H2|exact K2]; lia.
Qed.
End Clause.

Lemma fr_clause_n : forall rb, (forall e b g, fr placeholders g (rb e b g)) -> forall n e fc es S, frF S (gclause_n n rb e fc es S).
Proof.
  intros rb Hrb. induction n as [|n IH]; intros e fc es S; cbn [gclause_n]; [apply fr_none; exact Logic.I|]. apply fr_clause; assumption.
Qed.
Lemma fr_frag : forall rb, (forall e b g, fr placeholders g (rb e b g)) -> forall n e f g, fr placeholders g (gbuild_frag n rb e f g).
Proof.
  intros rb Hrb n e f g. unfold gbuild_frag. destruct (parse (f_raw f)) as [es|p m| |]; try (apply fr_none; exact Logic.I).
  match goal with |- context [gclause_n n rb e ?fc es ?S] =>
    pose proof (fr_clause_n rb Hrb n e fc es S) as [H1 H2]; destruct (gclause_n n rb e fc es S) as [o S'] end.
  cbn [fst snd gf_g] in *. destruct o as [t|er|er|]; cbn [fst snd]; try (split; cbn [fst snd]; [exact H1|exact Logic.I]).
  destruct (_ && _); split; cbn [fst snd]; try exact H1; try exact Logic.I.
  unfold gwrap. destruct (tempty (ttrim t)); [apply fresh_nil|]. rewrite !placeholders_app, !placeholders_lit, placeholders_trim, app_nil_r. exact H2.
Qed.

Section Query.
Variable rb : builder -> gst -> outcome text * gst.
Hypothesis Hrb : forall b g, fr placeholders g (rb b g).

Lemma phs_cons : forall t l, phs (t :: l) = (placeholders t ++ phs l)%list.
Proof. reflexivity. Qed.
Lemma phs_app : forall x y, phs (x ++ y) = (phs x ++ phs y)%list.
Proof. intros x y. unfold phs. rewrite map_app, concat_app. reflexivity. Qed.
Lemma phs_nonempty : forall t, phs (tnonempty t) = placeholders t.
Proof.
  intros [a l]. unfold tnonempty. destruct (tempty (a, l)) eqn:E; cbn [phs map concat]; [|apply app_nil_r].
  unfold tempty in E. cbn [fst snd] in E. apply andb_prop in E as [_ E]. destruct l; [reflexivity|discriminate E].
Qed.
(** The part after an item of a loop. *)
Ltac tail IH g' :=
  let K1 := fresh "K" in let K2 := fresh "K" in destruct (IH g') as [K1 K2];
  match type of K1 with context [snd ?r] => let o := fresh "o" in let g2 := fresh "g" in destruct r as [o g2]; cbn [fst snd] in K1, K2;
    destruct o; (split; cbn [fst snd]; [lia|try exact Logic.I]) end.
Lemma fr_ctes_loop : forall cs d g, fr phs g (gctes_loop rb cs d g).
Proof.
  intros cs d. induction cs as [|c cs IH]; intros g; cbn [gctes_loop]; [apply fr_ret; reflexivity|].
  destruct (dep_mem _ d); [|apply IH]. destruct (Hrb (c_builder c) g) as [H1 H2]. destruct (rb (c_builder c) g) as [o g']. cbn [fst snd] in *.
  destruct o as [t|er|er|]; try (split; cbn [fst snd]; [exact H1|exact Logic.I]). tail IH g'.
  destruct (tempty t); [eapply fresh_weaken; [| |exact K0]; lia|]. rewrite phs_cons, !placeholders_app, !placeholders_lit, app_nil_r. cbn [app].
  eapply fresh_app; [| |exact H2|exact K0]; lia.
Qed.
Lemma fr_ctes : forall cs d g, fr placeholders g (gctes rb cs d g).
Proof.
  intros cs d g. unfold gctes. destruct (fr_ctes_loop cs d g) as [H1 H2]. destruct (gctes_loop rb cs d g) as [o g']. cbn [fst snd] in *.
  destruct o as [[|t l]|er|er|]; (split; cbn [fst snd]; [exact H1|try exact Logic.I]); [apply fresh_nil|].
  rewrite placeholders_app, placeholders_join, placeholders_lit. exact H2.
Qed.
Lemma fr_from_loop : forall di fts d g, fr phs g (gfrom_loop rb di fts d g).
Proof.
  intros di fts d. induction fts as [|ft fts IH]; intros g; cbn [gfrom_loop]; [apply fr_ret; reflexivity|].
  destruct (_ && _ && _); [apply IH|].
  assert (H : fr placeholders g (gofrag rb (ft_frag ft) g)) by (unfold gofrag; destruct (ft_frag ft); apply Hrb).
  destruct H as [H1 H2]. destruct (gofrag rb (ft_frag ft) g) as [o g']. cbn [fst snd] in *.
  destruct o as [t|er|er|]; try (split; cbn [fst snd]; [exact H1|exact Logic.I]). tail IH g'.
  rewrite phs_cons. eapply fresh_app; [| |exact H2|exact K0]; lia.
Qed.
Lemma fr_from : forall q d g, fr placeholders g (gfrom rb q d g).
Proof.
  intros q d g. unfold gfrom. destruct (fr_from_loop (q_distinct q) (from_tables q) d g) as [H1 H2]. destruct (gfrom_loop rb _ _ d g) as [o g']. cbn [fst snd] in *.
  destruct o as [l|er|er|]; (split; cbn [fst snd]; [exact H1|try exact Logic.I]).
  rewrite placeholders_app, placeholders_join, placeholders_lit. exact H2.
Qed.
Lemma fr_union_loop : forall bs g, fr phs g (gunion_loop rb bs g).
Proof.
  induction bs as [|b bs IH]; intros g; cbn [gunion_loop]; [apply fr_ret; reflexivity|].
  destruct (Hrb b g) as [H1 H2]. destruct (rb b g) as [o g']. cbn [fst snd] in *.
  destruct o as [t|er|er|]; try (split; cbn [fst snd]; [exact H1|exact Logic.I]). tail IH g'.
  destruct (tempty t); [eapply fresh_weaken; [| |exact K0]; lia|]. rewrite phs_cons. eapply fresh_app; [| |exact H2|exact K0]; lia.
Qed.
Lemma fr_union : forall bs g, fr placeholders g (gunion rb bs g).
Proof.
  intros bs g. unfold gunion. destruct (fr_union_loop bs g) as [H1 H2]. destruct (gunion_loop rb bs g) as [o g']. cbn [fst snd] in *.
  destruct o as [l|er|er|]; (split; cbn [fst snd]; [exact H1|try exact Logic.I]).
  rewrite !placeholders_app, placeholders_join, !placeholders_lit, app_nil_r. exact H2.
Qed.
Lemma fr_orders : forall id g, fr placeholders g (gorders rb id g).
Proof. intros id g. unfold gorders. destruct (orders_loop 0 _ _ []) as [q' items]. exact (Hrb _ (gset g id q')). Qed.
Lemma fr_selects : forall id g, fr placeholders g (gselects rb id g).
Proof.
  intros id g. unfold gselects. cbv zeta. set (g1 := gset g id _).
  match goal with |- context [rb (BFrag ?s) g1] => destruct (Hrb (BFrag s) g1) as [H1 H2]; destruct (rb (BFrag s) g1) as [o g2] end.
  change (at_ g1) with (at_ g) in H1, H2. cbn [fst snd] in *.
  destruct o as [t|er|er|]; try (split; cbn [fst snd]; [exact H1|exact Logic.I]).
  destruct (Hrb (BFrag (q_touches (gget g2 id))) g2) as [K1 K2]. destruct (rb _ g2) as [o g3]. cbn [fst snd] in *.
  destruct o as [u|er|er|]; try (split; cbn [fst snd]; [lia|exact Logic.I]).
  destruct (tempty t); [split; cbn [fst snd]; [lia|exact Logic.I]|]. destruct (tempty u); (split; cbn [fst snd]; [lia|]).
  - eapply fresh_weaken; [| |exact H2]; lia.
  - rewrite !placeholders_app, placeholders_lit. cbn [app]. eapply fresh_app; [| |exact H2|exact K2]; lia.
Qed.
Ltac step H :=
  let H1 := fresh "L" in let H2 := fresh "W" in destruct H as [H1 H2];
  match type of H1 with context [snd ?r] => let o := fresh "o" in let t := fresh "t" in let g := fresh "g" in let er := fresh "er" in
    destruct r as [o g]; cbn [fst snd gbind] in *; destruct o as [t|er|er|]; cbn [gbind]; try (split; cbn [fst snd]; [lia|exact Logic.I]) end.
Lemma fr_internal : forall id g, fr placeholders g (ginternal rb id g).
Proof.
  intros id g. unfold ginternal. destruct (q_errors _); [|apply fr_none; exact Logic.I].
  destruct (collect_deps _) as [d|er|er|]; try (apply fr_none; exact Logic.I).
  step (fr_ctes (q_ctes (gget g id)) d g). step (fr_from (gget g0 id) d g0). step (Hrb (BFrag (q_conds (gget g1 id))) g1).
  step (Hrb (BFrag (q_groups (gget g2 id))) g2). step (fr_orders id g3). cbv zeta. step (fr_selects id g4).
  set (lim := (if (0 <? q_limit (gget g4 id))%Z then [tlit ("LIMIT " ++ itoa (q_limit (gget g4 id)))] else [])).
  set (off := (if (0 <? q_offset (gget g4 id))%Z then [tlit ("OFFSET " ++ itoa (q_offset (gget g4 id)))] else [])).
  assert (El : phs lim = []) by (subst lim off; destruct (0 <? q_limit _)%Z; reflexivity). assert (Eo : phs off = []) by (subst lim off; destruct (0 <? q_offset _)%Z; reflexivity).
  assert (M : fresh (at_ g) (at_ g5) (placeholders (ttrim (tjoin " " (tnonempty t ++ [t4] ++ tnonempty t0 ++ tnonempty t1 ++ tnonempty t2 ++ tnonempty t3 ++ lim ++ off)%list)))).
  { rewrite placeholders_trim, placeholders_join. change (concat (map placeholders ?l)) with (phs l).
    rewrite !phs_app, !phs_nonempty, El, Eo, !app_nil_r. cbn [phs map concat]. rewrite app_nil_r.
    apply (fresh_app (at_ g) (at_ g0) (at_ g5)); [lia|lia|exact W|]. apply (fresh_swap (at_ g0) (at_ g4) (at_ g5)); [lia|lia| |exact W4].
    apply (fresh_app (at_ g0) (at_ g1) (at_ g4)); [lia|lia|exact W0|]. apply (fresh_app (at_ g1) (at_ g2) (at_ g4)); [lia|lia|exact W1|].
    apply (fresh_app (at_ g2) (at_ g3) (at_ g4)); [lia|lia|exact W2|exact W3]. }
  destruct (q_unions (gget g5 id)) as [|u us] eqn:Eu; [split; cbn [fst snd]; [lia|exact M]|]. rewrite <- Eu. clear Eu u us.
  step (fr_union (q_unions (gget g5 id)) g5). split; cbn [fst snd]; [lia|].
  rewrite placeholders_trim, !placeholders_app, placeholders_lit. cbn [app]. apply (fresh_app (at_ g) (at_ g5) (at_ g6)); [lia|lia|exact M|exact W5].
Qed.
End Query.

Theorem fr_build : forall n e b g, fr placeholders g (gbuild n e b g).
Proof.
  induction n as [|n IH]; intros e b g; cbn [gbuild]; [apply fr_none; exact Logic.I|].
  destruct b as [| |f| |[f|] t|t|x a|[id|]|p]; try (apply fr_none; exact Logic.I); try (apply fr_ret; reflexivity).
  - apply fr_frag. exact IH.
  - apply fr_frag. exact IH.
  - apply fr_internal. intros. apply IH.
Qed.
Lemma fresh_count : forall a b l, fresh a b l -> List.length l <= b - a.
Proof.
  intros a b l [N F]. rewrite <- (seq_length (b - a) a). apply NoDup_incl_length; [exact N|].
  intros j Hj. rewrite Forall_forall in F. specialize (F j Hj). cbv beta in F. apply in_seq. lia.
Qed.
