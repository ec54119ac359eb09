(** Exchanging builders that cannot be told apart. *)
From Coq Require Import Strings.String Strings.Ascii NArith ZArith List Bool Lia.
From Verif Require Import GoStr GoNum Syntax Value Util Model Sqlf Sqlb Spec_swap Fuel_proofs Rel_proofs.
Import ListNotations.
Open Scope string_scope.

(* ------------------------------------------------------------------ *)
(** * Results reached with enough fuel *)

Definition reach {A S} (R : S -> S -> Prop) (x : outcome A * S) (f : nat -> outcome A * S) : Prop :=
  fst x = RFuel \/ exists y m, rel R x y /\ forall k, m <= k -> f k = y.
Lemma reach_ret : forall A S (R : S -> S -> Prop) (o : outcome A) s t, R s t -> reach R (o, s) (fun _ => (o, t)).
Proof. intros A S R o s t H. right. exists (o, t), 0. split; [split; [reflexivity|exact H]|reflexivity]. Qed.
Lemma reach_when : forall A S (R : S -> S -> Prop) (x : outcome A * S) f g m, (forall k, m <= k -> f k = g k) -> reach R x g -> reach R x f.
Proof.
  intros A S R x f g m H [K|(y & m' & K1 & K2)]; [left; exact K|]. right. exists y, (Nat.max m m'). split; [exact K1|].
  intros k Hk. rewrite H by lia. apply K2. lia.
Qed.
Lemma reach_fuel : forall A S (R : S -> S -> Prop) s (f : nat -> outcome A * S), reach R (RFuel, s) f.
Proof. left. reflexivity. Qed.
Definition grows (J : nat -> nat) : Prop := forall j, exists m, forall k, m <= k -> j <= J k.
Lemma grows_pred : forall J, grows J -> grows (fun k => pred (J k)).
Proof. intros J H j. destruct (H (S j)) as [m Hm]. exists m. intros k Hk. specialize (Hm k Hk). lia. Qed.
Lemma grows_id : grows (fun k => k).
Proof. intro j. exists j. auto. Qed.

Ltac go H :=
  let y := fresh "y" in let m := fresh "m" in let E1 := fresh "E" in let E2 := fresh "Q" in let k := fresh "k" in let Hk := fresh "Hk" in
  destruct H as [H|(y & m & [E1 E2] & H)];
  [match type of H with fst ?x = RFuel => let o := fresh "o" in let s := fresh "s" in destruct x as [o s]; cbn [fst] in H; subst o; left; reflexivity end
  |eapply (reach_when _ _ _ _ _ _ m); [intros k Hk; rewrite (H k Hk); reflexivity|];
   clear H;
   match type of E1 with fst ?x = fst ?z => let o := fresh "o" in let s := fresh "s" in let o' := fresh "o" in let t := fresh "t" in
     destruct x as [o s], z as [o' t]; cbn [fst snd] in E1, E2; subst o'; destruct o end].
Ltac ret := first [apply reach_fuel|apply reach_ret].

Lemma F2_refl : forall A (R : A -> A -> Prop) l, (forall x, R x x) -> Forall2 R l l.
Proof. intros A R l H. induction l; constructor; auto. Qed.
Lemma F2_nth : forall A B (R : A -> B -> Prop) l l' i, Forall2 R l l' ->
  match nth_error l i, nth_error l' i with Some x, Some y => R x y | None, None => True | _, _ => False end.
Proof. intros A B R l l' i H. revert i. induction H as [|x y l l' Hx H IH]; intros [|i]; cbn [nth_error]; try exact Logic.I; [exact Hx|apply IH]. Qed.
Lemma F2_nth_d : forall A B (R : A -> B -> Prop) l l' i d d', Forall2 R l l' -> R d d' -> R (nth i l d) (nth i l' d').
Proof. intros A B R l l' i d d' H Hd. revert i. induction H as [|x y l l' Hx H IH]; intros [|i]; cbn [nth]; auto. Qed.
Lemma F2_upd : forall A B (R : A -> B -> Prop) l l' i x y, Forall2 R l l' -> R x y -> Forall2 R (upd i x l) (upd i y l').
Proof. intros A B R l l' i x y H Hx. revert i. induction H as [|u v l l' Hu H IH]; intros [|i]; cbn [upd]; constructor; auto. Qed.
Lemma F2_len : forall A B (R : A -> B -> Prop) l l', Forall2 R l l' -> List.length l = List.length l'.
Proof. intros A B R l l' H. induction H; cbn; congruence. Qed.
Lemma F2_nth1 : forall A B (R : A -> B -> Prop) l l' i, Forall2 R l l' ->
  match nth1 l i, nth1 l' i with Some x, Some y => R x y | None, None => True | _, _ => False end.
Proof. intros A B R l l' i H. unfold nth1. rewrite <- (F2_len _ _ _ _ _ H). destruct (_ && _); [apply F2_nth; exact H|exact Logic.I]. Qed.

(* ------------------------------------------------------------------ *)
(** * Names *)

Scheme names_ind2 := Minimality for names Sort Prop
  with names_all_ind2 := Minimality for names_all Sort Prop.
Combined Scheme names_both from names_ind2, names_all_ind2.
Definition collect_all (ts acc : list string) : list string := fold_left (fun a t => collect_table t a) ts acc.
Lemma extract_names : (forall b ts, names b ts -> forall acc, extract1 b acc = Some (collect_all ts acc)) /\
  (forall l ts, names_all l ts -> forall acc, extract_list l acc = Some (collect_all ts acc)).
Proof.
  apply names_both; cbn [extract1 extract_list]; try reflexivity.
  - intros raw args l p s ts _ IH acc. exact (IH acc).
  - intros fo t Ht acc. destruct t; [congruence|reflexivity].
  - intros raw args l p s ts _ IH acc. exact (IH acc).
  - intros b l ts us _ IH1 _ IH2 acc. rewrite IH1, IH2. unfold collect_all. rewrite fold_left_app. reflexivity.
Qed.
Lemma names_extract : forall b acc r, extract1 b acc = Some r -> exists ts, names b ts.
Proof.
  fix IH 1. intros b acc r H. destruct b as [| |[raw args l p s]| |fo t|t|n a|id|pr]; try (eexists; constructor; fail); [discriminate H|..].
  - cbn [extract1 extract_frag] in H. assert (K : exists ts, names_all l ts).
    { revert acc H. induction l as [|b l IHl]; intros acc H; [exists []; constructor|].
      destruct (extract1 b acc) as [acc'|] eqn:E; [|discriminate H]. destruct (IH b acc acc' E) as [ts Ht]. destruct (IHl acc' H) as [us Hu].
      exists (ts ++ us)%list. constructor; assumption. }
    destruct K as [ts Ht]. exists ts. constructor. exact Ht.
  - destruct t as [|c t]; [|eexists; constructor; discriminate]. destruct fo as [[raw args l p s]|]; [|discriminate H].
    cbn [extract1 extract_frag is_empty] in H. assert (K : exists ts, names_all l ts).
    { revert acc H. induction l as [|b l IHl]; intros acc H; [exists []; constructor|].
      destruct (extract1 b acc) as [acc'|] eqn:E; [|discriminate H]. destruct (IH b acc acc' E) as [ts Ht]. destruct (IHl acc' H) as [us Hu].
      exists (ts ++ us)%list. constructor; assumption. }
    destruct K as [ts Ht]. exists ts. constructor. exact Ht.
Qed.
Lemma same_extract : forall a a', same_names a a' -> forall acc, extract1 a acc = extract1 a' acc.
Proof.
  intros a a' H acc. destruct (extract1 a acc) as [r|] eqn:E.
  - destruct (names_extract _ _ _ E) as [ts Ht]. rewrite (proj1 extract_names a ts Ht) in E. rewrite (proj1 extract_names a' ts (proj1 (H ts) Ht)). congruence.
  - destruct (extract1 a' acc) as [r|] eqn:E'; [|reflexivity]. destruct (names_extract _ _ _ E') as [ts Ht].
    rewrite (proj1 extract_names a ts (proj2 (H ts) Ht)) in E. discriminate E.
Qed.

Lemma outcome_fuel : forall A (o : outcome A), o = RFuel \/ o <> RFuel.
Proof. intros A []; [right; discriminate..|left; reflexivity]. Qed.

Section Names.
Variable P : builder -> builder -> Prop.
Hypothesis HP : forall a a', P a a' -> same_names a a'.
Notation sw := (swap P).

Lemma sf_refl : forall f, swap_frag P f f.
Proof. intros [raw args l p s]. repeat split. apply F2_refl. apply sw_same. Qed.
Lemma sf_swap : forall f f', swap_frag P f f' -> sw (BFrag f) (BFrag f').
Proof. intros [raw args l p s] [raw' args' l' p' s'] (H1 & H2 & H3 & H4 & H5). cbn in *. subst. apply sw_frag. exact H3. Qed.
Lemma extract_swap : forall b b', sw b b' -> forall acc, extract1 b acc = extract1 b' acc.
Proof.
  fix IH 3. intros b b' H acc.
  destruct H as [a a' H|b|raw args l l' p s H|raw args l l' p s t H]; [apply same_extract, HP, H|reflexivity|..]; cbn [extract1 extract_frag].
  - revert acc. induction H as [|x y l l' Hx H IHl]; intro acc; [reflexivity|]. rewrite (IH x y Hx acc). destruct (extract1 y acc); [apply IHl|reflexivity].
  - destruct (is_empty t); [|reflexivity].
    revert acc. induction H as [|x y l l' Hx H IHl]; intro acc; [reflexivity|]. rewrite (IH x y Hx acc). destruct (extract1 y acc); [apply IHl|reflexivity].
Qed.
Lemma extract_list_swap : forall l l', Forall2 sw l l' -> forall acc, extract_list l acc = extract_list l' acc.
Proof. intros l l' H. induction H as [|x y l l' Hx H IH]; intro acc; [reflexivity|]. cbn [extract_list]. rewrite (extract_swap x y Hx). destruct (extract1 y acc); [apply IH|reflexivity]. Qed.
Lemma extract_frag_swap : forall f f', swap_frag P f f' -> forall acc, extract_frag f acc = extract_frag f' acc.
Proof. intros f f' H acc. exact (extract_swap _ _ (sf_swap f f' H) acc). Qed.

(* ------------------------------------------------------------------ *)
(** * Dependencies *)

Lemma assoc_swap : forall k d d', Forall2 (fun x x' => fst x = fst x' /\ swap_cte P (snd x) (snd x')) d d' ->
  match assoc k d, assoc k d' with Some c, Some c' => swap_cte P c c' | None, None => True | _, _ => False end.
Proof.
  intros k d d' H. induction H as [|[x c] [x' c'] d d' [Hx Hc] H IH]; cbn [assoc]; [exact Logic.I|]. cbn [fst snd] in *. subst x'. destruct (String.eqb k x); [exact Hc|exact IH].
Qed.
Section Deps.
Variables q q' : qb.
Hypothesis Hq : swap_query P q q'.
Lemma deps_table_swap : forall n t d, deps_table n q t d = deps_table n q' t d.
Proof.
  induction n as [|n IH]; intros t d; [reflexivity|]. cbn [deps_table]. rewrite <- (sq_tdict _ _ _ Hq). destruct (assoc t (q_tdict q)) as [id|]; [|reflexivity].
  pose proof (F2_nth _ _ _ _ _ id (sq_tobjs _ _ _ Hq)) as K. destruct (nth_error (q_tobjs q) id) as [ft|], (nth_error (q_tobjs q') id) as [ft'|]; try (destruct K; fail); [|reflexivity].
  destruct K as (K1 & K2 & K3). rewrite <- K1. destruct (dep_mem (ft_names ft) d); [reflexivity|].
  destruct (ft_frag ft) as [f|], (ft_frag ft') as [f'|]; try (destruct K3; fail); [|reflexivity]. cbn [swap_opt] in K3. rewrite (extract_frag_swap f f' K3).
  destruct (extract_frag f' []) as [ts|]; [|reflexivity]. generalize (ft_names ft :: d) as d0. induction ts as [|u ts IHt]; intro d0; [reflexivity|].
  destruct (String.eqb u t); [apply IHt|]. rewrite IH. destruct (deps_table n q' u d0); [apply IHt|reflexivity..].
Qed.
Lemma deps_tables_swap : forall n ts d, deps_tables n q ts d = deps_tables n q' ts d.
Proof. intros n ts. induction ts as [|t ts IH]; intro d; [reflexivity|]. cbn [deps_tables]. rewrite deps_table_swap. destruct (deps_table n q' t d); [apply IH|reflexivity..]. Qed.
Lemma deps_cte_swap : forall n c c' d, swap_cte P c c' -> deps_cte n q c d = deps_cte n q' c' d.
Proof.
  induction n as [|n IH]; intros c c' d (C1 & C2 & C3); [reflexivity|]. cbn [deps_cte]. rewrite <- C1, <- C2. clear C2. destruct (dep_mem _ d); [reflexivity|].
  generalize ((c_name c, "") :: d) as d0. induction (c_deps c) as [|x l IHl]; intro d0; [reflexivity|].
  pose proof (assoc_swap x _ _ (sq_cdict _ _ _ Hq)) as K. destruct (assoc x (q_cdict q)) as [e|], (assoc x (q_cdict q')) as [e'|]; try (destruct K; fail); [|apply IHl].
  rewrite (IH e e' d0 K). destruct (deps_cte n q' e' d0); [apply IHl|reflexivity..].
Qed.
Lemma deps_ctes_swap : forall n ids d, deps_ctes n q ids d = deps_ctes n q' ids d.
Proof.
  intros n ids. induction ids as [|id ids IH]; intro d; [reflexivity|]. cbn [deps_ctes].
  pose proof (F2_nth _ _ _ _ _ id (sq_tobjs _ _ _ Hq)) as K. destruct (nth_error (q_tobjs q) id) as [ft|], (nth_error (q_tobjs q') id) as [ft'|]; try (destruct K; fail); [|reflexivity].
  destruct K as (K1 & K2 & _). rewrite <- K1, <- K2, <- (sq_distinct _ _ _ Hq). destruct (_ && _ && _); [apply IH|].
  pose proof (assoc_swap (fst (ft_names ft)) _ _ (sq_cdict _ _ _ Hq)) as K. destruct (assoc _ (q_cdict q)) as [e|], (assoc _ (q_cdict q')) as [e'|]; try (destruct K; fail); [|apply IH].
  rewrite (deps_cte_swap n e e' d K). destruct (deps_cte n q' e' d); [apply IH|reflexivity..].
Qed.
Lemma collect_swap : collect_deps q = collect_deps q'.
Proof.
  unfold collect_deps, extract_tables.
  rewrite (extract_list_swap _ ([BFrag (q_selects q'); BFrag (q_touches q'); BFrag (q_conds q'); BFrag (q_groups q')] ++ map fst (q_orders q'))%list).
  2:{ destruct Hq. cbn [app]. repeat (constructor; [apply sf_swap; assumption|]). clear - sq_orders. induction sq_orders as [|x x' l l' [H _] _ IH]; constructor; assumption. }
  destruct (extract_list _ []) as [ts|]; [|reflexivity]. rewrite <- (sq_tables _ _ _ Hq).
  assert (Ef : deps_fuel q = deps_fuel q') by (unfold deps_fuel; rewrite (F2_len _ _ _ _ _ (sq_tobjs _ _ _ Hq)), (F2_len _ _ _ _ _ (sq_cdict _ _ _ Hq)); reflexivity).
  rewrite <- Ef. destruct (q_tables q) as [|id ids]; [reflexivity|].
  pose proof (F2_nth _ _ _ _ _ id (sq_tobjs _ _ _ Hq)) as K. destruct (nth_error (q_tobjs q) id) as [ft|], (nth_error (q_tobjs q') id) as [ft'|]; try (destruct K; fail); [|reflexivity].
  destruct K as (K1 & _). rewrite <- K1, deps_tables_swap. destruct (deps_tables _ q' ts _); [apply deps_ctes_swap|reflexivity..].
Qed.
End Deps.

Lemma q_refl : forall q, swap_query P q q.
Proof.
  assert (C : forall c, swap_cte P c c) by (intro c; repeat split; apply sw_same).
  intro q. constructor; try reflexivity; try apply sf_refl; try (apply F2_refl).
  - exact C.
  - intros [x c]. split; [reflexivity|apply C].
  - intro x. repeat split. destruct (ft_frag x); [apply sf_refl|exact Logic.I].
  - intro x. split; [apply sw_same|reflexivity].
  - apply sw_same.
Qed.
Lemma sq_push : forall q q' er, swap_query P q q' -> swap_query P (push_error q er) (push_error q' er).
Proof. intros q q' er []. constructor; cbn; try assumption. rewrite sq_errors. reflexivity. Qed.
Lemma sf_append : forall f f' l l', swap_frag P f f' -> Forall2 sw l l' -> swap_frag P (append_frags f l) (append_frags f' l').
Proof. intros f f' l l' (H1 & H2 & H3 & H4 & H5) H. repeat split; cbn; try assumption. apply Forall2_app; assumption. Qed.
Lemma sw_wrap : forall raw b b', sw b b' -> sw (BFrag (Ff raw [b])) (BFrag (Ff raw [b'])).
Proof. intros raw b b' H. apply sf_swap. repeat split. constructor; [exact H|constructor]. Qed.
Lemma sw_orders_loop : forall os os' i q q' items items', Forall2 (fun x x' => sw (fst x) (fst x') /\ snd x = snd x') os os' -> swap_query P q q' -> Forall2 sw items items' ->
  swap_query P (fst (orders_loop i os q items)) (fst (orders_loop i os' q' items')) /\ Forall2 sw (snd (orders_loop i os q items)) (snd (orders_loop i os' q' items')).
Proof.
  intros os os' i q q' items items' H. revert i q q' items items'. induction H as [|[c o] [c' o'] os os' [H1 H2] H IH]; intros i q q' items items' Hq Hi; cbn [orders_loop]; [split; assumption|].
  cbn [fst snd] in H1, H2. subst o'. destruct (N.ltb max_order o); [apply IH; [apply sq_push; exact Hq|exact Hi]|].
  rewrite <- (sq_distinct _ _ _ Hq). destruct (q_distinct q).
  - apply IH; [|apply Forall2_app; [exact Hi|constructor; [apply sw_same|constructor]]].
    destruct Hq. constructor; cbn; try assumption. apply sf_append; [assumption|]. constructor; [apply sw_wrap; exact H1|constructor].
  - apply IH; [exact Hq|]. apply Forall2_app; [exact Hi|]. constructor; [apply sw_wrap; exact H1|constructor].
Qed.
End Names.

Section Swap.
Variables P P2 : builder -> builder -> Prop.
Hypothesis HP : forall a a', P a a' -> same a a'.
Hypothesis Sub : forall a a', P2 a a' -> P a a'.
Hypothesis HP2 : forall a a', P2 a a' -> same_names a a'.
Notation sw := (swap P).
Notation sw2 := (swap P2).
Lemma swap_mono : forall b b', sw2 b b' -> sw b b'.
Proof.
  fix IH 3. intros b b' H. destruct H as [a a' H|b|raw args l l' p s H|raw args l l' p s t H].
  - apply sw_pair, Sub, H.
  - apply sw_same.
  - apply sw_frag. induction H as [|x y l l' Hx H IHl]; constructor; [apply IH; exact Hx|exact IHl].
  - apply sw_col. induction H as [|x y l l' Hx H IHl]; constructor; [apply IH; exact Hx|exact IHl].
Qed.

(* ------------------------------------------------------------------ *)
(** * Building *)

Definition Q (s t : store) : Prop :=
  st_dollar s = st_dollar t /\ st_args s = st_args t /\ st_dict s = st_dict t /\ Forall2 (swap_query P2) (st_heap s) (st_heap t).
Definition QF (X Y : fstate) : Prop := Q (fs_st X) (fs_st Y) /\ fs_ua X = fs_ua Y /\ fs_uf X = fs_uf Y.
Definition QC (c c' : frame) : Prop := fr_args c = fr_args c' /\ Forall2 sw (fr_frags c) (fr_frags c').
Lemma Qcommit : forall v s t, Q s t -> rel Q (commit v s) (commit v t).
Proof.
  intros v [d a di h] [d' a' di' h'] (H1 & H2 & H3 & H4). cbn in H1, H2, H3, H4. subst. unfold commit. cbn [st_dollar st_args st_dict st_heap].
  destruct d'; [destruct (hashable v); [destruct (dict_find v di')|]|]; (split; [reflexivity|repeat split; assumption]).
Qed.
Lemma Qget : forall s t id, Q s t -> swap_query P2 (get_q s id) (get_q t id).
Proof. intros s t id (_ & _ & _ & H). unfold get_q. apply (F2_nth_d _ _ (swap_query P2)); [exact H|apply (q_refl P2)]. Qed.
Lemma Qset : forall s t id q q', Q s t -> swap_query P2 q q' -> Q (set_q s id q) (set_q t id q').
Proof. intros s t id q q' (H1 & H2 & H3 & H4) H. repeat split; cbn [set_q set_heap st_heap]; try assumption. apply F2_upd; assumption. Qed.

Section Rec.
Variable rb1 : env -> builder -> store -> outcome string * store.
Variable rb2 : nat -> env -> builder -> store -> outcome string * store.
Hypothesis Hrb : forall e b b' s t, sw b b' -> Q s t -> reach Q (rb1 e b s) (fun k => rb2 k e b' t).

Lemma sw_prog : forall p e s t, Q s t -> reach Q (run_prog rb1 e p s) (fun k => run_prog (rb2 k) e p t).
Proof.
  fix IH 1. intros p e s t H. destruct p as [r [er|]|er|v k|k|fs b k|p k|z p k]; cbn [run_prog]; try (ret; exact H).
  - destruct (Qcommit v s t H) as [E1 E2]. destruct (commit v s) as [o s'], (commit v t) as [o' t']. cbn [fst snd] in *. subst o'.
    destruct o as [x|er|er|]; try (ret; exact E2). apply IH. exact E2.
  - replace (st_args t) with (st_args s) by apply H. apply IH. exact H.
  - destruct (check_funcs fs); [apply IH; exact H|].
    pose proof (Hrb (match fs with [] => e | _ => fs :: e end) b b s t (sw_same _ b) H) as K. go K; try (apply IH; assumption). ret.
  - pose proof (IH p e s t H) as K. go K; try (apply IH; assumption). ret.
  - assert (H0 : Q (new_store z (st_heap s)) (new_store z (st_heap t))) by (destruct H as (_ & _ & _ & H); repeat split; exact H).
    pose proof (IH p [builtins] _ _ H0) as K. destruct H as (H1 & H2 & H3 & _).
    destruct K as [K|(y & m & [E1 E2] & K)].
    + destruct (run_prog rb1 _ p _) as [o s']. cbn [fst] in K. subst o. left. reflexivity.
    + eapply (reach_when _ _ _ _ _ _ m); [intros j Hj; rewrite (K j Hj); reflexivity|]. destruct (run_prog rb1 _ p _) as [o s'], y as [o' t']. cbn [fst snd] in E1, E2. subst o'.
      destruct E2 as (_ & E2 & _ & E3). assert (L : Q (set_heap s (st_heap s')) (set_heap t (st_heap t'))) by (repeat split; assumption).
      rewrite E2. destruct o; try (apply IH; exact L). ret.
Qed.

Variable rc1 : env -> frame -> list expr -> fstate -> outcome string * fstate.
Variable rc2 : nat -> env -> frame -> list expr -> fstate -> outcome string * fstate.
Hypothesis Hrc : forall e fc fc' es X Y, QC fc fc' -> QF X Y -> reach QF (rc1 e fc es X) (fun k => rc2 k e fc' es Y).

Lemma sw_arg : forall fc fc' i X Y, QC fc fc' -> QF X Y -> rel QF (func_arg fc i X) (func_arg fc' i Y).
Proof.
  intros fc fc' i X Y [C _] H. unfold func_arg. rewrite <- C. destruct (nth1 _ _) as [v|]; [|split; [reflexivity|exact H]].
  destruct H as (H1 & H2 & H3). destruct (Qcommit v _ _ H1) as [E1 E2].
  destruct (commit v (fs_st X)) as [o s'], (commit v (fs_st Y)) as [o' t']. cbn [fst snd] in *. subst o'.
  split; [reflexivity|]. cbn. rewrite H2, H3. split; [exact E2|split; reflexivity].
Qed.
Lemma rel_reach : forall A S (R : S -> S -> Prop) (x y : outcome A * S), rel R x y -> reach R x (fun _ => y).
Proof. intros A S R x y H. right. exists y, 0. auto. Qed.
Lemma sw_fragment : forall e fc fc' i X Y, QC fc fc' -> QF X Y -> reach QF (func_fragment rb1 e fc i X) (fun k => func_fragment (rb2 k) e fc' i Y).
Proof.
  intros e fc fc' i X Y [_ C] H. unfold func_fragment. pose proof (F2_nth1 _ _ _ _ _ i C) as K.
  destruct (nth1 (fr_frags fc) i) as [b|], (nth1 (fr_frags fc') i) as [b'|]; try (destruct K; fail); [|ret; exact H].
  destruct H as (H1 & H2 & H3). pose proof (Hrb e b b' _ _ K H1) as L. rewrite H2, H3. go L; ret; (split; [assumption|split; reflexivity]).
Qed.
Lemma sw_compat : forall name f s t, Q s t ->
  snd (fst (join_compat rb1 name f s)) = true /\ fst (fst (join_compat rb1 name f s)) = false \/
  exists y m, fst (join_compat rb1 name f s) = fst y /\ Q (snd (join_compat rb1 name f s)) (snd y) /\ forall k, m <= k -> join_compat (rb2 k) name f t = y.
Proof.
  intros name f s t H. unfold join_compat. destruct (negb _); [right; exists (false, false, t), 0; auto|].
  destruct f as [| | |sg body]; try (right; exists (true, false, t), 0; auto; fail).
  assert (H0 : Q (new_store style_question (st_heap s)) (new_store style_question (st_heap t))) by (destruct H as (_ & _ & _ & H); repeat split; exact H).
  destruct (sw_prog (body [LInt 0]) [[]] _ _ H0) as [K|(y & m & [E1 E2] & K)].
  - left. destruct (run_prog rb1 _ _ _) as [r st']. cbn in K. subst r. destruct (fs_outs sg) as [|? [|]]; cbn; auto.
  - right. destruct (run_prog rb1 _ _ _) as [r s'], y as [r' t']. cbn [fst snd] in E1, E2. subst r'.
    assert (L : Q (set_heap s (st_heap s')) (set_heap t (st_heap t'))) by (destruct H as (H1 & H2 & H3 & _), E2 as (_ & _ & _ & E2); repeat split; assumption).
    destruct (fst (safe name (norm_outs (fs_outs sg) r, tt))) eqn:Es; eexists _, m; (apply conj; [|apply conj; [|intros k Hk; rewrite (K k Hk), Es; reflexivity]]); try reflexivity; exact L.
Qed.
Lemma sw_prep : forall e es s t, Q s t -> reach Q (join_prep rb1 e es s) (fun k => join_prep (rb2 k) e es t).
Proof.
  intros e es. induction es as [|x es IH]; intros s t H; [ret; exact H|].
  destruct x as [r p|a i p|name args p|name p]; cbn [join_prep]; try (apply IH; exact H).
  destruct (lookup_fn e name) as [f|]; [|ret; exact H].
  destruct (sw_compat name f s t H) as [[K1 K2]|(y & m & K1 & K2 & K3)].
  - destruct (join_compat rb1 name f s) as [[c z] s']. cbn [fst snd] in K1, K2. subst. left. reflexivity.
  - eapply (reach_when _ _ _ _ _ _ m); [intros k Hk; rewrite (K3 k Hk); reflexivity|].
    destruct (join_compat rb1 name f s) as [[c z] s'], y as [[c' z'] t']. cbn [fst snd] in *. injection K1 as <- <-.
    destruct c; [|destruct z; ret; exact K2]. pose proof (IH s' t' K2) as L. go L; ret; assumption.
Qed.
Lemma sw_loop : forall n J e fc fc' es sep from to i acc X Y, grows J -> QC fc fc' -> QF X Y ->
  reach QF (join_loop rc1 n e fc es sep from to i acc X) (fun k => join_loop (rc2 k) (J k) e fc' es sep from to i acc Y).
Proof.
  induction n as [|n IH]; intros J e fc fc' es sep from to i acc X Y G C H; [ret|].
  destruct (G 1) as [m1 G1]. apply (reach_when _ _ _ _ _ (fun k => join_loop (rc2 k) (S (pred (J k))) e fc' es sep from to i acc Y) m1).
  { intros k Hk. specialize (G1 k Hk). replace (S (pred (J k))) with (J k) by lia. reflexivity. }
  cbn [join_loop]. pose proof (Hrc e fc fc' (set_index i es) X Y C H) as K. go K; try (ret; assumption).
  - destruct (_ && _); [ret; assumption|]. apply (IH (fun k => pred (J k))); [apply grows_pred; exact G|exact C|assumption].
  - destruct (is_invalid_index _); [destruct (_ || _)|]; ret; assumption.
Qed.
Variable jf : nat.
Variable J : nat -> nat.
Hypothesis HJ : grows J.
Lemma sw_join : forall e fc fc' tmpl sep idx X Y, QC fc fc' -> QF X Y ->
  reach QF (func_join rb1 rc1 jf e fc tmpl sep idx X) (fun k => func_join (rb2 k) (rc2 k) (J k) e fc' tmpl sep idx Y).
Proof.
  intros e fc fc' tmpl sep idx X Y C H. unfold func_join.
  destruct idx as [|a [|b [|c idx]]]; try (ret; exact H).
  all: destruct (_ && _); [ret; exact H|]; destruct (parse tmpl) as [es|p m| |]; try (ret; exact H);
    destruct H as (H1 & H2 & H3); rewrite H2, H3; pose proof (sw_prep e es _ _ H1) as K; go K; try (ret; (split; [assumption|split; reflexivity]));
    match goal with |- reach _ (match ?a with O => _ | Datatypes.S _ => _ end) _ => destruct a end; [ret; (split; [assumption|split; reflexivity])|apply sw_loop; [exact HJ|exact C|split; [assumption|split; reflexivity]]].
Qed.
Lemma sw_safe : forall S (R : S -> S -> Prop) name (x : outcome string * S) f, reach R x f -> reach R (safe name x) (fun k => safe name (f k)).
Proof. intros S R name x f H. go H; cbn [safe]; ret; assumption. Qed.
Lemma sw_call : forall e fc fc' f args X Y, QC fc fc' -> QF X Y ->
  reach QF (call_fn rb1 rc1 jf e fc f args X) (fun k => call_fn (rb2 k) (rc2 k) (J k) e fc' f args Y).
Proof.
  intros e fc fc' f args X Y C H. destruct f as [| | |sg body]; cbn [call_fn].
  - apply rel_reach, sw_arg; assumption.
  - apply sw_fragment; assumption.
  - destruct args as [|[] [|[] idx]]; try (ret; exact H). apply sw_join; assumption.
  - destruct H as (H1 & H2 & H3). rewrite H2, H3. pose proof (sw_prog (body args) e _ _ H1) as K.
    destruct K as [K|(y & m & [E1 E2] & K)].
    + destruct (run_prog rb1 e _ _) as [r st']. cbn in K. subst r. left. cbn. destruct (fs_outs sg) as [|? [|]]; reflexivity.
    + eapply (reach_when _ _ _ _ _ _ m); [intros k Hk; rewrite (K k Hk); reflexivity|].
      destruct (run_prog rb1 e _ _) as [o s'], y as [o' t']. cbn [fst snd] in *. subst o'. ret. split; [exact E2|split; reflexivity].
Qed.
Lemma sw_expr : forall e fc fc' x X Y, QC fc fc' -> QF X Y ->
  reach QF (eval_expr rb1 rc1 jf e fc x X) (fun k => eval_expr (rb2 k) (rc2 k) (J k) e fc' x Y).
Proof.
  intros e fc fc' x X Y C H. destruct x as [t p|a i p|name args p|name p]; cbn [eval_expr]; try (ret; exact H).
  - rewrite <- (proj1 C). destruct (nth1 _ _); [apply rel_reach, sw_arg; assumption|ret; exact H].
  - unfold eval_function. destruct (lookup_fn e name) as [f|]; [|ret; exact H]. unfold eval_call.
    destruct (arity_ok _ _); [|ret; exact H]. destruct (eval_args _ _); try (ret; exact H).
    destruct (any_rejected _ _); [cbn [safe]; ret; exact H|]. apply sw_safe, sw_call; assumption.
Qed.
Lemma sw_clause : forall e fc fc' es X Y, QC fc fc' -> QF X Y ->
  reach QF (clause rb1 rc1 jf e fc es X) (fun k => clause (rb2 k) (rc2 k) (J k) e fc' es Y).
Proof.
  intros e fc fc' es. induction es as [|x es IH]; intros X Y C H; cbn [clause]; [ret; exact H|].
  pose proof (sw_expr e fc fc' x X Y C H) as K. go K; try (ret; assumption).
  match goal with H' : QF ?X' ?Y' |- _ => match goal with |- context [clause rb1 rc1 jf e fc es X'] => pose proof (IH X' Y' C H') as L end end.
  go L; ret; assumption.
Qed.
End Rec.

Lemma sw_clause_n : forall rb1 rb2, (forall e b b' s t, sw b b' -> Q s t -> reach Q (rb1 e b s) (fun k => rb2 k e b' t)) ->
  forall n J e fc fc' es X Y, grows J -> QC fc fc' -> QF X Y -> reach QF (clause_n n rb1 e fc es X) (fun k => clause_n (J k) (rb2 k) e fc' es Y).
Proof.
  intros rb1 rb2 Hrb. induction n as [|n IH]; intros J e fc fc' es X Y G C H; [ret|].
  destruct (G 1) as [m1 G1]. apply (reach_when _ _ _ _ _ (fun k => clause_n (S (pred (J k))) (rb2 k) e fc' es Y) m1).
  { intros k Hk. specialize (G1 k Hk). replace (S (pred (J k))) with (J k) by lia. reflexivity. }
  cbn [clause_n]. apply (sw_clause rb1 rb2 Hrb (clause_n n rb1) (fun k => clause_n (pred (J k)) (rb2 k))); try assumption; [|apply grows_pred; exact G].
  intros. apply IH; [apply grows_pred; exact G|assumption..].
Qed.
Lemma sw_frag_build : forall rb1 rb2, (forall e b b' s t, sw b b' -> Q s t -> reach Q (rb1 e b s) (fun k => rb2 k e b' t)) ->
  forall n e f f' s t, swap_frag P f f' -> Q s t -> reach Q (build_frag n rb1 e f s) (fun k => build_frag k (rb2 k) e f' t).
Proof.
  intros rb1 rb2 Hrb n e f f' s t (F1 & F2 & F3 & F4 & F5) H. unfold build_frag, not_parsed, in_frag. rewrite <- F1, <- F2, <- F4, <- F5.
  destruct (parse (f_raw f)) as [es|p m| |]; try (ret; exact H).
  assert (C : QC (mkFrame (f_args f) (f_frags f)) (mkFrame (f_args f) (f_frags f'))) by (split; [reflexivity|exact F3]).
  assert (X : QF (mkFS s (map (fun _ => false) (f_args f)) (map (fun _ => false) (f_frags f))) (mkFS t (map (fun _ => false) (f_args f)) (map (fun _ => false) (f_frags f')))).
  { split; [exact H|]. split; [reflexivity|]. cbn [fs_uf]. clear - F3. induction F3; cbn; congruence. }
  pose proof (sw_clause_n rb1 rb2 Hrb n (fun k => k) e _ _ es _ _ grows_id C X) as K. go K; try (ret; match goal with L : QF _ _ |- _ => exact (proj1 L) end).
  match goal with L : QF _ _ |- _ => destruct L as (L1 & L2 & L3) end. rewrite L2, L3.
  destruct (_ && _); [|ret; exact L1]. cbn zeta. destruct (is_empty _); ret; exact L1.
Qed.

Section Query.
Variable rb1 : builder -> store -> outcome string * store.
Variable rb2 : nat -> builder -> store -> outcome string * store.
Hypothesis Hrb : forall b b' s t, sw2 b b' -> Q s t -> reach Q (rb1 b s) (fun k => rb2 k b' t).

Lemma sw_ctes_loop : forall cs cs' d s t, Forall2 (swap_cte P2) cs cs' -> Q s t -> reach Q (build_ctes_loop rb1 cs d s) (fun k => build_ctes_loop (rb2 k) cs' d t).
Proof.
  intros cs cs' d s t C. revert s t. induction C as [|c c' cs cs' (C1 & C2 & C3) C IH]; intros s t H; cbn [build_ctes_loop]; [ret; exact H|]. unfold in_cte. rewrite <- C1.
  destruct (dep_mem _ d); [|apply IH; exact H]. pose proof (Hrb _ _ s t C3 H) as K. go K; try (ret; assumption).
  match goal with H' : Q ?s' ?t' |- context [build_ctes_loop rb1 cs d ?s'] => pose proof (IH s' t' H') as L end. go L; ret; assumption.
Qed.
Lemma sw_ctes : forall cs cs' d s t, Forall2 (swap_cte P2) cs cs' -> Q s t -> reach Q (build_ctes rb1 cs d s) (fun k => build_ctes (rb2 k) cs' d t).
Proof.
  intros cs cs' d s t C H. unfold build_ctes. pose proof (sw_ctes_loop cs cs' d s t C H) as K. go K; try (ret; assumption).
  match goal with |- reach _ (match ?a with [] => _ | _ => _ end) _ => destruct a end; ret; assumption.
Qed.
Lemma sw_from_loop : forall ds fs fs' d s t, Forall2 (swap_table P2) fs fs' -> Q s t -> reach Q (build_from_loop rb1 ds fs d s) (fun k => build_from_loop (rb2 k) ds fs' d t).
Proof.
  intros ds fs fs' d s t C. revert s t. induction C as [|c c' fs fs' (C1 & C2 & C3) C IH]; intros s t H; cbn [build_from_loop]; [ret; exact H|]. unfold in_from. rewrite <- C1, <- C2.
  destruct (_ && _ && _); [apply IH; exact H|].
  assert (K : reach Q (build_ofrag rb1 (ft_frag c) s) (fun k => build_ofrag (rb2 k) (ft_frag c') t)).
  { unfold build_ofrag. destruct (ft_frag c) as [f|], (ft_frag c') as [f'|]; try (destruct C3; fail); apply Hrb; try assumption; [apply (sf_swap P2); exact C3|apply sw_same]. }
  go K; try (ret; assumption).
  match goal with H' : Q ?s' ?t' |- context [build_from_loop rb1 ds fs d ?s'] => pose proof (IH s' t' H') as L end. go L; ret; assumption.
Qed.
Lemma sw_from : forall q q' d s t, swap_query P2 q q' -> Q s t -> reach Q (build_from rb1 q d s) (fun k => build_from (rb2 k) q' d t).
Proof.
  intros q q' d s t Hq H. unfold build_from. rewrite <- (sq_distinct _ _ _ Hq).
  assert (C : Forall2 (swap_table P2) (from_tables q) (from_tables q')).
  { unfold from_tables. rewrite <- (sq_tables _ _ _ Hq). induction (q_tables q) as [|id ids IH]; cbn [map]; constructor; [|exact IH].
    apply (F2_nth_d _ _ (swap_table P2)); [apply sq_tobjs, Hq|repeat split]. }
  pose proof (sw_from_loop (q_distinct q) _ _ d s t C H) as K. go K; ret; assumption.
Qed.
Lemma sw_orders : forall id s t, Q s t -> reach Q (build_orders rb1 id s) (fun k => build_orders (rb2 k) id t).
Proof.
  intros id s t H. unfold build_orders. pose proof (Qget s t id H) as Hq.
  destruct (sw_orders_loop P2 (q_orders (get_q s id)) (q_orders (get_q t id)) 0 _ _ [] [] (sq_orders _ _ _ Hq) Hq (Forall2_nil _)) as [K1 K2].
  destruct (orders_loop 0 (q_orders (get_q s id)) (get_q s id) []) as [q1 i1], (orders_loop 0 (q_orders (get_q t id)) (get_q t id) []) as [q2 i2]. cbn [fst snd] in K1, K2.
  apply Hrb; [apply sw_frag; exact K2|apply Qset; assumption].
Qed.
Lemma sw_selects : forall id s t, Q s t -> reach Q (build_selects rb1 id s) (fun k => build_selects (rb2 k) id t).
Proof.
  intros id s t H. unfold build_selects. pose proof (Qget s t id H) as Hq. rewrite <- (sq_distinct _ _ _ Hq).
  set (p := if q_distinct (get_q s id) then "SELECT DISTINCT" else "SELECT").
  assert (Hs : swap_frag P2 (with_prefix (q_selects (get_q s id)) p) (with_prefix (q_selects (get_q t id)) p)).
  { destruct (sq_selects _ _ _ Hq) as (S1 & S2 & S3 & S4 & S5). repeat split; assumption. }
  assert (H' : Q (set_q s id (set_selects (get_q s id) (with_prefix (q_selects (get_q s id)) p))) (set_q t id (set_selects (get_q t id) (with_prefix (q_selects (get_q t id)) p)))).
  { apply Qset; [exact H|]. destruct Hq. constructor; cbn; assumption. }
  pose proof (Hrb _ _ _ _ (sf_swap P2 _ _ Hs) H') as K. go K; try (ret; assumption).
  match goal with H1 : Q ?s' ?t' |- context [q_touches (get_q ?s' id)] => pose proof (Hrb _ _ s' t' (sf_swap P2 _ _ (sq_touches _ _ _ (Qget s' t' id H1))) H1) as L end.
  go L; try (ret; assumption). destruct (is_empty _); [ret; assumption|]. destruct (is_empty _); ret; assumption.
Qed.
Lemma sw_union_loop : forall bs bs' s t, Forall2 sw2 bs bs' -> Q s t -> reach Q (build_union_loop rb1 bs s) (fun k => build_union_loop (rb2 k) bs' t).
Proof.
  intros bs bs' s t C. revert s t. induction C as [|b b' bs bs' Hb C IH]; intros s t H; cbn [build_union_loop]; [ret; exact H|].
  pose proof (Hrb _ _ s t Hb H) as K. go K; try (ret; assumption).
  match goal with H' : Q ?s' ?t' |- context [build_union_loop rb1 bs ?s'] => pose proof (IH s' t' H') as L end. go L; ret; assumption.
Qed.
Lemma sw_union : forall bs bs' s t, Forall2 sw2 bs bs' -> Q s t -> reach Q (build_union rb1 bs s) (fun k => build_union (rb2 k) bs' t).
Proof. intros bs bs' s t C H. unfold build_union. pose proof (sw_union_loop bs bs' s t C H) as K. go K; ret; assumption. Qed.
Lemma sw_bind : forall x f K1 K2, reach Q x f -> (forall r s t, Q s t -> reach Q (K1 r s) (fun k => K2 k r t)) ->
  reach Q (bind x K1) (fun k => bind (f k) (K2 k)).
Proof. intros x f K1 K2 H K. unfold bind. go H; try (ret; assumption). apply K. assumption. Qed.
Lemma sw_internal : forall id s t, Q s t -> reach Q (build_internal rb1 id s) (fun k => build_internal (rb2 k) id t).
Proof.
  intros id s t H. unfold build_internal. pose proof (Qget s t id H) as Hq. cbn zeta. rewrite <- (sq_errors _ _ _ Hq). destruct (q_errors (get_q s id)); [|ret; exact H].
  rewrite (collect_swap P2 HP2 _ _ Hq). destruct (collect_deps (get_q t id)) as [d|er|er|]; try (ret; exact H).
  apply sw_bind; [apply sw_ctes; [apply sq_ctes, Hq|exact H]|]. clear s t H Hq. intros sq s t H.
  apply sw_bind; [apply sw_from; [apply Qget|]; exact H|]. clear s t H. intros from s t H.
  apply sw_bind; [apply Hrb; [apply (sf_swap P2), sq_conds, Qget|]; exact H|]. clear s t H. intros wher s t H.
  apply sw_bind; [apply Hrb; [apply (sf_swap P2), sq_groups, Qget|]; exact H|]. clear s t H. intros groupby s t H.
  apply sw_bind; [apply sw_orders; exact H|]. clear s t H. intros order s t H.
  rewrite <- (sq_limit _ _ _ (Qget s t id H)), <- (sq_offset _ _ _ (Qget s t id H)).
  generalize (if (0 <? q_limit (get_q s id))%Z then ["LIMIT " ++ itoa (q_limit (get_q s id))] else []) as li.
  generalize (if (0 <? q_offset (get_q s id))%Z then ["OFFSET " ++ itoa (q_offset (get_q s id))] else []) as off. intros off li.
  apply sw_bind; [apply sw_selects; exact H|]. clear s t H. intros sel s t H.
  generalize (trim_space (str_join " " (nonempty sq ++ [sel] ++ nonempty from ++ nonempty wher ++ nonempty groupby ++ nonempty order ++ li ++ off)%list)) as query. intro query.
  apply sw_bind.
  - pose proof (sq_unions _ _ _ (Qget s t id H)) as U. destruct U as [|u u' us us' Hu U]; [ret; exact H|].
    apply (sw_bind _ (fun k => build_union (rb2 k) (u' :: us') t) _ (fun _ u st => (ROk (trim_space (query ++ " " ++ u)), st))); [apply sw_union; [constructor; assumption|exact H]|]. intros r s' t' H'. ret. exact H'.
  - clear s t H. intros qs s t H. rewrite <- (sq_debug _ _ _ (Qget s t id H)). destruct (q_debug (get_q s id)); [|ret; exact H].
    replace (st_args t) with (st_args s) by apply H. destruct (interpolate _ _ _); ret; exact H.
Qed.
End Query.

Lemma shift : forall A S (R : S -> S -> Prop) (x : outcome A * S) g f, reach R x g -> (forall k, f (Datatypes.S k) = g k) -> reach R x f.
Proof.
  intros A S R x g f [H|(y & m & H1 & H2)] K; [left; exact H|]. right. exists y, (Datatypes.S m). split; [exact H1|].
  intros [|k] Hk; [lia|]. rewrite K. apply H2. lia.
Qed.
Theorem swap_build : forall n e b b' s t, sw b b' -> Q s t -> reach Q (build n e b s) (fun k => build k e b' t).
Proof.
  induction n as [|n IH]; intros e b b' s t Hb H; [ret|].
  assert (R : forall c, reach Q (build (S n) e c s) (fun k => build k e c t)).
  { intro c. destruct c as [| |f| |[f|] tb|tb|x a|[id|]|p]; cbn [build];
      match goal with
      | |- reach _ (build_frag n (build n) e ?f s) _ => eapply shift; [apply (sw_frag_build (build n) build IH n e f f s t (sf_refl P f) H)|reflexivity]
      | |- reach _ (build_internal _ ?id s) _ => eapply shift; [apply (sw_internal (build n e) (fun k => build k e)); [intros; apply IH; [apply swap_mono; assumption|assumption]|exact H]|reflexivity]
      | |- reach _ (run_prog _ _ _ _) _ => eapply shift; [apply (sw_prog (build n) build IH); exact H|reflexivity]
      | |- reach _ (?o, s) _ => eapply shift; [apply (reach_ret _ _ _ o s t H)|reflexivity]
      end. }
  destruct Hb as [a a' Ha|b|raw args l l' p x Hl|raw args l l' p x tb Hl].
  - destruct (R a) as [K|(y & m & K1 & K2)]; [left; exact K|]. destruct (outcome_fuel _ (fst (build (S n) e a s))) as [Z|Z]; [left; exact Z|].
    assert (Zy : fst y <> RFuel) by (rewrite <- (proj1 K1); exact Z).
    destruct (proj1 (HP a a' Ha e t y Zy) (ex_intro _ m (K2 m (le_n m)))) as [m' E].
    right. exists y, m'. split; [exact K1|]. intros k Hk. destruct (mono_build m' k e a' t Hk) as [W|W]; [rewrite E in W; contradiction|congruence].
  - apply R.
  - cbn [build]. eapply shift; [apply (sw_frag_build (build n) build IH n e _ (Frag raw args l' p x) s t)|reflexivity]; [repeat split; exact Hl|exact H].
  - cbn [build]. eapply shift; [apply (sw_frag_build (build n) build IH n e _ (Frag raw args l' p x) s t)|reflexivity]; [repeat split; exact Hl|exact H].
Qed.

End Swap.

Section Calls.
Variable P : builder -> builder -> Prop.
Notation sw := (swap P).
(** Query builders described by calls. *)
Lemma qswap_op : forall o o' q q', swap_op P o o' -> swap_query P q q' ->
  match apply_op o q, apply_op o' q' with ROk x, ROk x' => swap_query P x x' | RErr e, RErr e' => e = e' | RPanic e, RPanic e' => e = e' | RFuel, RFuel => True | _, _ => False end.
Proof.
  assert (Cond : forall q q' f f', swap_query P q q' -> swap_frag P f f' -> swap_query P (add_cond q f) (add_cond q' f')).
  { intros q q' f f' [] Hf. constructor; cbn; try assumption. apply (sf_append P); [assumption|]. constructor; [apply (sf_swap P); exact Hf|constructor]. }
  assert (In1 : forall q q' raw c c' v, swap_query P q q' -> sw c c' ->
    match where_in raw c v q, where_in raw c' v q' with ROk x, ROk x' => swap_query P x x' | RErr e, RErr e' => e = e' | RPanic e, RPanic e' => e = e' | RFuel, RFuel => True | _, _ => False end).
  { intros q q' raw c c' v Hq Hc. unfold where_in. destruct (args_flatted [v]); try reflexivity.
    apply Cond; [exact Hq|]. repeat split. constructor; [exact Hc|constructor]. }
  assert (Jn : forall q q' kind t f f' opt, swap_query P q q' -> swap_opt P f f' ->
    match qb_join kind t f opt q, qb_join kind t f' opt q' with ROk x, ROk x' => swap_query P x x' | RErr e, RErr e' => e = e' | RPanic e, RPanic e' => e = e' | RFuel, RFuel => True | _, _ => False end).
  { intros q q' kind t f f' opt Hq Hf. unfold qb_join. destruct (is_empty (fst t)); [apply (sq_push P); exact Hq|].
    destruct f as [f|], f' as [f'|]; try (destruct Hf; fail); [|reflexivity]. cbn [swap_opt] in Hf.
    set (q1 := match q_tables q with [] => _ | _ => q end). set (q2 := match q_tables q' with [] => _ | _ => q' end).
    assert (H1 : swap_query P q1 q2).
    { unfold q1, q2. rewrite <- (sq_tables _ _ _ Hq). destruct (q_tables q) eqn:Et; [|exact Hq]. destruct Hq. constructor; cbn; try assumption.
      - apply Forall2_app; [assumption|]. constructor; [repeat split|constructor].
      - rewrite (F2_len _ _ _ _ _ sq_tobjs). reflexivity. }
    clearbody q1 q2. rewrite <- (sq_tdict _ _ _ H1).
    assert (Ht : swap_table P (mkFT t (Some (Ff (join_raw kind t) [BFrag (with_prefix f "ON")])) opt) (mkFT t (Some (Ff (join_raw kind t) [BFrag (with_prefix f' "ON")])) opt)).
    { repeat split; cbn. constructor; [|constructor]. apply (sf_swap P). destruct Hf as (F1 & F2 & F3 & F4 & F5). repeat split; assumption. }
    destruct (assoc _ (q_tdict q1)) as [id|]; destruct H1; constructor; cbn; try assumption; try reflexivity; try (apply F2_upd; assumption).
    - apply Forall2_app; [assumption|]. constructor; [exact Ht|constructor].
    - rewrite (F2_len _ _ _ _ _ sq_tobjs), sq_tables. reflexivity.
    - rewrite (F2_len _ _ _ _ _ sq_tobjs), sq_tdict. reflexivity. }
  assert (Sel : forall q q' l l', swap_query P q q' -> Forall2 sw l l' -> swap_query P (set_selects q (with_frags (q_selects q) l)) (set_selects q' (with_frags (q_selects q') l'))).
  { intros q q' l l' [] Hl. constructor; cbn; try assumption. destruct sq_selects as (F1 & F2 & F3 & F4 & F5). repeat split; assumption. }
  assert (Rest : forall o q q', swap_query P q q' -> match o with OJoin _ _ _ _ | OWhereIn _ _ | OWhereNotIn _ _ => False | _ => True end ->
    exists x x', apply_op o q = ROk x /\ apply_op o q' = ROk x' /\ swap_query P x x').
  { intros o q q' Hq Ho. destruct o as [|l|z|z|l|l|t|kind t on opt|[f|]|c op v|c v|c v|c x|nm b deps|]; cbn [apply_op]; try (destruct Ho; fail); try (eexists _, _; apply conj; [reflexivity|]; apply conj; [reflexivity|]).
    - destruct Hq. constructor; cbn; try assumption. reflexivity.
    - destruct l as [|c l]; eexists _, _; (apply conj; [reflexivity|]; apply conj; [reflexivity|]); [exact Hq|]. apply Sel; [exact Hq|apply F2_refl, sw_same].
    - destruct (0 <? z)%Z; [|exact Hq]. destruct Hq. constructor; cbn; try assumption. reflexivity.
    - destruct (0 <? z)%Z; [|exact Hq]. destruct Hq. constructor; cbn; try assumption. reflexivity.
    - destruct Hq. constructor; cbn; try assumption. apply (sf_append P); [assumption|apply F2_refl, sw_same].
    - destruct Hq. constructor; cbn; try assumption. apply Forall2_app; [assumption|apply F2_refl, sw_same].
    - unfold qb_from. destruct (is_empty (fst t)); [apply (sq_push P); exact Hq|]. destruct Hq. constructor; cbn; try assumption.
      + apply Forall2_app; [assumption|]. constructor; [|constructor]. split; [reflexivity|]. split; [reflexivity|]. apply (sf_refl P).
      + rewrite (F2_len _ _ _ _ _ sq_tobjs), sq_tables. reflexivity.
      + rewrite (F2_len _ _ _ _ _ sq_tobjs), sq_tdict. reflexivity.
    - apply Cond; [exact Hq|apply (sf_refl P)].
    - exact Hq.
    - apply Cond; [exact Hq|apply (sf_refl P)].
    - destruct Hq. constructor; cbn; try assumption. apply Forall2_app; [assumption|]. constructor; [split; [apply sw_same|reflexivity]|constructor].
    - destruct Hq. constructor; cbn; try assumption; [apply Forall2_app; [assumption|]; constructor; [|constructor]|constructor; [|assumption]]; repeat split; apply sw_same.
    - destruct Hq. constructor; cbn; try assumption. reflexivity. }
  intros o o' q q' Ho Hq. destruct Ho as [o|l l' Hl|l l' Hl|l l' Hl|kind t f f' opt Hf|f f' Hf|c c' op v Hc|c c' v Hc|c c' v Hc|c c' x Hc|nm b b' deps Hb].
  - destruct o as [|l|z|z|l|l|t|kind t on opt|f|c op v|c v|c v|c x|nm b deps|];
      try (match goal with |- context [apply_op ?o q] => destruct (Rest o q q' Hq Logic.I) as (x1 & x2 & E1 & E2 & E3); rewrite E1, E2; exact E3 end).
    + apply Jn; [exact Hq|]. destruct on; [apply (sf_refl P)|exact Logic.I].
    + apply In1; [exact Hq|apply sw_same].
    + apply In1; [exact Hq|apply sw_same].
  - destruct Hl as [|x x' l l' Hx Hl]; [exact Hq|]. cbn [apply_op]. apply Sel; [exact Hq|constructor; assumption].
  - cbn [apply_op]. destruct Hq. constructor; cbn; try assumption. apply (sf_append P); assumption.
  - cbn [apply_op]. destruct Hq. constructor; cbn; try assumption. apply Forall2_app; assumption.
  - apply Jn; [exact Hq|exact Hf].
  - cbn [apply_op]. apply Cond; assumption.
  - cbn [apply_op]. apply Cond; [exact Hq|]. repeat split. constructor; [exact Hc|constructor].
  - apply In1; assumption.
  - apply In1; assumption.
  - cbn [apply_op]. destruct Hq. constructor; cbn; try assumption. apply Forall2_app; [assumption|]. constructor; [split; [exact Hc|reflexivity]|constructor].
  - cbn [apply_op]. destruct Hq. constructor; cbn; try assumption; [apply Forall2_app; [assumption|]; constructor; [|constructor]|constructor; [|assumption]]; repeat split; exact Hb.
Qed.
Theorem qswap_ops : forall os os' q0 q0' q, Forall2 (swap_op P) os os' -> swap_query P q0 q0' -> apply_ops os q0 = ROk q ->
  exists q', apply_ops os' q0' = ROk q' /\ swap_query P q q'.
Proof.
  intros os os' q0 q0' q H. revert q0 q0'. induction H as [|o o' os os' Ho H IH]; intros q0 q0' Hq E; cbn [apply_ops] in *.
  - injection E as <-. eauto.
  - pose proof (qswap_op o o' q0 q0' Ho Hq) as K. destruct (apply_op o q0) as [x|er|er|]; try discriminate E.
    destruct (apply_op o' q0') as [x'|er|er|]; try (destruct K; fail). exact (IH x x' K E).
Qed.
End Calls.

Section Text.
Variables P P2 : builder -> builder -> Prop.
Hypothesis HP : forall a a', P a a' -> same a a'.
Hypothesis Sub : forall a a', P2 a a' -> P a a'.
Hypothesis HP2 : forall a a', P2 a a' -> same_names a a'.
Notation sw := (swap P).
Theorem swap_query_text : forall n style h h' b b', Forall2 (swap_query P2) h h' -> sw b b' -> fst (build_query n style h b) <> RFuel ->
  exists m, fst (build_query m style h' b') = fst (build_query n style h b).
Proof.
  intros n style h h' b b' Hh Hb H. unfold build_query in *.
  assert (H0 : Q P2 (new_store style h) (new_store style h')) by (repeat split; exact Hh).
  destruct (swap_build P P2 HP Sub HP2 n [builtins] b b' _ _ Hb H0) as [K|(y & m & [E1 E2] & K)].
  - exfalso. apply H. destruct (build n [builtins] b (new_store style h)) as [o s]. cbn in K. subst o. reflexivity.
  - exists m. rewrite (K m (le_n m)). destruct (build n [builtins] b (new_store style h)) as [o s], y as [o' t]. cbn [fst snd] in E1, E2. subst o'.
    destruct E2 as (_ & E2 & _). rewrite E2. destruct o; reflexivity.
Qed.
End Text.

(* ------------------------------------------------------------------ *)
(** * The relation in both directions *)

Lemma same_sym : forall a a', same a a' -> same a' a.
Proof. intros a a' H e st r Hr. symmetry. apply H. exact Hr. Qed.
Lemma same_refl : forall a, same a a.
Proof. intros a e st r Hr. reflexivity. Qed.
Lemma same_trans : forall a b c, same a b -> same b c -> same a c.
Proof. intros a b c H K e st r Hr. rewrite (H e st r Hr). apply K. exact Hr. Qed.
Definition back (P : builder -> builder -> Prop) a b := P b a.
Lemma swap_back : forall P b b', swap P b b' -> swap (back P) b' b.
Proof.
  fix IH 4. intros P b b' H. destruct H as [a a' H|b|raw args l l' p s H|raw args l l' p s t H].
  - apply sw_pair. exact H.
  - apply sw_same.
  - apply sw_frag. induction H as [|x y l l' Hx H IHl]; constructor; [apply IH; exact Hx|exact IHl].
  - apply sw_col. induction H as [|x y l l' Hx H IHl]; constructor; [apply IH; exact Hx|exact IHl].
Qed.
Definition none (a b : builder) : Prop := False.
Lemma swap_none : forall b b', swap none b b' -> b' = b.
Proof.
  fix IH 3. intros b b' H. destruct H as [a a' []|b|raw args l l' p s H|raw args l l' p s t H]; [reflexivity|..].
  - assert (E : l' = l) by (induction H as [|x y l l' Hx H IHl]; [reflexivity|rewrite (IH x y Hx), IHl; reflexivity]). rewrite E. reflexivity.
  - assert (E : l' = l) by (induction H as [|x y l l' Hx H IHl]; [reflexivity|rewrite (IH x y Hx), IHl; reflexivity]). rewrite E. reflexivity.
Qed.
Lemma F2_eq : forall A (R : A -> A -> Prop) l l', (forall x y, R x y -> y = x) -> Forall2 R l l' -> l' = l.
Proof. intros A R l l' H K. induction K as [|x y l l' Hx K IH]; [reflexivity|]. rewrite (H x y Hx), IH. reflexivity. Qed.
Lemma sf_none : forall f f', swap_frag none f f' -> f' = f.
Proof.
  intros [raw args l p s] [raw' args' l' p' s'] (H1 & H2 & H3 & H4 & H5). cbn in *. subst. rewrite (F2_eq _ _ _ _ swap_none H3). reflexivity.
Qed.
Lemma sc_none : forall c c', swap_cte none c c' -> c' = c.
Proof. intros [] [] (H1 & H2 & H3). cbn in *. subst. rewrite (swap_none _ _ H3). reflexivity. Qed.
Lemma sq_none : forall q q', swap_query none q q' -> q' = q.
Proof.
  intros [] [] []. cbn in *. subst.
  rewrite (F2_eq _ _ _ _ sc_none sq_ctes), (sf_none _ _ sq_selects), (sf_none _ _ sq_touches), (sf_none _ _ sq_conds), (sf_none _ _ sq_groups), (F2_eq _ _ _ _ swap_none sq_unions).
  f_equal; (eapply F2_eq; [|eassumption]).
  - intros [x c] [y c'] [E H]. cbn in *. subst. rewrite (sc_none _ _ H). reflexivity.
  - intros [n f o] [n' f' o'] (E1 & E2 & E3). cbn in *. subst. destruct f as [f|], f' as [f'|]; try (destruct E3; fail); [rewrite (sf_none _ _ E3)|]; reflexivity.
  - intros [b o] [b' o'] [H E]. cbn in *. subst. rewrite (swap_none _ _ H). reflexivity.
Qed.
Lemma replace1 : forall (P : builder -> builder -> Prop) b b', (forall a a', P a a' -> same a a') -> swap P b b' -> forall e st r n, fst r <> RFuel -> build n e b st = r -> exists m, build m e b' st = r.
Proof.
  intros P b b' HP Hb e st r n Hr E.
  assert (H0 : Q none st st) by (repeat split; apply F2_refl, q_refl).
  destruct (swap_build P none HP ltac:(intros a a' []) ltac:(intros a a' []) n e b b' st st Hb H0) as [K|(y & m & [E1 E2] & K)]; [rewrite E in K; contradiction|].
  exists m. rewrite (K m (le_n m)). rewrite E in E1, E2. destruct r as [o s], y as [o' t]. cbn [fst snd] in *. subst o'. f_equal.
  destruct s, t, E2 as (G1 & G2 & G3 & G4). cbn in *. subst. f_equal. exact (F2_eq _ _ _ _ sq_none G4).
Qed.
Theorem replace : forall (P : builder -> builder -> Prop) b b', (forall a a', P a a' -> same a a') -> swap P b b' -> same b b'.
Proof.
  intros P b b' HP Hb e st r Hr. split; intros [n E]; [exact (replace1 P b b' HP Hb e st r n Hr E)|].
  refine (replace1 (back P) b' b _ (swap_back _ _ _ Hb) e st r n Hr E). intros a a' K. apply same_sym, HP, K.
Qed.
Lemma F2_back : forall A B (R : A -> B -> Prop) (R' : B -> A -> Prop) l l', (forall x y, R x y -> R' y x) -> Forall2 R l l' -> Forall2 R' l' l.
Proof. intros A B R R' l l' H K. induction K; constructor; auto. Qed.
Lemma sf_back : forall P f f', swap_frag P f f' -> swap_frag (back P) f' f.
Proof. intros P f f' (H1 & H2 & H3 & H4 & H5). repeat split; try (symmetry; assumption). eapply F2_back; [|exact H3]. apply swap_back. Qed.
Lemma sc_back : forall P c c', swap_cte P c c' -> swap_cte (back P) c' c.
Proof. intros P c c' (H1 & H2 & H3). repeat split; try (symmetry; assumption). apply swap_back. exact H3. Qed.
Lemma sq_back : forall P q q', swap_query P q q' -> swap_query (back P) q' q.
Proof.
  intros P q q' []. constructor; try (symmetry; assumption); try (apply sf_back; assumption); (eapply F2_back; [|eassumption]).
  - apply sc_back.
  - intros x y [E H]. split; [symmetry; exact E|apply sc_back; exact H].
  - intros x y (E1 & E2 & E3). repeat split; try (symmetry; assumption). destruct (ft_frag x), (ft_frag y); try (destruct E3; fail); [apply sf_back; exact E3|exact Logic.I].
  - intros x y [H E]. split; [apply swap_back; exact H|symmetry; exact E].
  - apply swap_back.
Qed.
Theorem replace_query : forall (P : builder -> builder -> Prop) style h h' b b' r, (forall a a', P a a' -> same a a' /\ same_names a a') -> Forall2 (swap_query P) h h' -> swap P b b' -> r <> RFuel ->
  (exists n, fst (build_query n style h b) = r) <-> (exists n, fst (build_query n style h' b') = r).
Proof.
  intros P style h h' b b' r HP Hh Hb Hr. split; intros [n E].
  - destruct (swap_query_text P P (fun a a' K => proj1 (HP a a' K)) (fun a a' K => K) (fun a a' K => proj2 (HP a a' K)) n style h h' b b' Hh Hb) as [m K]; [congruence|]. exists m. congruence.
  - destruct (swap_query_text (back P) (back P) (fun a a' K => same_sym _ _ (proj1 (HP a' a K))) (fun a a' K => K) (fun a a' K ts => iff_sym (proj2 (HP a' a K) ts)) n style h' h b' b) as [m K]; [|apply swap_back; exact Hb|congruence|exists m; congruence].
    eapply F2_back; [|exact Hh]. apply sq_back.
Qed.
