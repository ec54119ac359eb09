(** Built queries as templates. *)
From Coq Require Import Strings.String Strings.Ascii NArith ZArith List Bool Lia.
From Verif Require Import GoStr GoNum Syntax Value Util Model Sqlf Sqlb Spec_syntax RefSem Spec_build Spec_eval Spec_query Spec_mean Spec_util Spec_interp Spec_tidy Spec_renumber Spec_again
  Lex_proofs Grammar_proofs Text_proofs Sim_proofs Store_proofs Eval_proofs Use_proofs Build_proofs Mean_proofs Interp_proofs Tidy_proofs Renumber_proofs Order_proofs Term_proofs Lossless_proofs.
Import ListNotations.
Open Scope string_scope.

(* ------------------------------------------------------------------ *)
(** * Texts with placeholders as templates *)

Fixpoint weave (phs ss : list string) : string :=
  match phs, ss with p :: phs', s :: ss' => p ++ s ++ weave phs' ss' | _, _ => "" end.
Lemma weave_tail : forall q l, Interp_proofs.tail q l = weave (map q (map fst l)) (map snd l).
Proof. intros q. induction l as [|[j s] l IH]; [reflexivity|]. cbn [Interp_proofs.tail fold_right map fst snd weave]. fold (Interp_proofs.tail q l). rewrite IH. reflexivity. Qed.
Lemma weave_render : forall q t, render q t = fst t ++ weave (map q (placeholders t)) (map snd (snd t)).
Proof. intros q t. rewrite Interp_proofs.render_eq, weave_tail. reflexivity. Qed.

(** Parts beginning with a bind variable; [k] bind variables precede. *)
Inductive shape : Z -> list part -> list (Z * string) -> Prop :=
| sh_nil k : shape k [] []
| sh_quest k ls ps l : forallb is_inert ls = true -> shape (k + 1) ps l -> shape k (Quest :: ls ++ ps) ((k + 1, print ls)%Z :: l)
| sh_dollar k n ls ps l : forallb is_inert ls = true -> shape (k + 1) ps l -> shape k (Dollar n :: ls ++ ps) ((Z.of_N n, print ls) :: l).

Lemma denote_inert_app : forall ls ps k, forallb is_inert ls = true -> denote k (ls ++ ps) = (map (fun p => APlain (print1 p)) ls ++ denote k ps)%list.
Proof.
  induction ls as [|x ls IH]; intros ps k H; [reflexivity|]. cbn [forallb] in H. apply andb_prop in H as [H1 H2].
  cbn [app map denote]. rewrite (IH ps k H2). destruct x; try discriminate H1; reflexivity.
Qed.
Lemma index_cons_text : forall t l, flat_map bind_index (cons_text t l) = flat_map bind_index l.
Proof. intros t l. unfold cons_text. destruct l as [|[u|sty i|nm a|nm] l]; destruct t; reflexivity. Qed.
Lemma index_norm : forall l, flat_map bind_index (norm l) = flat_map bind_index l.
Proof.
  induction l as [|x l IH]; [reflexivity|]. destruct x; cbn [norm flat_map bind_index app]; rewrite <- ?IH; try reflexivity.
  apply index_cons_text.
Qed.
Lemma index_inert : forall ls, flat_map bind_index (map (fun p => APlain (print1 p)) ls) = [].
Proof. induction ls as [|x ls IH]; [reflexivity|exact IH]. Qed.
Lemma index_shape : forall k ps l, shape k ps l -> flat_map bind_index (denote k ps) = map fst l.
Proof.
  intros k ps l H. induction H as [k|k ls ps l I H IH|k n ls ps l I H IH]; [reflexivity|..];
    cbn [denote flat_map bind_index app map fst]; rewrite denote_inert_app, flat_map_app, index_inert, IH by exact I; reflexivity.
Qed.

Lemma quest_shape : forall l k, apart l ->
  exists ps x, print ps = Interp_proofs.tail qmark l /\ wf ps = true /\ (forall b, style_ok b ps = true) /\ shape k ps x /\
    map snd x = map snd l /\ map fst x = map (fun i => k + Z.of_nat i)%Z (seq 1 (List.length l)).
Proof.
  induction l as [|[j s] l IH]; intros k Ha.
  - exists [], []. repeat split. constructor.
  - destruct Ha as ((ls & I & W & P) & St & En & Ha). destruct (IH (k + 1)%Z Ha) as (ps & x & P2 & W2 & S2 & Sh & X1 & X2).
    exists (Quest :: ls ++ ps)%list, ((k + 1, print ls)%Z :: x). cbn [print print1 Interp_proofs.tail fold_right fst snd style_ok].
    fold (Interp_proofs.tail qmark l). rewrite print_parts_app, P, P2. split; [reflexivity|]. split; [|split; [|split; [|split]]].
    + unfold wf. cbn [wf_at wf1 follow]. rewrite (wf_inert_app ls ps "" I W W2), print_parts_app, P, P2, append_nil_r.
      destruct (starts_q s (Interp_proofs.tail qmark l) St) as [-> _]; [|reflexivity]. intros E. apply tail_empty, En, E.
    + intros b. rewrite style_inert_app by exact I. apply S2.
    + rewrite <- P. apply sh_quest; assumption.
    + cbn [map snd]. rewrite X1. reflexivity.
    + cbn [map fst List.length seq]. rewrite X2. f_equal. rewrite <- (seq_shift _ 1), map_map. apply map_ext. intros i. lia.
Qed.
Lemma dollar_shape : forall p l k (ks : list nat), apart l -> map p (map fst l) = map (fun i => "$" ++ dec (N.of_nat i)) ks ->
  (forall i, In i ks -> 1 <= i /\ (Z.of_nat i < 9223372036854775808)%Z) ->
  exists ps x, print ps = Interp_proofs.tail p l /\ wf ps = true /\ style_ok false ps = true /\ shape k ps x /\
    map snd x = map snd l /\ map fst x = map Z.of_nat ks.
Proof.
  intros p. induction l as [|[j s] l IH]; intros k ks Ha E B.
  - destruct ks; [|discriminate E]. exists [], []. repeat split. constructor.
  - destruct ks as [|i ks]; [discriminate E|]. cbn [map fst] in E. injection E as E1 E2.
    destruct Ha as ((ls & I & W & P) & St & En & Ha). destruct (IH (k + 1)%Z ks Ha E2) as (ps & x & P2 & W2 & S2 & Sh & X1 & X2).
    { intros i' Hi. apply B. right. exact Hi. }
    destruct (B i (or_introl eq_refl)) as [B1 B2].
    exists (Dollar (N.of_nat i) :: ls ++ ps)%list, ((Z.of_N (N.of_nat i), print ls) :: x).
    cbn [print print1 Interp_proofs.tail fold_right fst snd style_ok negb andb].
    fold (Interp_proofs.tail p l). rewrite print_parts_app, P, P2, E1. split; [reflexivity|]. split; [|split; [|split; [|split]]].
    + unfold wf. cbn [wf_at wf1 follow]. rewrite (wf_inert_app ls ps "" I W W2), print_parts_app, P, P2, append_nil_r.
      destruct (starts_q s (Interp_proofs.tail p l) St) as [_ ->]; [intros E; apply tail_empty, En, E|].
      replace (1 <=? N.of_nat i)%N with true by (symmetry; apply N.leb_le; lia).
      replace (N.of_nat i <? 9223372036854775808)%N with true by (symmetry; apply N.ltb_lt; lia). reflexivity.
    + rewrite style_inert_app by exact I. exact S2.
    + rewrite <- P. apply sh_dollar; assumption.
    + cbn [map snd]. rewrite X1. reflexivity.
    + cbn [map fst]. rewrite X2. f_equal. lia.
Qed.

(* ------------------------------------------------------------------ *)
(** * Building them *)

Definition mark_all (l : list Z) (u : list bool) : list bool := fold_left (fun u i => mark (Z.to_nat (i - 1)) u) l u.
Lemma mark_all_length : forall l u, List.length (mark_all l u) = List.length u.
Proof. induction l as [|i l IH]; intros u; [reflexivity|]. cbn [mark_all fold_left]. fold (mark_all l (mark (Z.to_nat (i - 1)) u)). rewrite IH, mark_length. reflexivity. Qed.
Lemma mark_all_used : forall l u i, (forall k, In k l -> (1 <= k <= Z.of_nat (List.length u))%Z) ->
  item (mark_all l u) i true <-> item u i true \/ In i l.
Proof.
  induction l as [|k l IH]; intros u i H; [cbn; tauto|]. cbn [mark_all fold_left]. fold (mark_all l (mark (Z.to_nat (k - 1)) u)).
  rewrite IH. 2: { intros k' Hk. rewrite mark_length. apply H. right. exact Hk. }
  assert (K : (1 <= k <= Z.of_nat (List.length u))%Z) by (apply H; left; reflexivity).
  rewrite mark_used by lia. cbn [In]. assert (X : exists x, item u k x).
  { destruct (nth_error u (Z.to_nat (k - 1))) as [x|] eqn:E; [exists x; split; [lia|exact E]|]. apply nth_error_None in E. lia. }
  split; [intros [[A|[-> _]]|A]; auto|intros [A|[->|A]]; auto].
Qed.
Lemma used_flags : forall A (l : list A), map (fun _ => false) l = repeat false (List.length l).
Proof. induction l as [|x l IH]; [reflexivity|]. cbn. rewrite IH. reflexivity. Qed.
Lemma no_item_true : forall n i, ~ item (repeat false n) i true.
Proof. intros n i [_ H]. apply nth_error_In, repeat_spec in H. discriminate. Qed.
Lemma marks_all : forall l n, (forall k, In k l -> (1 <= k <= Z.of_nat n)%Z) ->
  all_used (mark_all l (repeat false n)) = true <-> forall k, 1 <= k <= n -> In (Z.of_nat k) l.
Proof.
  intros l n H. rewrite all_used_items. assert (B : forall k, In k l -> (1 <= k <= Z.of_nat (List.length (repeat false n)))%Z) by (rewrite repeat_length; exact H).
  split.
  - intros A k Hk. destruct (nth_error (mark_all l (repeat false n)) (Z.to_nat (Z.of_nat k - 1))) as [x|] eqn:E.
    + assert (I : item (mark_all l (repeat false n)) (Z.of_nat k) true) by (apply (A _ x); split; [lia|exact E]).
      apply mark_all_used in I; [|exact B]. destruct I as [I|I]; [|exact I]. destruct (no_item_true _ _ I).
    + apply nth_error_None in E. rewrite mark_all_length, repeat_length in E. lia.
  - intros A i x [I1 I2]. apply mark_all_used; [exact B|]. right.
    assert (L : Z.to_nat (i - 1) < n). { rewrite <- (repeat_length false n), <- (mark_all_length l). apply nth_error_Some. congruence. }
    replace i with (Z.of_nat (Z.to_nat i)) by lia. apply A. lia.
Qed.

Section Run.
Variable rb : env -> builder -> store -> outcome string * store.
Variable rc : env -> frame -> list expr -> fstate -> outcome string * fstate.
Variable jf : nat.
Variable e : env.
Variable fc : frame.
Lemma run_inert : forall ls es S, clause rb rc jf e fc (map unstrip (map (fun p => APlain (print1 p)) ls) ++ es) S =
  andthen (ROk (print ls), S) (clause rb rc jf e fc es).
Proof.
  induction ls as [|x ls IH]; intros es S.
  - cbn [map app print andthen]. destruct (clause rb rc jf e fc es S) as [[t|er|er|] S']; reflexivity.
  - cbn [map app unstrip]. rewrite clause_cons, (andthen_ext _ _ _ (IH es)). cbn [eval_expr andthen print].
    destruct (clause rb rc jf e fc es S) as [[t|er|er|] S']; try reflexivity. rewrite append_assoc. reflexivity.
Qed.
Lemma run_shape : forall k ps l, shape k ps l -> forall us phs st' S,
  Forall2 (fun i u => nth1 (fr_args fc) i = Some u) (map fst l) us -> commit_all us (fs_st S) = (map ROk phs, st') ->
  clause rb rc jf e fc (map unstrip (denote k ps)) S =
    (ROk (weave phs (map snd l)), mkFS st' (mark_all (map fst l) (fs_ua S)) (fs_uf S)).
Proof.
  intros k ps l H.
  assert (Step : forall i sty ls ps l k us phs st' S, forallb is_inert ls = true ->
    (forall us phs st' S, Forall2 (fun i u => nth1 (fr_args fc) i = Some u) (map fst l) us -> commit_all us (fs_st S) = (map ROk phs, st') ->
      clause rb rc jf e fc (map unstrip (denote k ps)) S = (ROk (weave phs (map snd l)), mkFS st' (mark_all (map fst l) (fs_ua S)) (fs_uf S))) ->
    Forall2 (fun i u => nth1 (fr_args fc) i = Some u) (i :: map fst l) us -> commit_all us (fs_st S) = (map ROk phs, st') ->
    clause rb rc jf e fc (map unstrip (ABind sty i :: denote k (ls ++ ps))) S =
      (ROk (weave phs (print ls :: map snd l)), mkFS st' (mark_all (i :: map fst l) (fs_ua S)) (fs_uf S))).
  { clear. intros i sty ls ps l k us phs st' S I IH F C. inversion F as [|x0 u l0 us' Hu F']; subst x0 l0 us.
    cbn [commit_all] in C. destruct (commit u (fs_st S)) as [r st1] eqn:E1. destruct (commit_all us' st1) as [rs st2] eqn:E2.
    destruct phs as [|ph phs]; [discriminate C|]. cbn [map] in C. injection C as -> -> ->.
    cbn [map unstrip]. rewrite clause_cons. cbn [eval_expr]. rewrite Hu. unfold func_arg. rewrite Hu, E1. cbn [andthen].
    rewrite denote_inert_app, map_app, run_inert by exact I. cbn [andthen].
    rewrite (IH us' phs st' (mkFS st1 (mark (Z.to_nat (i - 1)) (fs_ua S)) (fs_uf S)) F' E2). cbn [fs_st fs_ua fs_uf weave mark_all fold_left]. reflexivity. }
  induction H as [k|k ls ps l I H IH|k n ls ps l I H IH]; intros us phs st' S F C.
  - inversion F; subst. cbn [commit_all] in C. destruct phs; [|discriminate C]. injection C as <-. destruct S. reflexivity.
  - cbn [map fst snd denote] in *. eapply Step; eassumption.
  - cbn [map fst snd denote] in *. eapply Step; eassumption.
Qed.
End Run.

(** The template [print (ls ++ ps)] with arguments. *)
Lemma build_template : forall ls ps x args us phs st st' n e, forallb is_inert ls = true -> wf (ls ++ ps) = true -> style_ok false (ls ++ ps) = true ->
  shape 0 ps x -> Forall2 (fun i u => nth1 args i = Some u) (map fst x) us -> commit_all us st = (map ROk phs, st') ->
  numbers (print (ls ++ ps)) = map fst x /\
  (mentions_all (print (ls ++ ps)) args ->
    build (S (S n)) e (BFrag (Fa (print (ls ++ ps)) args)) st = (ROk (trim_space (print ls ++ weave phs (map snd x))), st')) /\
  (~ mentions_all (print (ls ++ ps)) args -> exists er, build (S (S n)) e (BFrag (Fa (print (ls ++ ps)) args)) st = (RErr er, st')).
Proof.
  intros ls ps x args us phs st st' n e I W St Sh F C.
  assert (Nu : numbers (print (ls ++ ps)) = map fst x).
  { unfold numbers. rewrite (parsed_roundtrip _ W St), index_norm, denote_inert_app, flat_map_app, index_inert by exact I. apply index_shape. exact Sh. }
  split; [exact Nu|].
  assert (B : forall k, In k (map fst x) -> (1 <= k <= Z.of_nat (List.length args))%Z).
  { intros k Hk. apply In_nth_error in Hk as [i Hi]. clear -F Hi. revert i Hi. induction F as [|a u l us Hu F IH]; intros [|i] Hi; try discriminate.
    - cbn in Hi. injection Hi as <-. unfold nth1 in Hu. destruct ((1 <=? a)%Z && (a <=? Z.of_nat (List.length args))%Z) eqn:K; [|discriminate].
      apply andb_prop in K as [K1 K2]. apply Z.leb_le in K1, K2. lia.
    - eapply IH. exact Hi. }
  cbn [build]. rewrite (build_parsed _ _ _ (Fa (print (ls ++ ps)) args) _ _ (parsed_roundtrip _ W St)). cbn [Fa f_args f_frags map f_prefix f_suffix].
  rewrite clause_n_S, clause_norm, denote_inert_app, map_app, run_inert by exact I. cbn [andthen].
  rewrite (run_shape _ _ _ e (mkFrame args []) 0%Z ps x Sh us phs st' (mkFS st (map (fun _ => false) args) []) F C). cbn [fs_st fs_ua fs_uf].
  rewrite used_flags. unfold mentions_all. rewrite Nu, <- (marks_all _ _ B). destruct (all_used (mark_all (map fst x) (repeat false (List.length args)))); cbn [all_used forallb andb].
  - split; [|intros K; destruct (K eq_refl)]. intros _. cbn zeta.
    destruct (is_empty (trim_space (print ls ++ weave phs (map snd x)))) eqn:E; [apply is_empty_true in E; rewrite E; reflexivity|].
    cbn [is_empty append]. rewrite append_nil_r. reflexivity.
  - split; [discriminate|]. eauto.
Qed.

(* ------------------------------------------------------------------ *)
(** * Question marks *)

Lemma commit_questions : forall us st, st_dollar st = false ->
  commit_all us st = (map ROk (map (fun _ => "?") us), add_args st us).
Proof.
  induction us as [|u us IH]; intros st D.
  - cbn. unfold add_args. rewrite app_nil_r. destruct st; reflexivity.
  - cbn [commit_all]. unfold commit. rewrite D. rewrite IH by reflexivity. cbn [map]. unfold add_args. cbn [st_dollar st_args st_dict st_heap].
    rewrite <- app_assoc, D. reflexivity.
Qed.
Lemma nth1_seq : forall A (args : list A) k i, i < k <= List.length args -> forall x, nth_error args i = Some x -> nth1 args (0 + Z.of_nat (S i)) = Some x.
Proof.
  intros A args k i Hi x E. apply nth1_item. split; [lia|]. replace (Z.to_nat (0 + Z.of_nat (S i) - 1)) with i by lia. exact E.
Qed.
Lemma seq_items : forall A (args : list A) k, k <= List.length args ->
  Forall2 (fun i u => nth1 args i = Some u) (map (fun i => 0 + Z.of_nat i)%Z (seq 1 k)) (firstn k args).
Proof.
  intros A args k H.
  assert (G : forall a pre, List.length a >= k -> (pre ++ a)%list = args ->
    Forall2 (fun i u => nth1 args i = Some u) (map (fun i => 0 + Z.of_nat i)%Z (seq (S (List.length pre)) k)) (firstn k a)).
  { clear H. induction k as [|k IH]; intros a pre L E; [constructor|]. destruct a as [|x a]; [cbn in L; lia|]. cbn [seq map firstn]. constructor.
    - eapply (nth1_seq _ args (S (List.length pre))); [subst args; rewrite List.app_length; cbn; lia|].
      subst args. rewrite nth_error_app2, Nat.sub_diag by lia. reflexivity.
    - specialize (IH a (pre ++ [x])%list). rewrite List.app_length, Nat.add_1_r in IH. apply IH; [cbn in L; lia|].
      rewrite <- app_assoc. exact E. }
  apply (G args []); [lia|reflexivity].
Qed.
Lemma few_placeholders : forall (l : list nat) n, NoDup l -> (forall j, In j l -> j < n) -> List.length l <= n.
Proof.
  intros l n N H. rewrite <- (seq_length n 0). apply NoDup_incl_length; [exact N|]. intros j Hj. apply in_seq. specialize (H j Hj). lia.
Qed.

Theorem question_again : forall n style h b s args, style <> style_dollar -> lib all_values b = true -> forallb (lib_qb all_values) h = true ->
  tidy b -> Forall tidy_qb h -> fst (build_query n style h b) = ROk (s, args) ->
  numbers s = map Z.of_nat (seq 1 (List.length (numbers s))) /\ List.length (numbers s) <= List.length args /\
  forall m e st, st_dollar st = false ->
    (mentions_all s args -> build (S (S m)) e (BFrag (Fa s args)) st = (ROk (trim_space s), add_args st args)) /\
    (~ mentions_all s args -> exists er st', build (S (S m)) e (BFrag (Fa s args)) st = (RErr er, st')).
Proof.
  intros n style h b s args Hs Hb Hh Tb Th H. destruct (question_values n style h b s args Hs Hb Hh H) as (t & M & E & Nd & Lt & _).
  pose proof (tidy_clean _ h args Th b t M Tb) as [(ls & I & W & P) Ha].
  destruct (quest_shape (snd t) 0 Ha) as (ps & x & P2 & W2 & S2 & Sh & X1 & X2).
  assert (Wf : wf (ls ++ ps) = true) by (apply wf_inert_app; assumption).
  assert (Sty : style_ok false (ls ++ ps) = true) by (rewrite style_inert_app by exact I; apply S2).
  assert (Es : s = print (ls ++ ps)) by (rewrite print_parts_app, P, P2; exact E).
  assert (L : List.length (snd t) <= List.length args).
  { rewrite <- (map_length fst). apply few_placeholders; assumption. }
  assert (F : Forall2 (fun i u => nth1 args i = Some u) (map fst x) (firstn (List.length (snd t)) args)) by (rewrite X2; apply seq_items; exact L).
  assert (Lx : List.length (map fst x) = List.length (snd t)) by (rewrite X2, map_length, seq_length; reflexivity).
  assert (Nu : numbers s = map fst x).
  { rewrite Es. exact (proj1 (build_template ls ps x args _ _ _ _ 0 [] I Wf Sty Sh F (commit_questions _ (new_store style_question []) eq_refl))). }
  rewrite Nu, Lx. split; [rewrite X2; apply map_ext; intros; lia|]. split; [exact L|].
  intros m e st D.
  destruct (build_template ls ps x args _ _ _ _ m e I Wf Sty Sh F (commit_questions _ st D)) as (_ & B1 & B2).
  rewrite <- Es in B1, B2. split.
  - intros A. rewrite (B1 A). assert (K : List.length (snd t) = List.length args).
    { unfold mentions_all in A. rewrite Nu, X2 in A. destruct (Nat.eq_dec (List.length args) (List.length (snd t))) as [K|K]; [congruence|exfalso].
      specialize (A (List.length args)). assert (In (Z.of_nat (List.length args)) (map (fun i => 0 + Z.of_nat i)%Z (seq 1 (List.length (snd t))))) as Q by (apply A; lia).
      apply in_map_iff in Q as (i & Q1 & Q2). apply in_seq in Q2. lia. }
    rewrite K, firstn_all. rewrite X1, P. f_equal. f_equal. rewrite E, weave_render. f_equal. f_equal. f_equal.
    assert (Q : List.length args = List.length (placeholders t)) by (unfold placeholders; rewrite map_length; congruence).
    clear -Q. revert Q. generalize (placeholders t). induction args as [|a l IH]; intros [|p q] Q; try discriminate Q; [reflexivity|]. cbn [map qmark]. f_equal. apply IH. cbn in Q. congruence.
  - intros A. destruct (B2 A) as [er B3]. eauto.
Qed.

(* ------------------------------------------------------------------ *)
(** * Numbered placeholders *)

Definition distinct (args : list value) : Prop :=
  forall i j v w, i < j -> nth_error args i = Some v -> nth_error args j = Some w -> go_eq w v = false.
Lemma firsts_fresh : forall vs seen w, In w (firsts seen vs) -> forall v, In v seen -> go_eq w v = false.
Proof.
  induction vs as [|x vs IH]; intros seen w H v Hv; [contradiction|]. cbn [firsts] in H. destruct (existsb (go_eq x) seen) eqn:E.
  - eapply IH; [exact H|right; exact Hv].
  - destruct H as [->|H]; [|eapply IH; [exact H|right; exact Hv]]. destruct (go_eq w v) eqn:G; [|reflexivity].
    rewrite <- E. symmetry. apply existsb_exists. eauto.
Qed.
Lemma firsts_distinct : forall vs seen, distinct (firsts seen vs).
Proof.
  induction vs as [|x vs IH]; intros seen i j v w Hij Hi Hj; [destruct i; discriminate|]. cbn [firsts] in *.
  destruct (existsb (go_eq x) seen) eqn:E; [eapply IH; eassumption|]. destruct j as [|j]; [lia|]. destruct i as [|i]; cbn [nth_error] in Hi, Hj.
  - injection Hi as <-. eapply firsts_fresh; [eapply nth_error_In; exact Hj|left; reflexivity].
  - eapply IH; [|eassumption|eassumption]. lia.
Qed.
Lemma replay_all : forall vs st, replay st vs = snd (commit_all vs st).
Proof.
  induction vs as [|v vs IH]; intros st; [reflexivity|]. cbn [replay commit_all]. destruct (commit v st) as [r st']. cbn [snd]. rewrite IH.
  destruct (commit_all vs st') as [rs st2]. reflexivity.
Qed.
Lemma dollar_log : forall n h b s args, lib hashable b = true -> forallb (lib_qb hashable) h = true ->
  fst (build_query n style_dollar h b) = ROk (s, args) ->
  exists t log, means [builtins] h log b t /\ s = render (shown (new_store style_dollar h) log) t /\ args = firsts [] log /\ forallb hashable log = true /\
    (forall j, In j (placeholders t) -> j < List.length log) /\
    (tree hashable b = true -> List.length (placeholders t) = List.length log -> placeholders t = seq 0 (List.length log)).
Proof.
  intros n h b s args Hb Hh H. unfold build_query in H.
  destruct (build_general hashable n [builtins] b (new_store style_dollar h) eq_refl Hb Hh) as [E [G C]].
  { auto. }
  rewrite E in H. cbn [new_store st_heap] in *.
  pose proof (fun ord Ho => den_build [builtins] eq_refl hashable ord h n b (mkG [] h) Ho (fun id => rebuilt_refl _)) as D0.
  pose proof (D0 (tree hashable b) (fun K => K)) as [_ [X D]]. cbn [g_log] in *.
  set (r := gbuild n [builtins] b (mkG [] h)) in *. set (log := g_log (snd r)) in *.
  destruct (fst r) as [t|er|er|]; cbn [omap fst okT] in *; try discriminate.
  cbn [set_heap st_args] in H. exists t, log. destruct D as [D1 D2].
  split; [apply D2; apply ext_refl|]. split; [congruence|]. split; [|split; [exact G|split; [exact C|]]].
  - assert (Ea : args = st_args (replay (new_store style_dollar h) log)) by congruence. rewrite Ea, replay_all.
    apply (commits_dedup h log 0 0 VNil VNil (ROk "") (ROk "") G).
  - intros Ht Hl. destruct (D1 Ht) as [W1 W2]. cbn [List.length] in *. rewrite <- Hl. apply increasing_seq; [exact W1|]. cbn [plus]. rewrite Hl. exact W2.
Qed.
(** The numbers of the placeholders. *)
Lemma dollar_numbers : forall p args (js : list nat), (forall j, In j js -> exists k, p j = "$" ++ dec (N.of_nat k) /\ 1 <= k <= List.length args) ->
  exists ks, map p js = map (fun i => "$" ++ dec (N.of_nat i)) ks /\ (forall k, In k ks -> 1 <= k <= List.length (args : list value)).
Proof.
  intros p args. induction js as [|j js IH]; intros H.
  - exists []. split; [reflexivity|]. intros k [].
  - destruct (H j (or_introl eq_refl)) as (k & E & K). destruct IH as (ks & E2 & K2). { intros i Hi. apply H. right. exact Hi. }
    exists (k :: ks). cbn [map]. rewrite E, E2. split; [reflexivity|]. intros i [<-|Hi]; auto.
Qed.
Lemma dollar_values_of : forall (args : list value) ks, (forall k, In k ks -> 1 <= k <= List.length args) ->
  exists us, Forall2 (fun k u => nth_error args (k - 1) = Some u) ks us.
Proof.
  intros args. induction ks as [|k ks IH]; intros H; [exists []; constructor|]. destruct IH as [us F]. { intros i Hi. apply H. right. exact Hi. }
  destruct (nth_error args (k - 1)) as [u|] eqn:E.
  - exists (u :: us). constructor; assumption.
  - apply nth_error_None in E. specialize (H k (or_introl eq_refl)). lia.
Qed.
Lemma dollar_template : forall t p ks args us phs st st' n e, clean_text t -> (Z.of_nat (List.length args) < 9223372036854775808)%Z ->
  map p (placeholders t) = map (fun i => "$" ++ dec (N.of_nat i)) ks -> (forall k, In k ks -> 1 <= k <= List.length args) ->
  Forall2 (fun k u => nth_error args (k - 1) = Some u) ks us -> commit_all us st = (map ROk phs, st') ->
  numbers (render p t) = map Z.of_nat ks /\
  (mentions_all (render p t) args ->
    build (S (S n)) e (BFrag (Fa (render p t) args)) st = (ROk (trim_space (fst t ++ weave phs (map snd (snd t)))), st')) /\
  (~ mentions_all (render p t) args -> exists er, build (S (S n)) e (BFrag (Fa (render p t) args)) st = (RErr er, st')).
Proof.
  intros t p ks args us phs st st' n e [(ls & I & W & P) Ha] Hb Ek Hk F C.
  destruct (dollar_shape p (snd t) 0 ks Ha Ek) as (ps & x & P2 & W2 & S2 & Sh & X1 & X2).
  { intros i Hi. specialize (Hk i Hi). lia. }
  assert (Wf : wf (ls ++ ps) = true) by (apply wf_inert_app; assumption).
  assert (Sty : style_ok false (ls ++ ps) = true) by (rewrite style_inert_app by exact I; apply S2).
  assert (Es : render p t = print (ls ++ ps)) by (rewrite print_parts_app, P, P2; reflexivity).
  assert (F' : Forall2 (fun i u => nth1 args i = Some u) (map fst x) us).
  { rewrite X2. clear -F Hk. induction F as [|k u ks us Hu F IH]; [constructor|]. cbn [map]. constructor.
    - apply nth1_item. specialize (Hk k (or_introl eq_refl)). split; [lia|]. replace (Z.to_nat (Z.of_nat k - 1)) with (k - 1) by lia. exact Hu.
    - apply IH. intros i Hi. apply Hk. right. exact Hi. }
  rewrite Es, <- X1, <- X2, <- P. exact (build_template ls ps x args us phs st st' n e I Wf Sty Sh F' C).
Qed.

(** Committing distinct values in order. *)
Section Distinct.
Variable args : list value.
Variable h : list qb.
Hypothesis Hd : distinct args.
Hypothesis Hr : forall v, In v args -> reflexive v.
Hypothesis Hh : forallb hashable args = true.
Definition upto (m : nat) : store := mkStore true (firstn m args) (rev (combine (firstn m args) (seq 1 m))) h.
Lemma firstn_step : forall m a, nth_error args m = Some a -> firstn (S m) args = (firstn m args ++ [a])%list.
Proof. clear. intros m. revert args. induction m as [|m IH]; intros [|x l] a E; try discriminate E; cbn in *; [congruence|]. rewrite <- (IH l a E). reflexivity. Qed.
Lemma combine_snoc : forall A B (l : list A) (r : list B) a b, List.length l = List.length r -> combine (l ++ [a]) (r ++ [b]) = (combine l r ++ [(a, b)])%list.
Proof. clear. intros A B. induction l as [|x l IH]; intros [|y r] a b L; try discriminate L; [reflexivity|]. cbn. rewrite IH by (cbn in L; congruence). reflexivity. Qed.
Lemma upto_step : forall m a, nth_error args m = Some a -> upto (S m) = mkStore true (st_args (upto m) ++ [a])%list ((a, S m) :: st_dict (upto m)) h.
Proof.
  intros m a E. assert (L : m < List.length args) by (apply nth_error_Some; congruence).
  unfold upto. cbn [st_args st_dict]. rewrite (firstn_step m a E). rewrite seq_S, combine_snoc.
  - rewrite rev_app_distr. reflexivity.
  - rewrite firstn_length, seq_length. lia.
Qed.
Lemma find_upto : forall m i v, m <= List.length args -> nth_error args i = Some v -> dict_find v (st_dict (upto m)) = if (i <? m)%nat then Some (S i) else None.
Proof.
  induction m as [|m IH]; intros i v Hm Ei; [reflexivity|].
  destruct (nth_error args m) as [a|] eqn:E; [|apply nth_error_None in E; lia].
  rewrite (upto_step m a E). cbn [st_dict]. rewrite dict_find_cons. destruct (Nat.lt_trichotomy i m) as [K|[K|K]].
  - assert (go_eq v a = false) as ->. { rewrite go_eq_sym. eapply Hd; eassumption. }
    rewrite (IH i v) by (lia || assumption). replace (i <? m)%nat with true by (symmetry; apply Nat.ltb_lt; lia). replace (i <? S m)%nat with true by (symmetry; apply Nat.ltb_lt; lia). reflexivity.
  - subst i. assert (v = a) by congruence. subst a. rewrite (Hr v (nth_error_In _ _ Ei)). replace (m <? S m)%nat with true by (symmetry; apply Nat.ltb_lt; lia). reflexivity.
  - assert (go_eq v a = false) as ->. { eapply Hd; eassumption. }
    rewrite (IH i v) by (lia || assumption). replace (i <? m)%nat with false by (symmetry; apply Nat.ltb_ge; lia). replace (i <? S m)%nat with false by (symmetry; apply Nat.ltb_ge; lia). reflexivity.
Qed.
Lemma commit_upto : forall m i v, m <= List.length args -> nth_error args i = Some v -> i <= m ->
  commit v (upto m) = (ROk ("$" ++ dec (N.of_nat (S i))), upto (if (i <? m)%nat then m else S m)).
Proof.
  intros m i v Hm Ei Hi. unfold commit. cbn [upto st_dollar]. rewrite forallb_forall in Hh. rewrite (Hh v (nth_error_In _ _ Ei)).
  change (dict_find v (rev (combine (firstn m args) (seq 1 m)))) with (dict_find v (st_dict (upto m))). rewrite (find_upto m i v Hm Ei).
  destruct (i <? m)%nat eqn:K; [rewrite itoa_nat_dec; reflexivity|]. apply Nat.ltb_ge in K. assert (i = m) by lia. subst i.
  rewrite (upto_step m v Ei). cbn [upto st_args st_heap st_dict]. rewrite firstn_length, Nat.min_l, itoa_nat_dec by exact Hm. reflexivity.
Qed.
Lemma commit_ordered : forall ks us m, m <= List.length args -> Forall2 (fun k u => nth_error args (k - 1) = Some u) ks us ->
  (forall k, In k ks -> 1 <= k) -> (forall l1 k l2, ks = (l1 ++ k :: l2)%list -> forall j, 1 <= j < k -> j <= m \/ In j l1) ->
  exists m', commit_all us (upto m) = (map ROk (map (fun i => "$" ++ dec (N.of_nat i)) ks), upto m') /\ m <= m' <= List.length args /\ forall k, In k ks -> k <= m'.
Proof.
  induction ks as [|k ks IH]; intros us m Hm F H1 O.
  - inversion F; subst. exists m. split; [reflexivity|]. split; [lia|]. intros k [].
  - inversion F as [|x0 u l0 us' Hu F']; subst x0 l0 us. pose proof (H1 k (or_introl eq_refl)) as K1.
    assert (Hi : k - 1 <= m).
    { destruct (Nat.eq_dec k 1) as [->|N]; [lia|]. destruct (O [] k ks eq_refl (k - 1)) as [A|[]]; lia. }
    assert (L : k - 1 < List.length args) by (apply nth_error_Some; congruence).
    pose proof (commit_upto m (k - 1) u Hm Hu Hi) as C. replace (S (k - 1)) with k in C by lia.
    set (m1 := if (k - 1 <? m)%nat then m else S m) in *.
    assert (M1 : m <= m1 <= List.length args /\ k <= m1 /\ m1 <= Nat.max m k).
    { unfold m1. destruct (k - 1 <? m)%nat eqn:Q; [apply Nat.ltb_lt in Q|apply Nat.ltb_ge in Q]; lia. }
    destruct (IH us' m1) as (m' & C2 & M2 & K2).
    + lia.
    + exact F'.
    + intros i Hi'. apply H1. right. exact Hi'.
    + intros l1 k' l2 E j Hj. destruct (O (k :: l1) k' l2) with (j := j) as [A|A]; [cbn; rewrite E; reflexivity|exact Hj|left; lia|].
      destruct A as [<-|A]; [left; lia|right; exact A].
    + exists m'. split; [|split].
      * cbn [commit_all]. rewrite C, C2. reflexivity.
      * lia.
      * intros i [<-|Hi']; [lia|]. apply K2. exact Hi'.
Qed.
End Distinct.

Lemma firsts_hashable : forall vs seen, forallb hashable vs = true -> forallb hashable (firsts seen vs) = true.
Proof.
  intros vs seen H. rewrite forallb_forall in *. intros w Hw. apply H. eapply firsts_in. exact Hw.
Qed.
(** What a query with numbered placeholders is. *)
Lemma dollar_form : forall n h b s args, lib hashable b = true -> forallb (lib_qb hashable) h = true -> tidy b -> Forall tidy_qb h ->
  fst (build_query n style_dollar h b) = ROk (s, args) ->
  exists t p ks us, s = render p t /\ clean_text t /\ map p (placeholders t) = map (fun i => "$" ++ dec (N.of_nat i)) ks /\
    (forall k, In k ks -> 1 <= k <= List.length args) /\ Forall2 (fun k u => nth_error args (k - 1) = Some u) ks us /\
    distinct args /\ forallb hashable args = true.
Proof.
  intros n h b s args Hb Hh Tb Th H. destruct (dollar_log n h b s args Hb Hh H) as (t & log & M & E & Ea & G & C & _).
  set (p := shown (new_store style_dollar h) log) in *.
  assert (Ra : st_args (replay (new_store style_dollar h) log) = args).
  { rewrite replay_all, Ea. apply (commits_dedup h log 0 0 VNil VNil (ROk "") (ROk "") G). }
  destruct (dollar_numbers p args (placeholders t)) as (ks & K1 & K2).
  { intros j Hj. specialize (C j Hj). apply nth_error_Some in C. destruct (nth_error log j) as [v|] eqn:N; [|congruence].
    destruct (shown_number (new_store style_dollar h) log j v (new_dollar_ok h) G N) as (k & w & A1 & A2 & _). exists k. rewrite <- Ra. auto. }
  destruct (dollar_values_of args ks K2) as [us F]. exists t, p, ks, us. split; [exact E|]. split; [eapply tidy_clean; eassumption|].
  split; [exact K1|]. split; [exact K2|]. split; [exact F|]. split; [rewrite Ea; apply firsts_distinct|rewrite Ea; apply firsts_hashable; exact G].
Qed.
Lemma in_map_nat : forall k ks, In (Z.of_nat k) (map Z.of_nat ks) -> In k ks.
Proof. intros k ks H. apply in_map_iff in H as (i & E & Hi). replace k with i by lia. exact Hi. Qed.

Theorem dollar_again : forall n h b s args, lib hashable b = true -> forallb (lib_qb hashable) h = true -> tidy b -> Forall tidy_qb h ->
  fst (build_query n style_dollar h b) = ROk (s, args) -> (Z.of_nat (List.length args) < 9223372036854775808)%Z ->
  (forall v, In v args -> reflexive v) -> mentions_all s args -> in_order (numbers s) ->
  forall m h', build_query (S (S m)) style_dollar h' (BFrag (Fa s args)) = (ROk (trim_space s, args), h').
Proof.
  intros n h b s args Hb Hh Tb Th H Hl Hr A O m h'.
  destruct (dollar_form n h b s args Hb Hh Tb Th H) as (t & p & ks & us & E & C & K1 & K2 & F & D & Hs).
  assert (Nu : numbers s = map Z.of_nat ks).
  { rewrite E. destruct (dollar_template t p ks args us (map (fun _ => "?") us) (new_store style_question []) _ 0 [] C Hl K1 K2 F (commit_questions us (new_store style_question []) eq_refl)) as [N _]. exact N. }
  destruct (commit_ordered args h' D Hr Hs ks us 0) as (m' & Q & M & Km).
  - lia.
  - exact F.
  - intros k Hk. apply K2. exact Hk.
  - intros l1 k l2 Ek j Hj. right. unfold in_order in O. rewrite Nu, Ek, map_app in O. cbn [map] in O.
    apply in_map_nat. apply (O _ _ _ eq_refl). lia.
  - change (upto args h' 0) with (new_store style_dollar h') in Q.
    destruct (dollar_template t p ks args us _ _ _ m [builtins] C Hl K1 K2 F Q) as (_ & B & _). rewrite <- E in B. specialize (B A).
    unfold build_query. rewrite B. assert (Em : m' = List.length args).
    { destruct (List.length args) as [|k] eqn:L; [lia|]. apply Nat.le_antisymm; [lia|]. apply Km. apply in_map_nat. rewrite <- Nu. apply A. lia. }
    subst m'. unfold upto. cbn [st_args st_heap]. rewrite firstn_all. rewrite <- K1. rewrite <- weave_render, <- E. reflexivity.
Qed.

(* ------------------------------------------------------------------ *)
(** * The values shown *)

Lemma tail_shape : forall ps ss, List.length ps = List.length ss -> forall k q, (forall i, nth_error ps i = nth_error (map q (seq k (List.length ss))) i) ->
  Interp_proofs.tail q (combine (seq k (List.length ss)) ss) = weave ps ss.
Proof.
  intros ps ss. revert ps. induction ss as [|s ss IH]; intros [|p ps] L k q H; try discriminate L; [reflexivity|].
  cbn [List.length seq combine Interp_proofs.tail fold_right fst snd weave]. pose proof (H 0) as H0. cbn in H0. injection H0 as ->. f_equal. f_equal.
  apply (IH ps); [cbn in L; congruence|]. intros i. exact (H (S i)).
Qed.
(** The same text with its placeholders numbered from 0. *)
Definition again (t : text) : text := (fst t, combine (seq 0 (List.length (snd t))) (map snd (snd t))).
Lemma again_placeholders : forall t, placeholders (again t) = seq 0 (List.length (snd t)).
Proof.
  intros [a l]. unfold again, placeholders. cbn [fst snd]. generalize 0. induction l as [|[j s] l IH]; intros k; [reflexivity|]. cbn. rewrite IH. reflexivity.
Qed.
Lemma map_nth_error_seq : forall (ps : list string) n, List.length ps = n -> forall i, nth_error ps i = nth_error (map (fun j => nth j ps "") (seq 0 n)) i.
Proof.
  intros ps n L i. rewrite nth_error_map. destruct (lt_dec i n) as [H|H].
  - assert (nth_error (seq 0 n) i = Some i) as ->. { rewrite (nth_error_nth' _ 0) by (rewrite seq_length; lia). rewrite seq_nth by lia. reflexivity. }
    apply nth_error_nth'. lia.
  - assert (nth_error ps i = None) as -> by (apply nth_error_None; lia).
    assert (nth_error (seq 0 n) i = None) as -> by (apply nth_error_None; rewrite seq_length; lia). reflexivity.
Qed.
Lemma again_render : forall ps t, List.length ps = List.length (snd t) -> render (fun i => nth i ps "") (again t) = fst t ++ weave ps (map snd (snd t)).
Proof.
  intros ps t L. rewrite Interp_proofs.render_eq. cbn [again fst snd]. f_equal. rewrite <- (map_length snd (snd t)). apply tail_shape.
  - rewrite map_length. exact L.
  - intros i. apply map_nth_error_seq. rewrite map_length. exact L.
Qed.
Lemma again_clean : forall t, clean_text t -> clean_text (again t).
Proof.
  intros [a l] [C1 C2]. split; [exact C1|]. cbn [again fst snd] in *. generalize 0. induction l as [|[j s] l IH]; intros k; [exact Logic.I|].
  cbn [map snd List.length seq combine apart] in *. destruct C2 as (P & St & En & C2). split; [exact P|]. split; [exact St|]. split; [|apply IH; exact C2].
  intros E. rewrite (En E). reflexivity.
Qed.
Lemma trim_left_same : forall s, String.length (trim_left s) = String.length s -> trim_left s = s.
Proof.
  intros s L. destruct (Lossless_proofs.trim_left_split s) as (w & E & _). rewrite E in L at 2. rewrite Term_proofs.length_app in L.
  destruct w as [|c w]; [cbn in E; congruence|cbn in L; lia].
Qed.
Lemma trim_right_same : forall s, String.length (trim_right s) = String.length s -> trim_right s = s.
Proof.
  intros s L. destruct (trim_right_split s) as (w & E). rewrite E in L at 2. rewrite Term_proofs.length_app in L.
  destruct w as [|c w]; [rewrite append_nil_r in E; congruence|cbn in L; lia].
Qed.
Lemma trim_right_le : forall s, String.length (trim_right s) <= String.length s.
Proof. intros s. destruct (trim_right_split s) as (w & E). rewrite E at 2. rewrite Term_proofs.length_app. lia. Qed.
Lemma tail_trim_le : forall p l, String.length (Interp_proofs.tail p (trim_last l)) <= String.length (Interp_proofs.tail p l) /\
  (String.length (Interp_proofs.tail p (trim_last l)) = String.length (Interp_proofs.tail p l) -> trim_last l = l).
Proof.
  intros p. induction l as [|[j s] l [IH1 IH2]]; [split; [auto|reflexivity]|]. destruct l as [|y l].
  - cbn [trim_last Interp_proofs.tail fold_right fst snd]. rewrite !Term_proofs.length_app. pose proof (trim_right_le s). split; [lia|].
    intros L. rewrite trim_right_same by lia. reflexivity.
  - change (trim_last ((j, s) :: y :: l)) with ((j, s) :: trim_last (y :: l)). cbn [Interp_proofs.tail fold_right fst snd] in *.
    change (fold_right (fun x r => p (fst x) ++ snd x ++ r) "" (trim_last (y :: l))) with (Interp_proofs.tail p (trim_last (y :: l))) in *.
    rewrite !Term_proofs.length_app in *. split; [lia|]. intros L. rewrite IH2 by lia. reflexivity.
Qed.
Lemma ttrim_same : forall p t, render p (ttrim t) = render p t -> ttrim t = t.
Proof.
  intros p [a l] E. unfold ttrim in *. cbn [fst snd] in *. destruct l as [|x l].
  - rewrite !Interp_proofs.render_eq in E. cbn in E. rewrite !append_nil_r in E. rewrite E. reflexivity.
  - rewrite !Interp_proofs.render_eq in E. cbn [fst snd] in E. apply (f_equal String.length) in E. rewrite !Term_proofs.length_app in E.
    pose proof (Eval_proofs.trim_left_length a). destruct (tail_trim_le p (x :: l)) as [T1 T2].
    rewrite trim_left_same by lia. rewrite T2 by lia. reflexivity.
Qed.
Lemma trim_last_again : forall l k, trim_last l = l -> trim_last (combine (seq k (List.length l)) (map snd l)) = combine (seq k (List.length l)) (map snd l).
Proof.
  induction l as [|[j s] l IH]; intros k E; [reflexivity|]. destruct l as [|y l].
  - cbn [trim_last List.length seq map snd combine] in *. injection E as E. rewrite E. reflexivity.
  - change (trim_last ((j, s) :: y :: l)) with ((j, s) :: trim_last (y :: l)) in E. injection E as E.
    specialize (IH (S k) E). destruct y as [j' s']. cbn [List.length seq combine map snd] in *.
    change (trim_last ((k, s) :: (S k, s') :: combine (seq (S (S k)) (List.length l)) (map snd l))) with
      ((k, s) :: trim_last ((S k, s') :: combine (seq (S (S k)) (List.length l)) (map snd l))). rewrite IH. reflexivity.
Qed.
Lemma again_trim : forall t, ttrim t = t -> ttrim (again t) = again t.
Proof.
  intros [a l] E. unfold ttrim in *. cbn [again fst snd] in *. destruct l as [|[j s] l].
  - cbn [List.length seq map combine]. injection E as E. rewrite E. reflexivity.
  - injection E as E1 E2. pose proof (trim_last_again ((j, s) :: l) 0 E2) as T.
    cbn [List.length seq map snd combine] in *. rewrite E1. unfold again. cbn [fst snd List.length seq map combine]. f_equal. exact T.
Qed.
Lemma commit_shown : forall us st, dollar_ok st -> forallb hashable us = true ->
  commit_all us st = (map ROk (map (shown st us) (seq 0 (List.length us))), replay st us).
Proof.
  induction us as [|u us IH]; intros st D Hh; [reflexivity|]. cbn [forallb] in Hh. apply andb_prop in Hh as [H1 H2].
  pose proof (commit_dollar_ok u st D) as D'. cbn [commit_all]. pose proof (IH _ D' H2) as R.
  assert (C : exists s, commit u st = (ROk s, snd (commit u st))).
  { destruct D as [D _]. unfold commit. rewrite D, H1. destruct (dict_find u (st_dict st)); cbn [snd]; eauto. }
  destruct C as [s C]. rewrite C. rewrite R. cbn [List.length seq map replay]. f_equal. f_equal.
  - unfold shown at 1. cbn [nth_error firstn replay]. rewrite C. reflexivity.
  - rewrite <- seq_shift, !map_map. apply map_ext. intros i. unfold shown. cbn [nth_error firstn replay]. reflexivity.
Qed.
Lemma distinct_same : forall args v w, distinct args -> In v args -> In w args -> go_eq v w = true -> v = w.
Proof.
  intros args v w D Hv Hw E. apply In_nth_error in Hv as [i Hi]. apply In_nth_error in Hw as [j Hj].
  destruct (Nat.lt_trichotomy i j) as [L|[->|L]]; [|congruence|].
  - rewrite go_eq_sym, (D i j v w L Hi Hj) in E. discriminate.
  - rewrite (D j i w v L Hj Hi) in E. discriminate.
Qed.
Lemma f2_each : forall A B (R : A -> B -> Prop) l l' i x, Forall2 R l l' -> nth_error l i = Some x -> exists y, nth_error l' i = Some y /\ R x y.
Proof.
  intros A B R l l' i x F. revert i. induction F as [|a b l l' H F IH]; intros [|i] E; try discriminate E; cbn in *; [injection E as <-; eauto|apply IH; exact E].
Qed.
Lemma choose_literals : forall ft args, Forall (fun v => exists x, literal ft v x) args -> exists lits, Forall2 (literal ft) args lits.
Proof. intros ft args H. induction H as [|v l [x Hx] H [lits IH]]; [exists []; constructor|exists (x :: lits); constructor; assumption]. Qed.

Theorem dollar_shown_again : forall n h b s args, lib hashable b = true -> forallb (lib_qb hashable) h = true -> tidy b -> Forall tidy_qb h ->
  fst (build_query n style_dollar h b) = ROk (s, args) -> (Z.of_nat (List.length args) < 9223372036854775808)%Z ->
  (Z.of_nat (List.length (numbers s)) < 9223372036854775808)%Z -> trim_space s = s ->
  (mentions_all s args -> exists s' args', (forall m h', build_query (S (S m)) style_dollar h' (BFrag (Fa s args)) = (ROk (s', args'), h')) /\
    incl args' args /\
    forall ft, Forall (fun v => exists x, literal ft v x) args -> exists x, interpolate ft s args = ROk x /\ interpolate ft s' args' = ROk x) /\
  (~ mentions_all s args -> forall m h', exists er, build_query (S (S m)) style_dollar h' (BFrag (Fa s args)) = (RErr er, h')).
Proof.
  intros n h b s args Hb Hh Tb Th H Hl Hn Ht.
  destruct (dollar_form n h b s args Hb Hh Tb Th H) as (t & p & ks & us & E & C & K1 & K2 & F & D & Hs).
  assert (Iu : incl us args).
  { intros u Hu. clear -F Hu. induction F as [|k v ks us Hv F IH]; [contradiction|]. destruct Hu as [<-|Hu]; [eapply nth_error_In; exact Hv|apply IH; exact Hu]. }
  assert (Hus : forallb hashable us = true). { rewrite forallb_forall in *. intros u Hu. apply Hs, Iu, Hu. }
  assert (Lu : List.length us = List.length (snd t)).
  { rewrite <- (f2_len _ _ _ F). rewrite <- (map_length (fun i => "$" ++ dec (N.of_nat i)) ks), <- K1. unfold placeholders. rewrite !map_length. reflexivity. }
  assert (Lk : List.length ks = List.length (snd t)) by (rewrite <- Lu; eapply f2_len; exact F).
  assert (Cm : forall h', commit_all us (new_store style_dollar h') = (map ROk (map (shown (new_store style_dollar h') us) (seq 0 (List.length us))), replay (new_store style_dollar h') us)).
  { intros h'. apply commit_shown; [apply new_dollar_ok|exact Hus]. }
  assert (Ra : forall h', st_args (replay (new_store style_dollar h') us) = firsts [] us).
  { intros h'. rewrite replay_all. apply (commits_dedup h' us 0 0 VNil VNil (ROk "") (ROk "") Hus). }
  assert (Rh : forall us h', st_heap (replay (new_store style_dollar h') us) = h').
  { clear. intros us h'. assert (G : forall us st, st_heap (replay st us) = st_heap st).
    { clear. induction us as [|u us IH]; intros st; [reflexivity|]. cbn [replay]. rewrite IH. unfold commit. destruct (st_dollar st); [|reflexivity].
      destruct (hashable u); [|reflexivity]. destruct (dict_find u (st_dict st)); reflexivity. }
    rewrite G. reflexivity. }
  assert (Sh : forall h', shown (new_store style_dollar h') us = shown (new_store style_dollar []) us \/ True) by (right; exact Logic.I). clear Sh.
  assert (Sh : forall h' j, shown (new_store style_dollar h') us j = shown (new_store style_dollar []) us j).
  { intros h' j. assert (G : forall l st, replay (set_heap st h') l = set_heap (replay st l) h').
    { clear. induction l as [|u l IH]; intros st; [reflexivity|]. cbn [replay]. rewrite commit_heap. cbn [snd]. apply IH. }
    unfold shown. destruct (nth_error us j) as [u|]; [|reflexivity]. change (new_store style_dollar h') with (set_heap (new_store style_dollar []) h').
    rewrite G, commit_heap. reflexivity. }
  split.
  2: { intros A m h'. destruct (dollar_template t p ks args us _ _ _ m [builtins] C Hl K1 K2 F (Cm h')) as (_ & _ & B). rewrite <- E in B.
       destruct (B A) as [er B']. exists er. unfold build_query. rewrite B', Rh. reflexivity. }
  intros A. set (phs := map (shown (new_store style_dollar []) us) (seq 0 (List.length us))).
  assert (Lp : List.length phs = List.length (snd t)) by (unfold phs; rewrite map_length, seq_length; exact Lu).
  assert (Nu : numbers s = map Z.of_nat ks).
  { rewrite E. destruct (dollar_template t p ks args us _ _ _ 0 [] C Hl K1 K2 F (Cm [])) as [N _]. exact N. }
  assert (Nw : forall i u, nth_error us i = Some u -> exists k w, nth_error phs i = Some ("$" ++ dec (N.of_nat k)) /\ 1 <= k <= List.length (firsts [] us) /\
            nth_error (firsts [] us) (k - 1) = Some w /\ w = u).
  { intros i u N. destruct (shown_number (new_store style_dollar []) us i u (new_dollar_ok []) Hus N) as (k & w & A1 & A2 & A3 & A4). rewrite Ra in A2, A3.
    exists k, w. split; [|split; [exact A2|split; [exact A3|]]].
    - unfold phs. rewrite nth_error_map. assert (nth_error (seq 0 (List.length us)) i = Some i) as ->.
      { assert (i < List.length us) by (apply nth_error_Some; congruence). rewrite (nth_error_nth' _ 0) by (rewrite seq_length; lia). rewrite seq_nth by lia. reflexivity. }
      cbn. f_equal. exact A1.
    - destruct A4 as [A4|A4]; [exact A4|]. symmetry. apply (distinct_same args u w D); [apply Iu; eapply nth_error_In; exact N| |exact A4].
      apply Iu. eapply firsts_in. eapply nth_error_In. exact A3. }
  assert (Tt : ttrim t = t).
  { apply (ttrim_same p). rewrite <- render_trim; [rewrite <- E; exact Ht|]. intros j Hj.
    apply (in_map p) in Hj. rewrite K1 in Hj. apply in_map_iff in Hj as (i & <- & _). rewrite <- itoa_nat_dec. apply vis_dollar. }
  assert (Es' : trim_space (fst t ++ weave phs (map snd (snd t))) = render (fun i => nth i phs "") (again t)).
  { rewrite <- again_render by exact Lp. rewrite render_trim; [rewrite again_trim by exact Tt; reflexivity|].
    intros j Hj. rewrite again_placeholders in Hj. apply in_seq in Hj. assert (J : j < List.length us) by lia. apply nth_error_Some in J.
    destruct (nth_error us j) as [u|] eqn:N; [|congruence]. destruct (Nw j u N) as (k & w & P1 & _). rewrite (nth_error_nth _ _ "" P1). rewrite <- itoa_nat_dec. apply vis_dollar. }
  exists (render (fun i => nth i phs "") (again t)), (firsts [] us). split; [|split].
  - intros m h'. destruct (dollar_template t p ks args us _ _ _ m [builtins] C Hl K1 K2 F (Cm h')) as (_ & B & _). rewrite <- E in B. specialize (B A).
    unfold build_query. rewrite B, Rh, Ra. rewrite (map_ext _ _ (Sh h')). fold phs. rewrite Es'. reflexivity.
  - intros w Hw. apply Iu. eapply firsts_in. exact Hw.
  - intros ft Lt. destruct (choose_literals ft args Lt) as [lits Fl].
    set (lit := fun i => nth (nth i ks 0 - 1) lits "").
    assert (Each : forall i, i < List.length (snd t) -> exists k u, nth_error ks i = Some k /\ nth_error us i = Some u /\ nth_error args (k - 1) = Some u /\ literal ft u (lit i)).
    { intros i Hi. rewrite <- Lk in Hi. apply nth_error_Some in Hi. destruct (nth_error ks i) as [k|] eqn:N; [|congruence].
      destruct (f2_each _ _ _ _ _ _ _ F N) as (u & N2 & N3). exists k, u. split; [reflexivity|]. split; [exact N2|]. split; [exact N3|].
      unfold lit. rewrite (nth_error_nth _ _ 0 N). apply (f2_nth _ _ _ _ _ "" Fl N3). }
    exists (render lit (again t)). split.
    + assert (Eo : s = render (fun i => nth i (map p (placeholders t)) "") (again t)).
      { rewrite again_render; [rewrite E; apply weave_render|]. unfold placeholders. rewrite !map_length. reflexivity. }
      rewrite Eo. apply (dollar_text ft args lit); [exact Hl|apply again_clean; exact C|]. intros j Hj. rewrite again_placeholders in Hj. apply in_seq in Hj.
      destruct (Each j ltac:(lia)) as (k & u & N1 & N2 & N3 & N4). exists k, u. split; [|split; [|split; [exact N3|exact N4]]].
      * rewrite K1. apply nth_error_nth. rewrite nth_error_map, N1. reflexivity.
      * apply K2. eapply nth_error_In. exact N1.
    + apply (dollar_text ft (firsts [] us) lit).
      * pose proof (firsts_len us []). rewrite Nu, map_length, Lk, <- Lu in Hn. lia.
      * apply again_clean. exact C.
      * intros j Hj. rewrite again_placeholders in Hj. apply in_seq in Hj. destruct (Each j ltac:(lia)) as (k & u & N1 & N2 & N3 & N4).
        destruct (Nw j u N2) as (k' & w & P1 & P2 & P3 & ->). exists k', u. split; [apply nth_error_nth; exact P1|]. split; [exact P2|]. split; [exact P3|exact N4].
Qed.

(* ------------------------------------------------------------------ *)
(** * From question marks to numbers *)

Theorem dollar_from_question : forall n h b sq aq sd ad, lib hashable b = true -> forallb (lib_qb hashable) h = true -> tree hashable b = true -> tidy b -> Forall tidy_qb h ->
  fst (build_query n style_question h b) = ROk (sq, aq) -> fst (build_query n style_dollar h b) = ROk (sd, ad) -> mentions_all sq aq ->
  forall m h', build_query (S (S m)) style_dollar h' (BFrag (Fa sq aq)) = (ROk (trim_space sd, ad), h').
Proof.
  intros n h b sq aq sd ad Hb Hh Htr Tb Th Hq Hd A m h'. unfold build_query in Hq, Hd.
  destruct (build_general hashable n [builtins] b (new_store style_dollar h) eq_refl Hb Hh) as [E [G C]]. { auto. }
  destruct (build_general hashable n [builtins] b (new_store style_question h) eq_refl Hb Hh) as [E' [_ _]]. { discriminate. }
  rewrite E in Hd. rewrite E' in Hq. cbn [new_store st_heap] in *.
  pose proof (den_build [builtins] eq_refl hashable (tree hashable b) h n b (mkG [] h) (fun K => K) (fun id => rebuilt_refl _)) as [_ [X D]]. cbn [g_log] in *.
  set (r := gbuild n [builtins] b (mkG [] h)) in *. set (log := g_log (snd r)) in *.
  destruct (fst r) as [t|er|er|]; cbn [omap fst okT] in *; try discriminate.
  cbn [set_heap st_args] in *. destruct D as [D1 D2]. destruct (D1 Htr) as [W1 W2]. cbn [List.length] in *.
  destruct (replay_question log (new_store style_question h) eq_refl) as [Q _]. cbn [new_store st_args app] in Q. rewrite Q in Hq.
  assert (Ea : aq = log) by congruence. assert (Es : sq = render qmark t).
  { rewrite <- (render_question (new_store style_question h) log t eq_refl C). cbn [new_store] in *. congruence. }
  assert (Sd : sd = render (shown (new_store style_dollar h) log) t) by (cbn [new_store]; congruence).
  assert (Ad : ad = firsts [] log).
  { assert (Ed : ad = st_args (replay (new_store style_dollar h) log)) by (cbn [new_store]; congruence). rewrite Ed, replay_all.
    apply (commits_dedup h log 0 0 VNil VNil (ROk "") (ROk "") G). }
  clear Hq Hd E E'. subst aq sd ad. assert (Cl : clean_text t) by (eapply tidy_clean; [exact Th|apply D2; apply ext_refl|exact Tb]).
  destruct Cl as [(ls & I & W & P) Ha]. destruct (quest_shape (snd t) 0 Ha) as (ps & x & P2 & Wp & S2 & Sh & X1 & X2).
  assert (Wf : wf (ls ++ ps) = true) by (apply wf_inert_app; assumption).
  assert (Sty : style_ok false (ls ++ ps) = true) by (rewrite style_inert_app by exact I; apply S2).
  assert (Ep : sq = print (ls ++ ps)) by (rewrite print_parts_app, P, P2; exact Es).
  assert (Lt : List.length (snd t) <= List.length log).
  { rewrite <- (map_length fst). apply few_placeholders; [|intros j Hj; rewrite Forall_forall in W2; specialize (W2 j Hj); cbn in W2; lia].
    clear -W1. unfold placeholders in W1. revert W1. generalize 0. induction (map fst (snd t)) as [|j l IH]; intros k W; [constructor|].
    cbn [increasing] in W. destruct W as [W W']. constructor; [|eapply IH; exact W']. intros K.
    assert (B : forall l k, increasing k l -> forall i, In i l -> k <= i).
    { clear. induction l as [|j l IH]; intros k W i []; cbn [increasing] in W; destruct W as [W W']; [lia|]. specialize (IH _ W' i H). lia. }
    specialize (B _ _ W' j K). lia. }
  assert (F : Forall2 (fun i u => nth1 log i = Some u) (map fst x) (firstn (List.length (snd t)) log)) by (rewrite X2; apply seq_items; exact Lt).
  assert (Nu : numbers sq = map fst x).
  { rewrite Ep. exact (proj1 (build_template ls ps x log _ _ _ _ 0 [] I Wf Sty Sh F (commit_questions _ (new_store style_question []) eq_refl))). }
  assert (K : List.length (snd t) = List.length log).
  { unfold mentions_all in A. rewrite Nu, X2 in A. destruct (Nat.eq_dec (List.length log) (List.length (snd t))) as [K|K]; [congruence|exfalso].
    specialize (A (List.length log)). assert (In (Z.of_nat (List.length log)) (map (fun i => 0 + Z.of_nat i)%Z (seq 1 (List.length (snd t))))) as Q2 by (apply A; lia).
    apply in_map_iff in Q2 as (i & Q1 & Q2). apply in_seq in Q2. lia. }
  rewrite K, firstn_all in F.
  destruct (build_template ls ps x log _ _ _ _ m [builtins] I Wf Sty Sh F (commit_shown log (new_store style_dollar h') (new_dollar_ok h') G)) as (_ & B & _).
  rewrite <- Ep in B. specialize (B A). unfold build_query. rewrite B.
  assert (Pt : placeholders t = seq 0 (List.length log)).
  { assert (L : List.length (placeholders t) = List.length log) by (unfold placeholders; rewrite map_length; exact K). rewrite <- L. apply increasing_seq; [exact W1|]. cbn [plus]. rewrite L. exact W2. }
  assert (Sw : forall j, shown (new_store style_dollar h') log j = shown (new_store style_dollar h) log j).
  { intros j. assert (G0 : forall l st z, replay (set_heap st z) l = set_heap (replay st l) z).
    { clear. induction l as [|u l IH]; intros st z; [reflexivity|]. cbn [replay]. rewrite commit_heap. cbn [snd]. apply IH. }
    unfold shown. destruct (nth_error log j) as [u|]; [|reflexivity]. change (new_store style_dollar h') with (set_heap (new_store style_dollar h) h').
    rewrite G0, commit_heap. reflexivity. }
  rewrite (map_ext _ _ Sw), X1, P, <- Pt, <- weave_render.
  assert (Rh : st_heap (replay (new_store style_dollar h') log) = h').
  { assert (G0 : forall us st, st_heap (replay st us) = st_heap st).
    { clear. induction us as [|u us IH]; intros st; [reflexivity|]. cbn [replay]. rewrite IH. unfold commit. destruct (st_dollar st); [|reflexivity].
      destruct (hashable u); [|reflexivity]. destruct (dict_find u (st_dict st)); reflexivity. }
    rewrite G0. reflexivity. }
  rewrite Rh, replay_all. rewrite (proj1 (commits_dedup h' log 0 0 VNil VNil (ROk "") (ROk "") G)). reflexivity.
Qed.
