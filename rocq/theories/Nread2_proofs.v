(** Proofs for Prop_nread.v: a text determines the statement of several queries. *)
From Coq Require Import Strings.String Strings.Ascii NArith ZArith List Bool Lia.
From Verif Require Import GoStr GoNum Syntax Value Util Model Sqlf Sqlb Spec_syntax Num_proofs RefSem Spec_build
  Spec_util Spec_eval Spec_query Spec_sql Spec_nest Spec_interp Sql_proofs Nest_proofs Interp_proofs Sqltok_proofs Read_proofs Read2_proofs Nread_proofs Spec_sqltok Spec_read Spec_nread.
Import ListNotations.
Open Scope string_scope.
Open Scope list_scope.

Lemma share_same : forall A A' C (args : A -> list value) (args' : A' -> list value) (f : A -> list (list token) -> C) f' (Q : (value -> value -> Prop) -> A -> A' -> Prop) l l' phs phs',
  (forall a a' p p', In a l -> In a' l' -> List.length p = List.length (args a) -> List.length p' = List.length (args' a') -> f a p = f' a' p' ->
     p = p' /\ forall R, Forall2 R (args a) (args' a') -> Q R a a') ->
  share_said args f l phs = share_said args' f' l' phs' -> List.length phs = List.length (flat_map args l) -> List.length phs' = List.length (flat_map args' l') ->
  phs = phs' /\ forall R, Forall2 R (flat_map args l) (flat_map args' l') -> Forall2 (Q R) l l'.
Proof.
  intros A A' C args args' f f' Q. induction l as [|a l IH]; intros [|a' l'] phs phs' H E L L'; cbn [share_said] in E; try discriminate.
  - destruct phs; [|discriminate]. destruct phs'; [|discriminate]. split; [reflexivity|]. intros. constructor.
  - injection E as E1 E2. cbn [flat_map] in L, L' |- *. rewrite app_length in L, L'.
    assert (K : List.length (firstn (List.length (args a)) phs) = List.length (args a)) by (apply firstn_length_le; lia).
    assert (K' : List.length (firstn (List.length (args' a')) phs') = List.length (args' a')) by (apply firstn_length_le; lia).
    destruct (H a a' _ _ (or_introl eq_refl) (or_introl eq_refl) K K' E1) as [P1 S1].
    destruct (IH l' _ _ (fun b b' p p' Hb Hb' => H b b' p p' (or_intror Hb) (or_intror Hb')) E2) as [P2 S2]; [rewrite skipn_length; lia|rewrite skipn_length; lia|].
    split; [rewrite <- (firstn_skipn (List.length (args a)) phs), <- (firstn_skipn (List.length (args' a')) phs'), P1, P2; reflexivity|].
    intros R F. apply Forall2_split in F; [|congruence]. destruct F as [F1 F2]. constructor; [apply S1; exact F1|apply S2; exact F2].
Qed.
Lemma cond_same : forall x x' p p', List.length p = List.length (cond_args x) -> List.length p' = List.length (cond_args x') -> cond_said x p = cond_said x' p' ->
  p = p' /\ forall R, Forall2 R (cond_args x) (cond_args x') -> same_cond R x x'.
Proof.
  intros x x' p p' L L' E. split; [apply (f_equal snd) in E; rewrite !cond_said_marks in E; exact E|]. intros R F.
  assert (G : Forall2 (same_cond R) [x] [x']); [|inversion G; assumption].
  apply (conds_same R [x] [x'] p p').
  - cbn [conds_said]. rewrite <- L, <- L', !firstn_all, E. reflexivity.
  - cbn [flat_map]. rewrite app_nil_r. exact L.
  - cbn [flat_map]. rewrite app_nil_r. exact L'.
  - cbn [flat_map]. rewrite !app_nil_r. exact F.
Qed.
Lemma reading_inj : forall a b c d a' b' c' d', NR a b c d = NR a' b' c' d' -> a = a' /\ b = b' /\ c = c' /\ d = d'.
Proof. intros a b c d a' b' c' d' H. inversion H. auto. Qed.
Theorem statement_same : forall B B', Forall xnamed B -> Forall xnamed B' -> forall d d' id id' phs phs', complete B d id -> complete B' d' id' ->
  List.length phs = List.length (args_of B d id) -> List.length phs' = List.length (args_of B' d' id') ->
  statement_said B d id phs = statement_said B' d' id' phs' ->
  phs = phs' /\ forall R, Forall2 R (args_of B d id) (args_of B' d' id') -> same_query R B B' id id'.
Proof.
  intros B B' HB HB'. induction d as [|d IH]; intros d' id id' phs phs' Hc Hc' L L' E; [destruct Hc|]. destruct d' as [|d']; [destruct Hc'|].
  cbn [complete args_of statement_said] in *. destruct (nth_error B id) as [x|] eqn:X; [|destruct Hc]. destruct (nth_error B' id') as [x'|] eqn:X'; [|destruct Hc'].
  assert (Nx : xnamed x) by (rewrite Forall_forall in HB; apply HB; eapply nth_error_In; exact X).
  assert (Nx' : xnamed x') by (rewrite Forall_forall in HB'; apply HB'; eapply nth_error_In; exact X').
  rewrite !app_length in L, L'.
  set (nw := List.length (flat_map (fun w => args_of B d (w_id w)) (emitted x))) in *. set (nc := List.length (flat_map (xcond_args (args_of B d)) (x_conds x))) in *.
  set (nw' := List.length (flat_map (fun w => args_of B' d' (w_id w)) (emitted x'))) in *. set (nc' := List.length (flat_map (xcond_args (args_of B' d')) (x_conds x'))) in *.
  apply reading_inj in E. destruct E as (E1 & E2 & E3 & E4).
  assert (A1 : List.length (firstn nw phs) = nw) by (apply firstn_length_le; lia). assert (A1' : List.length (firstn nw' phs') = nw') by (apply firstn_length_le; lia).
  assert (A2 : List.length (skipn nw phs) = List.length phs - nw) by apply skipn_length. assert (A2' : List.length (skipn nw' phs') = List.length phs' - nw') by apply skipn_length.
  assert (A3 : List.length (firstn nc (skipn nw phs)) = nc) by (apply firstn_length_le; lia). assert (A3' : List.length (firstn nc' (skipn nw' phs')) = nc') by (apply firstn_length_le; lia).
  destruct (share_same _ _ _ (fun w => args_of B d (w_id w)) (fun w => args_of B' d' (w_id w)) (fun w phs => (w_name w, statement_said B d (w_id w) phs)) (fun w phs => (w_name w, statement_said B' d' (w_id w) phs))
    (fun R w w' => w_name w = w_name w' /\ same_query R B B' (w_id w) (w_id w')) (emitted x) (emitted x') (firstn nw phs) (firstn nw' phs')) as [W1 W2].
  { intros w w' p p' Hw Hw' Lp Lp' G. injection G as G1 G2.
    destruct (IH d' (w_id w) (w_id w') p p') as [K1 K2]; [apply Hc, in_or_app; left; apply in_map; exact Hw|apply Hc', in_or_app; left; apply in_map; exact Hw'|exact Lp|exact Lp'|exact G2|].
    split; [exact K1|]. intros R F. split; [exact G1|apply K2; exact F]. }
  { exact E1. } { exact A1. } { exact A1'. }
  destruct (share_same _ _ _ (xcond_args (args_of B d)) (xcond_args (args_of B' d')) (xcond_said (statement_said B d)) (xcond_said (statement_said B' d'))
    (fun R => same_xcond R B B') (x_conds x) (x_conds x') (firstn nc (skipn nw phs)) (firstn nc' (skipn nw' phs'))) as [C1 C2].
  { intros c c' p p' Hi Hi' Lp Lp' G. destruct c as [c|c o i], c' as [c'|c' o' i']; cbn [xcond_said xcond_args] in *; try discriminate.
    - injection G as G. destruct (cond_same c c' p p' Lp Lp' G) as [K1 K2]. split; [exact K1|]. intros R F. constructor. apply K2. exact F.
    - injection G as G1 G2 G3. subst c'. destruct (IH d' i i' p p') as [K1 K2].
      + apply Hc, in_or_app. right. apply in_or_app. left. apply in_flat_map. exists (Sub c o i). split; [exact Hi|left; reflexivity].
      + apply Hc', in_or_app. right. apply in_or_app. left. apply in_flat_map. exists (Sub c o' i'). split; [exact Hi'|left; reflexivity].
      + exact Lp.
      + exact Lp'.
      + exact G3.
      + split; [exact K1|]. intros R F. constructor; [exact G2|apply K2; exact F]. }
  { exact E3. } { exact A3. } { exact A3'. }
  destruct (share_same _ _ _ (args_of B d) (args_of B' d') (statement_said B d) (statement_said B' d')
    (fun R => same_query R B B') (x_unions x) (x_unions x') (skipn nc (skipn nw phs)) (skipn nc' (skipn nw' phs'))) as [U1 U2].
  { intros u u' p p' Hi Hi' Lp Lp' G. apply (IH d' u u' p p'); try assumption.
    - apply Hc, in_or_app. right. apply in_or_app. right. exact Hi.
    - apply Hc', in_or_app. right. apply in_or_app. right. exact Hi'. }
  { exact E4. } { rewrite !skipn_length. lia. } { rewrite !skipn_length. lia. }
  assert (Nn : nw = nw') by congruence. assert (Nc : nc = nc') by congruence. split.
  - rewrite <- (firstn_skipn nw phs), <- (firstn_skipn nw' phs'), W1, <- (firstn_skipn nc (skipn nw phs)), <- (firstn_skipn nc' (skipn nw' phs')), C1, U1. reflexivity.
  - intros R F. apply Forall2_split in F; [|exact Nn]. destruct F as [F1 F]. apply Forall2_split in F; [|exact Nc]. destruct F as [F2 F3].
    destruct Nx as (Nm & Z & _). destruct Nx' as (Nm' & Z' & _). destruct (said_by_same unit (x_stmt x) (x_stmt x') [] [] Nm Nm' E2) as [_ K].
    apply (sq R B B' id id' x x' X X'); [apply W2; exact F1|apply K; rewrite Z, Z'; constructor|apply C2; exact F2|apply U2; exact F3].
Qed.

(** ** Built statements *)
Lemma made_unique : forall oss qs qs', made oss qs -> made oss qs' -> qs = qs'.
Proof.
  intros oss qs qs' M. revert qs'. induction M as [|os q oss qs H M IH]; intros qs' M'; inversion M' as [|? q' ? r H' M'']; subst; [reflexivity|].
  f_equal; [congruence|apply IH; exact M''].
Qed.
Theorem nread_question : forall B oss style d id, style <> style_dollar -> book oss B -> Forall xnamed B -> complete B d id -> used_once B d id ->
  exists qs, made oss qs /\ forall n, size_of B d id <= n -> exists text,
    fst (build_query n style qs (query id)) = ROk (text, args_of B d id) /\
    read_statement (tokens false text) = Some (statement_said B d id (map (fun _ => [TOp "?"]) (args_of B d id))).
Proof.
  intros B oss style d id Hs Hb Nb Hc Hu. destruct (nest_question B oss style d id Hs Hb Hc Hu) as (qs & M & H). exists qs. split; [exact M|].
  intros n Hn. eexists. split; [apply H; exact Hn|]. rewrite <- question_toks. apply read_text; [exact Nb|exact Hc|apply marks_operands, question_marks|apply map_length].
Qed.
Theorem nread_dollar : forall B oss d id, book oss B -> Forall xnamed B -> complete B d id -> used_once B d id -> forallb hashable (args_of B d id) = true ->
  exists qs phs, made oss qs /\ Forall2 (dollar_operand (firsts [] (args_of B d id))) phs (args_of B d id) /\ forall n, size_of B d id <= n -> exists text,
    fst (build_query n style_dollar qs (query id)) = ROk (text, firsts [] (args_of B d id)) /\
    read_statement (tokens false text) = Some (statement_said B d id phs).
Proof.
  intros B oss d id Hb Nb Hc Hu Hh. destruct (nest_dollar B oss d id Hb Hc Hu Hh) as (qs & phs & M & P & H). exists qs, (map (tokens false) phs). split; [exact M|].
  split; [apply dollar_operands; exact P|]. destruct (dollar_marks _ _ _ P) as [K L]. intros n Hn. eexists. split; [apply H; exact Hn|].
  apply read_text; [exact Nb|exact Hc|apply marks_operands; exact K|exact L].
Qed.
Theorem nsame_question : forall B B' oss oss' style d d' id id' n qs qs' text args, style <> style_dollar -> book oss B -> book oss' B' ->
  Forall xnamed B -> Forall xnamed B' -> complete B d id -> complete B' d' id' -> used_once B d id -> used_once B' d' id' -> made oss qs -> made oss' qs' ->
  size_of B d id <= n -> size_of B' d' id' <= n ->
  fst (build_query n style qs (query id)) = ROk (text, args) -> fst (build_query n style qs' (query id')) = ROk (text, args) -> same_query eq B B' id id'.
Proof.
  intros B B' oss oss' style d d' id id' n qs qs' text args Hs Hb Hb' Nb Nb' Hc Hc' Hu Hu' M M' Hn Hn' R R'.
  destruct (nread_question B oss style d id Hs Hb Nb Hc Hu) as (q1 & M1 & H1). destruct (nread_question B' oss' style d' id' Hs Hb' Nb' Hc' Hu') as (q2 & M2 & H2).
  rewrite (made_unique _ _ _ M1 M) in H1. rewrite (made_unique _ _ _ M2 M') in H2.
  destruct (H1 n Hn) as (t1 & B1 & X1). destruct (H2 n Hn') as (t2 & B2 & X2). rewrite R in B1. rewrite R' in B2. injection B1 as T1 A1. injection B2 as T2 A2. subst t1 t2.
  rewrite X1 in X2. injection X2 as X2.
  destruct (statement_same B B' Nb Nb' d d' id id' _ _ Hc Hc' (map_length _ _) (map_length _ _) X2) as [_ K]. apply K. rewrite <- A1, <- A2. apply Forall2_eq_refl.
Qed.
Lemma operand_lengths : forall A phs l, Forall2 (dollar_operand A) phs l -> List.length phs = List.length l.
Proof. intros A phs l F. induction F; [reflexivity|]. cbn [List.length]. lia. Qed.
Theorem nsame_dollar : forall B B' oss oss' d d' id id' n qs qs' text args, book oss B -> book oss' B' ->
  Forall xnamed B -> Forall xnamed B' -> complete B d id -> complete B' d' id' -> used_once B d id -> used_once B' d' id' -> made oss qs -> made oss' qs' ->
  forallb hashable (args_of B d id) = true -> forallb hashable (args_of B' d' id') = true -> size_of B d id <= n -> size_of B' d' id' <= n ->
  fst (build_query n style_dollar qs (query id)) = ROk (text, args) -> fst (build_query n style_dollar qs' (query id')) = ROk (text, args) -> same_query go_alike B B' id id'.
Proof.
  intros B B' oss oss' d d' id id' n qs qs' text args Hb Hb' Nb Nb' Hc Hc' Hu Hu' M M' Hh Hh' Hn Hn' R R'.
  destruct (nread_dollar B oss d id Hb Nb Hc Hu Hh) as (q1 & p1 & M1 & P1 & H1). destruct (nread_dollar B' oss' d' id' Hb' Nb' Hc' Hu' Hh') as (q2 & p2 & M2 & P2 & H2).
  rewrite (made_unique _ _ _ M1 M) in H1. rewrite (made_unique _ _ _ M2 M') in H2.
  destruct (H1 n Hn) as (t1 & B1 & X1). destruct (H2 n Hn') as (t2 & B2 & X2). rewrite R in B1. rewrite R' in B2. injection B1 as T1 A1. injection B2 as T2 A2. subst t1 t2.
  rewrite X1 in X2. injection X2 as X2.
  destruct (statement_same B B' Nb Nb' d d' id id' _ _ Hc Hc' (operand_lengths _ _ _ P1) (operand_lengths _ _ _ P2) X2) as [E K]. apply K.
  rewrite <- A1 in P1. rewrite <- A2, <- E in P2. eapply denote_alike; eassumption.
Qed.
