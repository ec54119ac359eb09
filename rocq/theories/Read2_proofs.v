(** Proofs for Prop_read.v: a text determines the statement. *)
From Coq Require Import Strings.String Strings.Ascii NArith ZArith List Bool Lia.
From Verif Require Import GoStr GoNum Syntax Value Util Model Sqlf Sqlb Spec_syntax Num_proofs RefSem Spec_build
  Spec_util Spec_eval Spec_query Spec_sql Spec_interp Sql_proofs Interp_proofs Sqltok_proofs Read_proofs Spec_sqltok Spec_read.
Import ListNotations.
Open Scope string_scope.
Open Scope list_scope.

Lemma order_word_inj : forall o o', (o <= 5)%N -> (o' <= 5)%N ->
  tokens false (nth (N.to_nat o) order_words "") = tokens false (nth (N.to_nat o') order_words "") -> o = o'.
Proof.
  intros o o' H H' E. assert (C : forall x, (x <= 5)%N -> In x [0; 1; 2; 3; 4; 5]%N) by (intros x Hx; cbn [In]; lia).
  apply C in H. apply C in H'. clear C. cbn [In] in H, H'.
  repeat (destruct H as [<-|H]; [repeat (destruct H' as [<-|H']; [try reflexivity; vm_compute in E; discriminate|]); destruct H'|]). destruct H.
Qed.
Lemma orders_inj : forall l l', Forall (fun o : col * N => (snd o <= 5)%N) l -> Forall (fun o : col * N => (snd o <= 5)%N) l' ->
  map fst l = map fst l' -> map (fun o => tokens false (nth (N.to_nat (snd o)) order_words "")) l = map (fun o => tokens false (nth (N.to_nat (snd o)) order_words "")) l' -> l = l'.
Proof.
  induction l as [|[c o] l IH]; intros [|[c' o'] l'] F F' E1 E2; try discriminate; [reflexivity|].
  cbn [map fst] in E1. injection E1 as -> E1. pose proof (f_equal (@hd _ []) E2) as H0. pose proof (f_equal (@tl _) E2) as H1. cbn [map hd tl snd] in H0, H1.
  inversion F as [|x l0 F0 F1]; subst. inversion F' as [|x' l0' F0' F1']; subst. cbn [snd] in F0, F0'.
  rewrite (order_word_inj o o' F0 F0' H0), (IH l' F1 F1' E1 H1). reflexivity.
Qed.
Lemma numbered_map : forall A (h : col * N -> A) m, map (fun x => h (snd x)) (numbered m) = map h (m_orders m).
Proof.
  intros A h m. unfold numbered. rewrite <- (map_map snd h). f_equal.
  generalize (m_orders m) as l. intros l. generalize 1 as i. induction l as [|x l IH]; intros i; [reflexivity|]. cbn. rewrite IH. reflexivity.
Qed.
Lemma items_cols : forall m, filter (fun x : col * string => is_empty (snd x)) (items m) = map (fun c => (c, ""%string)) (m_cols m).
Proof.
  intros m. unfold items. rewrite filter_app.
  assert (A : filter (fun x : col * string => is_empty (snd x)) (map (fun c => (c, ""%string)) (m_cols m)) = map (fun c => (c, ""%string)) (m_cols m)).
  { induction (m_cols m) as [|c l IH]; [reflexivity|]. cbn [map filter snd is_empty]. rewrite IH. reflexivity. }
  rewrite A. rewrite <- (app_nil_r (map _ (m_cols m))) at 2. f_equal. destruct (m_distinct m); [|reflexivity].
  induction (numbered m) as [|x l IH]; [reflexivity|]. cbn [map filter snd]. exact IH.
Qed.
Lemma map_pair_inj : forall (l l' : list col), map (fun c => (c, ""%string)) l = map (fun c => (c, ""%string)) l' -> l = l'.
Proof. intros l l' H. apply (f_equal (map fst)) in H. rewrite !map_map in H. cbn [fst] in H. rewrite !map_id in H. exact H. Qed.
Lemma number_inj : forall z z', number_said z = number_said z' -> Z.max 0 z = Z.max 0 z'.
Proof.
  intros z z' H. unfold number_said in H. destruct (0 <? z)%Z eqn:E, (0 <? z')%Z eqn:E'; try discriminate.
  - apply Z.ltb_lt in E. apply Z.ltb_lt in E'. injection H as H. destruct z as [|p|p]; try lia. destruct z' as [|p'|p']; try lia.
    apply (dec_inj (Npos p) (Npos p')) in H. injection H as ->. reflexivity.
  - apply Z.ltb_ge in E. apply Z.ltb_ge in E'. lia.
Qed.
Lemma cond_said_marks : forall x (phs : list (list token)), snd (cond_said x phs) = phs.
Proof. intros [c o v|c l|c l] phs; reflexivity. Qed.
Lemma conds_phs : forall cs cs' phs phs', conds_said cs phs = conds_said cs' phs' -> List.length phs = List.length (flat_map cond_args cs) ->
  List.length phs' = List.length (flat_map cond_args cs') -> phs = phs'.
Proof.
  induction cs as [|x cs IH]; intros [|x' cs'] phs phs' E L L'; cbn [conds_said] in E; try discriminate.
  - cbn in L, L'. destruct phs, phs'; try discriminate. reflexivity.
  - injection E as E1 E2. apply (f_equal snd) in E1. rewrite !cond_said_marks in E1. cbn [flat_map] in L, L'. rewrite app_length in L, L'.
    rewrite <- (firstn_skipn (List.length (cond_args x)) phs), <- (firstn_skipn (List.length (cond_args x')) phs'), E1. f_equal.
    apply (IH cs'); [exact E2|rewrite skipn_length; lia|rewrite skipn_length; lia].
Qed.
Lemma Forall2_split : forall A (R : A -> A -> Prop) a b a' b', Forall2 R (a ++ b) (a' ++ b') -> List.length a = List.length a' -> Forall2 R a a' /\ Forall2 R b b'.
Proof.
  intros A R a. induction a as [|x a IH]; intros b [|x' a'] b' F L; try discriminate; [split; [constructor|exact F]|].
  cbn [app] in F. inversion F as [|? ? ? ? F1 F2]; subst. destruct (IH b a' b' F2 ltac:(cbn in L; lia)) as [H K]. split; [constructor; assumption|exact K].
Qed.
Lemma conds_same : forall R cs cs' phs phs', conds_said cs phs = conds_said cs' phs' -> List.length phs = List.length (flat_map cond_args cs) ->
  List.length phs' = List.length (flat_map cond_args cs') -> Forall2 R (flat_map cond_args cs) (flat_map cond_args cs') -> Forall2 (same_cond R) cs cs'.
Proof.
  intros R. induction cs as [|x cs IH]; intros [|x' cs'] phs phs' E L L' F; cbn [conds_said] in E; try discriminate; [constructor|].
  injection E as E1 E2. cbn [flat_map] in L, L', F. rewrite app_length in L, L'.
  pose proof (f_equal snd E1) as E3. rewrite !cond_said_marks in E3. apply (f_equal (@List.length _)) in E3. rewrite !firstn_length_le in E3 by lia.
  destruct (Forall2_split _ R _ _ _ _ F E3) as [F1 F2]. constructor.
  - destruct x as [c o v|c l|c l], x' as [c' o' v'|c' l'|c' l']; cbn [cond_said] in E1; try discriminate; injection E1; intros; subst.
    + constructor; [assumption|]. inversion F1; assumption.
    + constructor. exact F1.
    + constructor. exact F1.
  - eapply IH; [exact E2| | |exact F2]; rewrite skipn_length; lia.
Qed.
Lemma said_by_same : forall C m m' (cs cs' : list C), named m -> named m' -> said_by m cs = said_by m' cs' ->
  cs = cs' /\ forall R, Forall2 (same_cond R) (m_conds m) (m_conds m') -> same_stmt R m m'.
Proof.
  intros C m m' cs cs' Nm Nm' E.
  assert (O : forall x, named x -> Forall (fun o : col * N => (snd o <= 5)%N) (m_orders x)).
  { intros x (_ & _ & _ & _ & _ & _ & H). rewrite Forall_forall in H |- *. intros o Ho. exact (proj2 (H o Ho)). }
  pose proof (f_equal r_distinct E) as Ed. pose proof (f_equal r_items E) as Ei. pose proof (f_equal r_main E) as Em. pose proof (f_equal r_joins E) as Ej.
  pose proof (f_equal r_conds E) as Ec. pose proof (f_equal r_groups E) as Eg. pose proof (f_equal r_orders E) as Eo.
  pose proof (f_equal r_limit E) as El. pose proof (f_equal r_offset E) as Ef. clear E.
  cbn [said_by r_distinct r_items r_main r_joins r_conds r_groups r_orders r_limit r_offset] in Ed, Ei, Em, Ej, Ec, Eg, Eo, El, Ef.
  change (items m = items m') in Ei.
  assert (Ecols : m_cols m = m_cols m') by (apply map_pair_inj; rewrite <- !items_cols, Ei; reflexivity).
  split; [exact Ec|]. intros R F.
  split; [exact Ed|]. split; [exact Ecols|]. split; [exact Em|]. split; [exact Ej|].
  split; [exact F|]. split; [exact Eg|]. split; [|split; apply number_inj; assumption].
  apply orders_inj; [apply O; exact Nm|apply O; exact Nm'| |].
  - rewrite <- !(numbered_map _ fst). unfold items in Ei. rewrite Ed, Ecols in Ei. rewrite Ed in Eo. destruct (m_distinct m').
    + apply app_inv_head in Ei. apply (f_equal (map fst)) in Ei. rewrite !map_map in Ei. exact Ei.
    + apply (f_equal (map fst)) in Eo. rewrite !map_map in Eo. exact Eo.
  - rewrite <- !(numbered_map _ (fun o => tokens false (nth (N.to_nat (snd o)) order_words ""))). apply (f_equal (map snd)) in Eo. rewrite !map_map in Eo. exact Eo.
Qed.
Theorem said_same : forall R m m' phs phs', named m -> named m' -> said m phs = said m' phs' ->
  List.length phs = List.length (m_args m) -> List.length phs' = List.length (m_args m') -> Forall2 R (m_args m) (m_args m') -> same_stmt R m m'.
Proof.
  intros R m m' phs phs' Nm Nm' E L L' F. destruct (said_by_same _ _ _ _ _ Nm Nm' E) as (Ec & K). apply K. eapply conds_same; eassumption.
Qed.
Theorem text_same : forall m m' phs phs', named m -> named m' -> Forall operand phs -> Forall operand phs' ->
  List.length phs = List.length (m_args m) -> List.length phs' = List.length (m_args m') -> sql m phs = sql m' phs' ->
  said m (map (tokens false) phs) = said m' (map (tokens false) phs').
Proof.
  intros m m' phs phs' Nm Nm' P P' L L' E. pose proof (read_stmt m phs Nm P L) as A. pose proof (read_stmt m' phs' Nm' P' L') as B. rewrite E in A. congruence.
Qed.

(** ** Built queries *)
Lemma marks_operands : forall l, Forall mark l -> Forall operand l.
Proof. intros l F. eapply Forall_impl; [|exact F]. intros s H. left. exact H. Qed.
Lemma question_marks : forall l : list value, Forall mark (map (fun _ => "?"%string) l).
Proof. induction l as [|x l IH]; [constructor|]. cbn [map]. constructor; [left; reflexivity|exact IH]. Qed.
Lemma dollar_marks : forall A phs l, Forall2 (dollar_denotes A) phs l -> Forall mark phs /\ List.length phs = List.length l.
Proof.
  intros A phs l F. induction F as [|x v phs l (k & w & -> & _) F [IH1 IH2]]; [split; [constructor|reflexivity]|].
  split; [|cbn [List.length]; lia]. constructor; [|exact IH1]. right. exists (dec (N.of_nat k)). split; [reflexivity|]. split; [apply dec_starts|apply dec_digits].
Qed.
Lemma question_toks : forall l : list value, map (tokens false) (map (fun _ => "?"%string) l) = map (fun _ => [TOp "?"]) l.
Proof. intros l. rewrite map_map. reflexivity. Qed.
Theorem stmt_read : forall m phs, named m -> Forall mark phs -> List.length phs = List.length (m_args m) ->
  read_select (tokens false (sql m phs)) = Some (said m (map (tokens false) phs)).
Proof. intros m phs Nm F L. apply read_stmt; [exact Nm|apply marks_operands; exact F|exact L]. Qed.
Theorem question_read : forall m os style, style <> style_dollar -> stmt_ok m -> named m -> describes os m ->
  exists q, apply_ops os new_qb = ROk q /\
    forall n, 5 + m_size m <= n -> exists text,
      fst (build_query n style [q] (BQuery (Some 0))) = ROk (text, m_args m) /\
      read_select (tokens false text) = Some (said m (map (fun _ => [TOp "?"]) (m_args m))).
Proof.
  intros m os style Hs Ok Nm D. destruct (query_sql_question m os style Hs Ok D) as (q & A & B). exists q. split; [exact A|].
  intros n Hn. exists (sql m (map (fun _ => "?"%string) (m_args m))). split; [apply B; exact Hn|]. rewrite <- question_toks. apply stmt_read; [exact Nm|apply question_marks|apply map_length].
Qed.
Lemma dollar_toks : forall k, tokens false ("$" ++ dec k)%string = [TOp "$"; TNum (dec k)].
Proof.
  intros k. apply lx_tokens, (lvx_app "$" (dec k) [TOp "$"] [TNum (dec k)]); [apply lv_text; reflexivity|apply lx_digits; [apply dec_starts|apply dec_digits]].
Qed.
Lemma dollar_operands : forall A phs l, Forall2 (dollar_denotes A) phs l -> Forall2 (dollar_operand A) (map (tokens false) phs) l.
Proof.
  intros A phs l F. induction F as [|x v phs l (k & w & -> & K) F IH]; [constructor|]. cbn [map]. constructor; [|exact IH]. exists k, w. split; [apply dollar_toks|exact K].
Qed.
Theorem dollar_read : forall m os, stmt_ok m -> named m -> describes os m -> forallb hashable (m_args m) = true ->
  exists q phs, apply_ops os new_qb = ROk q /\ Forall2 (dollar_operand (firsts [] (m_args m))) phs (m_args m) /\
    forall n, 5 + m_size m <= n -> exists text,
      fst (build_query n style_dollar [q] (BQuery (Some 0))) = ROk (text, firsts [] (m_args m)) /\
      read_select (tokens false text) = Some (said m phs).
Proof.
  intros m os Ok Nm D H. destruct (query_sql_dollar m os Ok D H) as (q & phs & A & P & B). exists q, (map (tokens false) phs). split; [exact A|]. split; [apply dollar_operands; exact P|].
  intros n Hn. exists (sql m phs). split; [apply B; exact Hn|]. destruct (dollar_marks _ _ _ P) as [M L]. apply stmt_read; assumption.
Qed.
Lemma Forall2_eq_refl : forall A (l : list A), Forall2 eq l l.
Proof. induction l as [|x l IH]; constructor; [reflexivity|exact IH]. Qed.
Theorem question_same : forall m m' os os' style n q q' text args, style <> style_dollar -> stmt_ok m -> stmt_ok m' -> named m -> named m' ->
  describes os m -> describes os' m' -> apply_ops os new_qb = ROk q -> apply_ops os' new_qb = ROk q' ->
  5 + m_size m <= n -> 5 + m_size m' <= n ->
  fst (build_query n style [q] (BQuery (Some 0))) = ROk (text, args) ->
  fst (build_query n style [q'] (BQuery (Some 0))) = ROk (text, args) -> same_stmt eq m m'.
Proof.
  intros m m' os os' style n q q' text args Hs Ok Ok' Nm Nm' D D' A A' Hn Hn' B B'.
  destruct (query_sql_question m os style Hs Ok D) as (q1 & A1 & B1). destruct (query_sql_question m' os' style Hs Ok' D') as (q2 & A2 & B2).
  assert (q1 = q) by congruence. assert (q2 = q') by congruence. subst q1 q2. rewrite (B1 n Hn) in B. rewrite (B2 n Hn') in B'.
  injection B as T1 R1. injection B' as T2 R2.
  apply (said_same eq m m' (map (tokens false) (map (fun _ => "?"%string) (m_args m))) (map (tokens false) (map (fun _ => "?"%string) (m_args m'))) Nm Nm'); rewrite ?map_length; try reflexivity.
  - apply text_same; try assumption; try apply marks_operands, question_marks; try apply map_length. congruence.
  - rewrite R1, R2. apply Forall2_eq_refl.
Qed.
Lemma denote_alike : forall A phs l l', Forall2 (dollar_operand A) phs l -> Forall2 (dollar_operand A) phs l' -> Forall2 go_alike l l'.
Proof.
  intros A phs l l' F. revert l'. induction F as [|x v phs l (k & w & E & K & W & S) F IH]; intros l' F'; inversion F' as [|x' v' phs' l0' (k' & w' & E' & K' & W' & S') F'']; subst; [constructor|].
  constructor; [|apply IH; assumption].
  injection E' as E'. apply dec_inj in E'. apply Nat2N.inj in E'. subst k'. exists w. split; [exact S|]. assert (w' = w) by congruence. subst w'. exact S'.
Qed.
Lemma said_operands : forall m m' phs phs', said m phs = said m' phs' -> List.length phs = List.length (m_args m) -> List.length phs' = List.length (m_args m') -> phs = phs'.
Proof. intros m m' phs phs' E L L'. apply (conds_phs (m_conds m) (m_conds m')); [exact (f_equal r_conds E)|exact L|exact L']. Qed.
Theorem dollar_same : forall m m' os os' n q q' text args, stmt_ok m -> stmt_ok m' -> named m -> named m' ->
  describes os m -> describes os' m' -> forallb hashable (m_args m) = true -> forallb hashable (m_args m') = true ->
  apply_ops os new_qb = ROk q -> apply_ops os' new_qb = ROk q' -> 5 + m_size m <= n -> 5 + m_size m' <= n ->
  fst (build_query n style_dollar [q] (BQuery (Some 0))) = ROk (text, args) ->
  fst (build_query n style_dollar [q'] (BQuery (Some 0))) = ROk (text, args) -> same_stmt go_alike m m'.
Proof.
  intros m m' os os' n q q' text args Ok Ok' Nm Nm' D D' H H' A A' Hn Hn' B B'.
  destruct (query_sql_dollar m os Ok D H) as (q1 & phs & A1 & P1 & B1). destruct (query_sql_dollar m' os' Ok' D' H') as (q2 & phs' & A2 & P2 & B2).
  assert (q1 = q) by congruence. assert (q2 = q') by congruence. subst q1 q2. rewrite (B1 n Hn) in B. rewrite (B2 n Hn') in B'.
  injection B as T1 R1. injection B' as T2 R2. destruct (dollar_marks _ _ _ P1) as [M1 L1]. destruct (dollar_marks _ _ _ P2) as [M2 L2].
  assert (E : said m (map (tokens false) phs) = said m' (map (tokens false) phs')) by (apply text_same; try assumption; try (apply marks_operands; assumption); congruence).
  assert (L3 : List.length (map (tokens false) phs) = List.length (m_args m)) by (rewrite map_length; exact L1).
  assert (L4 : List.length (map (tokens false) phs') = List.length (m_args m')) by (rewrite map_length; exact L2).
  apply dollar_operands in P1. apply dollar_operands in P2. rewrite <- (said_operands _ _ _ _ E L3 L4) in P2.
  apply (said_same go_alike m m' _ _ Nm Nm' E L3 L4). rewrite R1 in P1. rewrite R2 in P2. eapply denote_alike; eassumption.
Qed.

(** ** Interpolated queries *)
Lemma literals_ok : forall ft l lits, Forall2 (literal ft) l lits -> forallb (readable false ft) l = true ->
  Forall operand lits /\ List.length lits = List.length l /\ Forall2 (stands ft) l (map (tokens false) lits).
Proof.
  intros ft l lits F. induction F as [|v s l lits H F IH]; intros R; [repeat constructor|]. cbn [forallb] in R. apply andb_prop in R. destruct R as [R1 R2].
  destruct (IH R2) as (A & B & C). split; [constructor; [right; exists ft, v; auto|exact A]|]. split; [cbn [List.length]; lia|].
  cbn [map]. constructor; [apply (literal_reads ft v s H R1)|exact C].
Qed.
Theorem shown_read : forall ft m lits, named m -> Forall2 (literal ft) (m_args m) lits -> forallb (readable false ft) (m_args m) = true ->
  exists vs, Forall2 (stands ft) (m_args m) vs /\ read_select (tokens false (sql m lits)) = Some (said m vs).
Proof.
  intros ft m lits Nm F R. destruct (literals_ok ft _ _ F R) as (A & B & C). exists (map (tokens false) lits). split; [exact C|]. apply read_stmt; assumption.
Qed.
Theorem question_shown_read : forall ft m os style lits, style <> style_dollar -> stmt_ok m -> named m -> describes os m ->
  Forall2 (literal ft) (m_args m) lits -> forallb (readable false ft) (m_args m) = true ->
  exists q vs, apply_ops os new_qb = ROk q /\ Forall2 (stands ft) (m_args m) vs /\
    forall n, 5 + m_size m <= n -> exists s args out, fst (build_query n style [q] (BQuery (Some 0))) = ROk (s, args) /\
      interpolate ft s args = ROk out /\ read_select (tokens false out) = Some (said m vs).
Proof.
  intros ft m os style lits Hs Ok Nm D F R. destruct (shown_read ft m lits Nm F R) as (vs & V & E).
  destruct (stmt_shown_question ft m os style lits Hs Ok D F) as (q & A & B). exists q, vs. split; [exact A|]. split; [exact V|].
  intros n Hn. destruct (B n Hn) as (s & args & B1 & B2). exists s, args, (sql m lits). auto.
Qed.
Theorem dollar_shown_read : forall ft m os lits, stmt_ok m -> named m -> describes os m -> forallb hashable (m_args m) = true ->
  (Z.of_nat (List.length (m_args m)) < 9223372036854775808)%Z -> Forall2 (literal ft) (m_args m) lits -> literal_by_value ft (m_args m) ->
  forallb (readable false ft) (m_args m) = true ->
  exists q vs, apply_ops os new_qb = ROk q /\ Forall2 (stands ft) (m_args m) vs /\
    forall n, 5 + m_size m <= n -> exists s args out, fst (build_query n style_dollar [q] (BQuery (Some 0))) = ROk (s, args) /\
      interpolate ft s args = ROk out /\ read_select (tokens false out) = Some (said m vs).
Proof.
  intros ft m os lits Ok Nm D H Z F BV R. destruct (shown_read ft m lits Nm F R) as (vs & V & E).
  destruct (stmt_shown_dollar ft m os lits Ok D H Z F BV) as (q & A & B). exists q, vs. split; [exact A|]. split; [exact V|].
  intros n Hn. destruct (B n Hn) as (s & args & B1 & B2). exists s, args, (sql m lits). auto.
Qed.
Lemma stand_alike : forall ft vs l l', Forall2 (stands ft) l vs -> Forall2 (stands ft) l' vs -> Forall2 (show_alike ft) l l'.
Proof.
  intros ft. induction vs as [|x vs IH]; intros l l' F F'; inversion F as [|v ? l0 ? H F0]; inversion F' as [|v' ? l0' ? H' F0']; subst; [constructor|].
  constructor; [exists x; auto|apply IH; assumption].
Qed.
(** Texts that are read the same were written for the same statement. *)
Theorem shown_same : forall ft m m' vs vs', named m -> named m' -> said m vs = said m' vs' ->
  Forall2 (stands ft) (m_args m) vs -> Forall2 (stands ft) (m_args m') vs' -> same_stmt (show_alike ft) m m'.
Proof.
  intros ft m m' vs vs' Nm Nm' E F F'.
  assert (L : forall l us, Forall2 (stands ft) l us -> List.length us = List.length l) by (intros l us G; induction G; cbn [List.length]; lia).
  pose proof (said_operands _ _ _ _ E (L _ _ F) (L _ _ F')) as X. subst vs'. apply (said_same _ m m' vs vs Nm Nm' E (L _ _ F) (L _ _ F')). eapply stand_alike; eassumption.
Qed.
Theorem literal_same : forall ft m m' lits lits', named m -> named m' ->
  Forall2 (literal ft) (m_args m) lits -> Forall2 (literal ft) (m_args m') lits' ->
  forallb (readable false ft) (m_args m) = true -> forallb (readable false ft) (m_args m') = true ->
  sql m lits = sql m' lits' -> same_stmt (show_alike ft) m m'.
Proof.
  intros ft m m' lits lits' Nm Nm' F F' R R' E.
  destruct (shown_read ft m lits Nm F R) as (vs & V & X). destruct (shown_read ft m' lits' Nm' F' R') as (vs' & V' & X').
  eapply shown_same; try eassumption. rewrite E in X. congruence.
Qed.
Theorem interpolated_same : forall ft m m' os os' style n q q' lits lits' s args s' args' out, style <> style_dollar -> stmt_ok m -> stmt_ok m' -> named m -> named m' ->
  describes os m -> describes os' m' ->
  Forall2 (literal ft) (m_args m) lits -> Forall2 (literal ft) (m_args m') lits' ->
  forallb (readable false ft) (m_args m) = true -> forallb (readable false ft) (m_args m') = true ->
  apply_ops os new_qb = ROk q -> apply_ops os' new_qb = ROk q' -> 5 + m_size m <= n -> 5 + m_size m' <= n ->
  fst (build_query n style [q] (BQuery (Some 0))) = ROk (s, args) -> interpolate ft s args = ROk out ->
  fst (build_query n style [q'] (BQuery (Some 0))) = ROk (s', args') -> interpolate ft s' args' = ROk out -> same_stmt (show_alike ft) m m'.
Proof.
  intros ft m m' os os' style n q q' lits lits' s args s' args' out Hs Ok Ok' Nm Nm' D D' F F' R R' A A' Hn Hn' B I B' I'.
  destruct (stmt_shown_question ft m os style lits Hs Ok D F) as (q1 & A1 & B1). destruct (stmt_shown_question ft m' os' style lits' Hs Ok' D' F') as (q2 & A2 & B2).
  assert (q1 = q) by congruence. assert (q2 = q') by congruence. subst q1 q2.
  destruct (B1 n Hn) as (s1 & a1 & E1 & G1). destruct (B2 n Hn') as (s2 & a2 & E2 & G2).
  eapply literal_same; try eassumption. congruence.
Qed.
