(** Proofs about query builders that can be built. *)
From Coq Require Import Strings.String Strings.Ascii NArith ZArith List Bool Lia.
From Verif Require Import GoStr GoNum Syntax Value Util Model Sqlf Sqlb Spec_syntax Spec_base Spec_eval Spec_query Spec_blame
  Lex_proofs Grammar_proofs Eval_proofs Use_proofs Fuel_proofs Query_proofs Base_proofs Blame_proofs Num_proofs Clause_proofs Join_proofs Join2_proofs Spec_sound Ops_proofs Swap2_proofs Sound_proofs.
Import ListNotations.
Open Scope string_scope.

(* ------------------------------------------------------------------ *)
(** * Lists of fragments *)

Lemma norm_members : forall l x, In x (norm l) -> (exists t, x = APlain t) \/ In x l.
Proof.
  intros l x H. destruct x as [t|st i|nm a|nm]; [left; eauto|right..].
  - exact (proj1 (norm_in l (ABind st i) Logic.I) H).
  - exact (proj1 (norm_in l (ACall nm a) Logic.I) H).
  - exact (proj1 (norm_in l (AFunc nm) Logic.I) H).
Qed.
Section List.
Variables (h : list qb) (d : bool) (e : env).
Hypothesis He : usual e.
Lemma list_sound : forall sep p bs, sep = ", " \/ sep = " AND " -> (forall b, In b bs -> sound h d e b) -> sound h d e (BFrag (joined_by sep p bs)).
Proof.
  intros sep p bs Hs Hb. destruct He as (Hj & Hf & _).
  assert (Sh : shortest e 0 (List.length bs) [AFunc "fragment"] (List.length bs)).
  { split; [exists "fragment", FnFragment; split; [left; reflexivity|split; [exact Hf|reflexivity]]|].
    intros nm [E|[]]. injection E as <-. exists FnFragment, (List.length bs). auto. }
  assert (Av : available [] (List.length bs) 1 (Z.of_nat (List.length bs))).
  { split; [split; reflexivity|]. split; [lia|]. right. intros x []. }
  unfold joined_by. eapply sd_frag; [apply parsed_join; exact Hs|intros v []|exact Hb| | |].
  - intros x [<-|[]]. eapply fi_join; [exact Hj|intros x []|apply parsed_func; reflexivity|exact Sh|exact Av|]. intros x [<-|[]] [].
  - intros i [H1 H2]. cbn in H2. lia.
  - intros i Hi. eexists. split; [left; reflexivity|]. eapply vs_item; [exact Hj|apply parsed_func; reflexivity|exact Sh|exact Av|left; reflexivity|exact Hf|exact Hi].
Qed.
(** #f1 with text around it. *)
Lemma around_sound : forall a c b p s, plain_text a = true -> plain_text c = true -> starts is_digit c = false -> sound h d e b ->
  sound h d e (BFrag (Frag (a ++ "#f1" ++ c) [] [b] p s)).
Proof.
  intros a c b p s Ha Hc Hd Hb. destruct He as (_ & _ & Hf & _).
  assert (E : a ++ "#f1" ++ c = print [Text a; Indexed "f" 1; Text c]).
  { cbn [print print1]. rewrite append_nil_r. change (dec 1) with "1". rewrite !append_assoc. reflexivity. }
  assert (Hp : parsed (a ++ "#f1" ++ c) = Some (norm [APlain a; ACall "f" [LNum (float_of_N 1)]; APlain c])).
  { rewrite E, parsed_print; [reflexivity|]. unfold wf. cbn [wf_at wf1 follow print print1]. rewrite !append_nil_r, Ha, Hc, Hd. reflexivity. }
  eapply sd_frag; [exact Hp|intros v []|intros x [<-|[]]; exact Hb| | |].
  - intros x Hx. apply norm_members in Hx as [[t ->]|[<-|[<-|[<-|[]]]]]; try apply fi_plain. apply fi_frag; [exact Hf|exact Logic.I|split; vm_compute; discriminate].
  - intros i [H1 H2]. cbn in H2. lia.
  - intros i [H1 H2]. cbn in H2. exists (ACall "f" [LNum (float_of_N 1)]). split; [apply norm_in; [exact Logic.I|]; right; left; reflexivity|].
    apply vs_call; [exact Hf|]. replace i with 1%Z by lia. reflexivity.
Qed.
Lemma plain_sound : forall t p s, plain_text t = true -> sound h d e (BFrag (Frag t [] [] p s)).
Proof.
  intros t p s Ht. assert (Hp : parsed t = Some (norm [APlain t])).
  { assert (E : t = print [Text t]) by (cbn [print print1]; rewrite append_nil_r; reflexivity). rewrite E at 1. rewrite parsed_print; [reflexivity|].
    unfold wf. cbn [wf_at wf1 follow print print1]. rewrite Ht. reflexivity. }
  eapply sd_frag; [exact Hp|intros v []|intros b []| |intros i [H1 H2]; cbn in H2; lia..].
  intros x Hx. apply norm_members in Hx as [[u ->]|[<-|[]]]; apply fi_plain.
Qed.
End List.

(* ------------------------------------------------------------------ *)
(** * What is selected shows *)

Definition without (c : ascii) (s : string) : bool := all (fun a => negb (Ascii.eqb a c)) s.
Lemma without_app : forall c a b, without c (a ++ b) = without c a && without c b.
Proof. intros c a b. unfold without. induction a as [|x a IH]; [reflexivity|]. cbn. rewrite IH, andb_assoc. reflexivity. Qed.
Lemma blank_without : forall s, blank s -> without "," s = true /\ without "A" s = true.
Proof.
  induction 1 as [|w s Hw _ [IH1 IH2]]; [split; reflexivity|]. rewrite !without_app, IH1, IH2, !andb_true_r.
  assert (H : forall w, In w whites -> without "," w = true /\ without "A" w = true) by (apply Forall_forall; vm_compute; repeat constructor). apply H. exact Hw.
Qed.
Lemma trim_blank : forall s, trim_space s = "" -> blank s.
Proof.
  intros s H. destruct (trim_space_trimmed s) as [(a & b & E & Ha & Hb) _]. rewrite H in E. cbn in E. rewrite E. apply blank_app; assumption.
Qed.
Lemma join_shows : forall sep ss t, sep = ", " \/ sep = " AND " -> In t ss -> ~ blank t -> trim_space (str_join sep (nonempty_items ss)) <> "".
Proof.
  intros sep ss t Hs Hin Hb H. apply trim_blank in H.
  assert (Ht : In t (nonempty_items ss)).
  { unfold nonempty_items. apply filter_In. split; [exact Hin|]. destruct t; [destruct Hb; constructor|reflexivity]. }
  destruct (nonempty_items ss) as [|x [|y l]]; [destruct Ht|destruct Ht as [<-|[]]; contradiction|].
  apply blank_without in H as [H1 H2].
  assert (J : str_join sep (x :: y :: l) = x ++ sep ++ str_join sep (y :: l)) by reflexivity.
  rewrite J, !without_app in H1, H2. destruct Hs as [-> | ->].
  - cbn in H1. rewrite andb_false_r in H1. discriminate.
  - cbn in H2. rewrite andb_false_r in H2. discriminate.
Qed.
Section Show.
Variables (h : list qb) (d : bool) (e : env).
Lemma do_all_ends : forall bs st, (forall b, In b bs -> buildable h d e b) -> during h d st ->
  exists N ss st', during h d st' /\ (forall b, In b bs -> shows h d e b -> exists t, In t ss /\ ~ blank t) /\
    forall n, N <= n -> do_all (build n e) bs st = (ROk ss, st').
Proof.
  induction bs as [|b bs IH]; intros st Hb Hst; [exists 0, [], st; split; [exact Hst|]; split; [intros b []|reflexivity]|].
  destruct (Hb b (or_introl eq_refl) st Hst) as (N & o & st1 & [[t ->] K1] & E1).
  destruct (IH st1 (fun x Hx => Hb x (or_intror Hx)) K1) as (M & ss & st2 & K2 & S2 & E2).
  exists (N + M), (t :: ss), st2. split; [exact K2|]. split.
  - intros x [<-|Hx] Sx; [exists t; split; [left; reflexivity|]; exact (Sx N st t st1 Hst (E1 N N (le_n N) (le_n N)))|].
    destruct (S2 x Hx Sx) as (u & H1 & H2). exists u. split; [right; exact H1|exact H2].
  - intros n Hn. cbn [do_all]. rewrite (E1 n n) by lia. rewrite E2 by lia. reflexivity.
Qed.
Lemma list_shows : usual e -> forall sep p bs, sep = ", " \/ sep = " AND " -> (forall b, In b bs -> sound h d e b) -> (exists b, In b bs /\ shows h d e b) ->
  forall n st st', during h d st -> build n e (BFrag (joined_by sep p bs)) st <> (ROk "", st').
Proof.
  intros (Hj & Hf & _) sep p bs Hs Hb (b & Hin & Sb) n st st' Hst H.
  destruct (do_all_ends bs st (fun x Hx => sound_buildable h d e x (Hb x Hx)) Hst) as (N & ss & st2 & _ & S2 & E).
  set (m := n + N + List.length bs).
  pose proof (mono_build n (S (S (S m))) e (BFrag (joined_by sep p bs)) st ltac:(unfold m; lia)) as [F|F]; [rewrite H in F; discriminate|].
  rewrite H, (clause_text m e sep p bs st ss st2 Hj Hf Hs) in F; [|apply E; unfold m; lia|unfold m; lia].
  destruct (S2 b Hin Sb) as (t & Ht & Nt). pose proof (join_shows sep ss t Hs Ht Nt) as K.
  injection F as F _. unfold wrapped in F. destruct (trim_space _) as [|c x]; [congruence|]. cbn [is_empty] in F. destruct (is_empty p); [discriminate|].
  destruct p; discriminate.
Qed.
End Show.

(* ------------------------------------------------------------------ *)
(** * Query builders that have been built are as they were *)

Lemma valid_orders_in : forall os i j b w, In (j, b, w) (valid_orders i os) -> exists o, In (b, o) os /\ order_word o = Some w.
Proof.
  induction os as [|[c o] os IH]; intros i j b w H; [destruct H|]. cbn [valid_orders] in H.
  destruct (order_word o) as [w'|] eqn:E.
  - destruct H as [H|H]; [injection H as _ <- <-; exists o; split; [left; reflexivity|exact E]|]. destruct (IH _ _ _ _ H) as (o' & H1 & H2). exists o'. split; [right; exact H1|exact H2].
  - destruct (IH _ _ _ _ H) as (o' & H1 & H2). exists o'. split; [right; exact H1|exact H2].
Qed.
Lemma order_word_plain : forall o w, order_word o = Some w -> plain_text (" " ++ w) = true /\ plain_text w = true.
Proof.
  intros o w H. unfold order_word in H. apply nth_error_In in H. revert w H. apply Forall_forall. vm_compute. repeat constructor.
Qed.
Lemma order_alias_plain : forall i, plain_text (order_alias i) = true.
Proof.
  intros i. unfold order_alias. rewrite plain_app. rewrite (digits_plain (itoa_nat i)); [reflexivity|].
  unfold itoa_nat. destruct (Nat.to_uint i); [reflexivity|..]; apply (all_digits_uint (_ _)).
Qed.
Lemma prefix_sound : forall h d e f p, sound h d e (BFrag f) -> sound h d e (BFrag (with_prefix f p)).
Proof. intros h d e [raw args frags q s] p H. inversion H; subst. eapply sd_frag; eassumption. Qed.
Section Fit.
Variables (h : list qb) (d : bool) (e : env).
Hypothesis He : usual e.
Lemma hidden_sound : forall q, (forall b o, In (b, o) (q_orders q) -> sound h d e b) -> forall b, In b (hidden_columns q) -> sound h d e b.
Proof.
  intros q Hq b Hb. unfold hidden_columns in Hb. destruct (q_distinct q); [|destruct Hb]. apply in_map_iff in Hb as ([[i c] w] & <- & Hb).
  apply valid_orders_in in Hb as (o & H1 & H2).
  change (Ff ("#f1 AS " ++ order_alias i) [c]) with (Frag ("" ++ "#f1" ++ (" AS " ++ order_alias i)) [] [c] "" "").
  apply around_sound; [exact He|reflexivity| |reflexivity|apply (Hq c o H1)]. rewrite plain_app, order_alias_plain. reflexivity.
Qed.
Lemma items_sound : forall q, (forall b o, In (b, o) (q_orders q) -> sound h d e b) -> forall b, In b (order_items q) -> sound h d e b.
Proof.
  intros q Hq b Hb. unfold order_items in Hb. apply in_map_iff in Hb as ([[i c] w] & <- & Hb).
  apply valid_orders_in in Hb as (o & H1 & H2). apply order_word_plain in H2 as [P1 P2]. destruct (q_distinct q).
  - apply plain_sound. rewrite plain_app, order_alias_plain. exact P1.
  - change (Ff ("#f1 " ++ w) [c]) with (Frag ("" ++ "#f1" ++ (" " ++ w)) [] [c] "" "").
    apply around_sound; [exact He|reflexivity|exact P1|reflexivity|apply (Hq c o H1)].
Qed.
Lemma needed_more : forall q q', q_tdict q' = q_tdict q -> q_tobjs q' = q_tobjs q -> q_tables q' = q_tables q ->
  (forall b t, In b (clause_builders q') -> mentions b t -> exists b', In b' (clause_builders q) /\ mentions b' t) ->
  forall t, needed q' t -> needed q t.
Proof.
  intros q q' E1 E2 E3 Hc t H. induction H as [b t Hb Hm|t ft f u H IH Ht Hn Hf Hm].
  - destruct (Hc b t Hb Hm) as (b' & H1 & H2). eapply nd_clause; eassumption.
  - eapply nd_join; [exact IH| | |exact Hf|exact Hm].
    + unfold table_of in *. rewrite E1, E2 in Ht. exact Ht.
    + unfold main_of in *. rewrite E2, E3 in Hn. exact Hn.
Qed.
Lemma connected_more : forall q q', q_tdict q' = q_tdict q -> q_tobjs q' = q_tobjs q -> q_tables q' = q_tables q ->
  (forall b t, In b (clause_builders q') -> mentions b t -> exists b', In b' (clause_builders q) /\ mentions b' t) ->
  (forall b, In b (clause_builders q') -> has_nil b -> exists b', In b' (clause_builders q) /\ has_nil b') ->
  connected q -> connected q'.
Proof.
  intros q q' E1 E2 E3 Hm Hn (H1 & H2 & H3 & H4). split; [congruence|]. split.
  { intros b Hb K. destruct (Hn b Hb K) as (b' & A & B). exact (H2 b' A B). }
  split.
  - intros t Ht. destruct (H3 t (needed_more q q' E1 E2 E3 Hm t Ht)) as (ft & f & A & B). exists ft, f. split; [|exact B].
    unfold table_of in *. rewrite E1, E2. exact A.
  - rewrite E1, E2, E3. exact H4.
Qed.
Lemma connected_select : forall q, connected q -> connected (with_select q).
Proof.
  intros q. assert (X : forall (P : builder -> Prop), (P (BFrag (select_clause q)) -> P (BFrag (q_selects q))) -> forall b, In b (clause_builders (with_select q)) -> P b -> exists b', In b' (clause_builders q) /\ P b').
  { intros P HP b Hb K. destruct Hb as [<-|Hb]; [exists (BFrag (q_selects q)); split; [left; reflexivity|apply HP; exact K]|].
    exists b. split; [right; exact Hb|exact K]. }
  apply connected_more; [reflexivity..| |].
  - intros b t. apply (X (fun b => mentions b t)). unfold select_clause, prefixed. destruct (q_selects q) as [raw args frags p s]. cbn [f_raw f_args f_frags f_suffix]. intros K. inversion K; subst. eapply mn_frag; eassumption.
  - apply (X has_nil). unfold select_clause, prefixed. destruct (q_selects q) as [raw args frags p s]. cbn [f_raw f_args f_frags f_suffix]. intros K. inversion K; subst. eapply hn_in; eassumption.
Qed.
Lemma connected_orders : forall q, connected q -> connected (with_orders q).
Proof.
  intros q.
  assert (X : forall (P : builder -> Prop), (P (BFrag (more_frags (q_touches q) (hidden_columns q))) -> P (BFrag (q_touches q)) \/ exists b o, In (b, o) (q_orders q) /\ P b) ->
    forall b, In b (clause_builders (with_orders q)) -> P b -> exists b', In b' (clause_builders q) /\ P b').
  { intros P HP b Hb K. destruct Hb as [<-|[<-|Hb]]; [eexists; split; [left; reflexivity|exact K]| |exists b; split; [right; right; exact Hb|exact K]].
    destruct (HP K) as [K2|(c & o & Hc & K2)]; [exists (BFrag (q_touches q)); split; [right; left; reflexivity|exact K2]|].
    exists c. split; [|exact K2]. unfold clause_builders. apply in_or_app. right. apply in_map_iff. exists (c, o). auto. }
  assert (Y : forall b, In b (hidden_columns q) -> exists c o raw, In (c, o) (q_orders q) /\ b = BFrag (Frag raw [] [c] "" "")).
  { intros b Hb. unfold hidden_columns in Hb. destruct (q_distinct q); [|destruct Hb]. apply in_map_iff in Hb as ([[i c] w] & <- & Hb).
    apply valid_orders_in in Hb as (o & H1 & H2). exists c, o. eexists. split; [exact H1|reflexivity]. }
  apply connected_more; [reflexivity..| |].
  - intros b t. apply (X (fun b => mentions b t)). unfold more_frags. destruct (q_touches q) as [raw args frags p s]. cbn [f_raw f_args f_frags f_prefix f_suffix]. intros K. inversion K; subst; clear K.
    match goal with Hi : In _ (frags ++ _) |- _ => apply in_app_or in Hi as [Hin|Hin] end; [left; eapply mn_frag; eassumption|right]. destruct (Y _ Hin) as (c & o & r & Hc & ->).
    match goal with Hi : mentions _ _ |- _ => inversion Hi; subst end.
    match goal with Hi : In _ [c] |- _ => destruct Hi as [<-|[]] end. exists c, o. auto.
  - apply (X has_nil). unfold more_frags. destruct (q_touches q) as [raw args frags p s]. cbn [f_raw f_args f_frags f_prefix f_suffix]. intros K. inversion K; subst; clear K.
    match goal with Hi : In _ (frags ++ _) |- _ => apply in_app_or in Hi as [Hin|Hin] end; [left; eapply hn_in; eassumption|right]. destruct (Y _ Hin) as (c & o & r & Hc & ->).
    match goal with Hi : has_nil _ |- _ => inversion Hi; subst end.
    match goal with Hi : In _ [c] |- _ => destruct Hi as [<-|[]] end. exists c, o. auto.
Qed.
Lemma no_order_errors : forall q, (forall b o, In (b, o) (q_orders q) -> order_word o <> None) -> order_errors q = [].
Proof.
  intros q. unfold order_errors. induction (q_orders q) as [|[b o] os IH]; intros H; [reflexivity|]. cbn [flat_map snd].
  destruct (order_word o) eqn:E; [|destruct (H b o (or_introl eq_refl) E)]. apply IH. intros c u Hc. apply (H c u). right. exact Hc.
Qed.
Lemma fit_orders : forall q, fit h d e q -> fit h d e (with_orders q).
Proof.
  intros q (H1 & H2 & H3 & H4 & H5 & H6 & H7 & p1 & p2 & p3 & p4 & sel & hid & con & gro & E1 & E2 & E3 & E4 & Hs & Hsh).
  split; [cbn; rewrite H1, no_order_errors; [reflexivity|intros b o Hb; apply (H7 b o Hb)]|]. split; [exact H2|]. split; [apply connected_orders; exact H3|].
  split; [exact H4|]. split; [exact H5|]. split; [exact H6|]. split; [exact H7|].
  exists p1, p2, p3, p4, sel, (hid ++ hidden_columns q)%list, con, gro. split; [exact E1|]. split; [cbn; rewrite E2; reflexivity|]. split; [exact E3|]. split; [exact E4|].
  split; [|exact Hsh]. intros b Hb. rewrite <- app_assoc in Hb. rewrite !in_app_iff in Hb.
  destruct Hb as [Hb|[Hb|[Hb|Hb]]]; [| |apply (hidden_sound q); [intros c o Hc; apply (H7 c o Hc)|exact Hb]|]; apply Hs; rewrite !in_app_iff; tauto.
Qed.
Lemma fit_select : forall q, fit h d e q -> fit h d e (with_select q).
Proof.
  intros q (H1 & H2 & H3 & H4 & H5 & H6 & H7 & p1 & p2 & p3 & p4 & sel & hid & con & gro & E1 & E2 & E3 & E4 & Hs & Hsh).
  split; [exact H1|]. split; [exact H2|]. split; [apply connected_select; exact H3|].
  split; [exact H4|]. split; [exact H5|]. split; [exact H6|]. split; [exact H7|].
  exists (if q_distinct q then "SELECT DISTINCT" else "SELECT"), p2, p3, p4, sel, hid, con, gro.
  split; [cbn; unfold select_clause; rewrite E1; reflexivity|]. repeat (split; [assumption|]). assumption.
Qed.
Lemma fit_grown : forall q q', grown q q' -> fit h d e q -> fit h d e q'.
Proof. intros q q' G H. induction G as [|q' G IH|q' G IH]; [exact H|apply fit_orders; exact IH|apply fit_select; exact IH]. Qed.
Lemma fit_whole : forall q, fit h d e q -> whole h d e q.
Proof.
  intros q (H1 & H2 & H3 & H4 & H5 & H6 & H7 & p1 & p2 & p3 & p4 & sel & hid & con & gro & E1 & E2 & E3 & E4 & Hs & Hsh).
  assert (Ho : forall b o, In (b, o) (q_orders q) -> sound h d e b) by (intros b o Hb; apply (H7 b o Hb)).
  apply wh_query; try assumption.
  - rewrite E3. apply list_sound; [exact He|right; reflexivity|]. intros b Hb. apply Hs. rewrite !in_app_iff. tauto.
  - rewrite E4. apply list_sound; [exact He|left; reflexivity|]. intros b Hb. apply Hs. rewrite !in_app_iff. tauto.
  - change (order_clause q) with (joined_by ", " "ORDER BY" (order_items q)). apply list_sound; [exact He|left; reflexivity|]. apply items_sound. exact Ho.
  - unfold select_clause. rewrite E1. apply (list_sound h d e He ", " _ sel (or_introl eq_refl)). intros b Hb. apply Hs. rewrite !in_app_iff. tauto.
  - rewrite E2. apply list_sound; [exact He|left; reflexivity|]. intros b Hb. apply Hs. rewrite !in_app_iff. tauto.
  - intros n st st' Hst. unfold select_clause. rewrite E1.
    apply (list_shows h d e He ", " (if q_distinct q then "SELECT DISTINCT" else "SELECT") sel (or_introl eq_refl)); [intros b Hb; apply Hs; rewrite !in_app_iff; tauto|exact Hsh|exact Hst].
Qed.
Theorem fit_sound : forall id, fit h d e (nth id h new_qb) -> sound h d e (BQuery (Some id)).
Proof. intros id H. apply sd_query. intros q G. apply fit_whole. eapply fit_grown; eassumption. Qed.

(** * Calls *)
Lemma equal_sound : forall op b v, plain_text op = true -> starts is_digit op = false -> sound h d e b -> storable d v ->
  sound h d e (BFrag (Frag ("#f1" ++ op ++ "$1") [v] [b] "" "")).
Proof.
  intros op b v Hop Hd Hb Hv. destruct He as (_ & _ & Hf & _).
  assert (E : "#f1" ++ op ++ "$1" = print [Indexed "f" 1; Text op; Dollar 1]).
  { cbn [print print1]. change (dec 1) with "1". rewrite !append_assoc. reflexivity. }
  assert (Hd2 : starts is_digit (op ++ "$1") = false) by (destruct op; [reflexivity|exact Hd]).
  assert (Hp : parsed ("#f1" ++ op ++ "$1") = Some (norm [ACall "f" [LNum (float_of_N 1)]; APlain op; ABind style_dollar 1])).
  { rewrite E, parsed_print; [reflexivity|]. unfold wf. cbn [wf_at wf1 follow print print1]. change (dec 1) with "1".
    change ((op ++ ("$" ++ "1") ++ "") ++ "") with ((op ++ "$1") ++ ""). rewrite append_nil_r, Hd2, Hop. reflexivity. }
  eapply sd_frag; [exact Hp|intros x [<-|[]]; exact Hv|intros x [<-|[]]; exact Hb| | |].
  - intros x Hx. apply norm_members in Hx as [[t ->]|[<-|[<-|[<-|[]]]]]; try apply fi_plain; [apply fi_frag; [exact Hf|exact Logic.I|]|apply fi_bind]; (split; vm_compute; discriminate).
  - intros i [H1 H2]. cbn in H2. exists (ABind style_dollar 1). split; [apply norm_in; [exact Logic.I|]; right; right; left; reflexivity|].
    replace i with 1%Z by lia. apply vs_bind. reflexivity.
  - intros i [H1 H2]. cbn in H2. exists (ACall "f" [LNum (float_of_N 1)]). split; [apply norm_in; [exact Logic.I|]; left; reflexivity|].
    apply vs_call; [exact Hf|]. replace i with 1%Z by lia. reflexivity.
Qed.
Lemma in_sound : forall raw t u b vs, parsed raw = Some [ACall "f" [LNum (float_of_N 1)]; APlain t; ACall "join" [LStr ("#" ++ "arg"); LStr ", "]; APlain u] ->
  sound h d e b -> (forall v, In v vs -> storable d v) -> sound h d e (BFrag (Frag raw vs [b] "" "")).
Proof.
  intros raw t u b vs Hp Hb Hv. destruct He as (Hj & _ & Hf & Ha).
  assert (Sh : shortest e (List.length vs) 1 [AFunc "arg"] (List.length vs)).
  { split; [exists "arg", FnArg; split; [left; reflexivity|split; [exact Ha|reflexivity]]|].
    intros nm [E|[]]. injection E as <-. exists FnArg, (List.length vs). auto. }
  assert (Av : available [] (List.length vs) 1 (Z.of_nat (List.length vs))).
  { split; [split; reflexivity|]. split; [lia|]. right. intros x []. }
  eapply sd_frag; [exact Hp|exact Hv|intros x [<-|[]]; exact Hb| | |].
  - intros x [<-|[<-|[<-|[<-|[]]]]]; try apply fi_plain.
    + apply fi_frag; [exact Hf|exact Logic.I|split; vm_compute; discriminate].
    + eapply fi_join; [exact Hj|intros x []|apply parsed_func; reflexivity|exact Sh|exact Av|]. intros x [<-|[]] [].
  - intros i Hi. eexists. split; [right; right; left; reflexivity|].
    eapply vs_item; [exact Hj|apply parsed_func; reflexivity|exact Sh|exact Av|left; reflexivity|exact Ha|exact Hi].
  - intros i [H1 H2]. cbn in H2. eexists. split; [left; reflexivity|].
    apply vs_call; [exact Hf|]. replace i with 1%Z by lia. reflexivity.
Qed.
(** What the calls establish. *)
Definition ready_made (q : qb) : Prop :=
  q_errors q = [] /\ q_debug q = false /\
  (forall c, In c (q_ctes q) -> sound h d e (c_builder c)) /\
  (forall ft, In ft (q_tobjs q) -> sound h d e (table_builder ft)) /\
  (forall b, In b (q_unions q) -> sound h d e b) /\
  (forall b o, In (b, o) (q_orders q) -> sound h d e b /\ order_word o <> None) /\
  (exists p1 p2 p3 p4 selected hidden conds groups,
    q_selects q = joined_by ", " p1 selected /\ q_touches q = joined_by ", " p2 hidden /\
    q_conds q = joined_by " AND " p3 conds /\ q_groups q = joined_by ", " p4 groups /\
    (forall b, In b (selected ++ hidden ++ conds ++ groups) -> sound h d e b)).
Lemma made_cond : forall q f, ready_made q -> sound h d e (BFrag f) -> ready_made (add_cond q f).
Proof.
  intros q f (H1 & H2 & H3 & H4 & H5 & H6 & p1 & p2 & p3 & p4 & sel & hid & con & gro & E1 & E2 & E3 & E4 & Hs) Hf.
  do 6 (split; [assumption|]). exists p1, p2, p3, p4, sel, hid, (con ++ [BFrag f])%list, gro. split; [exact E1|]. split; [exact E2|].
  split; [cbn; rewrite E3; reflexivity|]. split; [exact E4|]. intros b Hb. rewrite !in_app_iff in Hb. cbn [In] in Hb.
  destruct Hb as [Hb|[Hb|[[Hb|[<-|[]]]|Hb]]]; try exact Hf; apply Hs; rewrite !in_app_iff; tauto.
Qed.
Lemma made_tables : forall q objs ids dict, ready_made q -> (forall ft, In ft objs -> sound h d e (table_builder ft)) -> ready_made (set_tables q objs ids dict).
Proof. intros q objs ids dict (H1 & H2 & H3 & H4 & H5 & H6 & H7) Ho. do 3 (split; [assumption|]). split; [exact Ho|]. split; [exact H5|]. split; [exact H6|exact H7]. Qed.
Lemma in_upd : forall A (l : list A) i x y, In y (upd i x l) -> y = x \/ In y l.
Proof.
  induction l as [|z l IH]; intros [|i] x y H; cbn [upd] in H; try (destruct H; fail).
  - destruct H as [<-|H]; [left; reflexivity|right; right; exact H].
  - destruct H as [<-|H]; [right; left; reflexivity|]. destruct (IH i x y H) as [K|K]; [left; exact K|right; right; exact K].
Qed.
Lemma call_made : forall o q, good_call h d e o -> ready_made q -> exists q', apply_op o q = ROk q' /\ ready_made q'.
Proof.
  intros o q Ho Hq. pose proof Hq as (H1 & H2 & H3 & H4 & H5 & H6 & p1 & p2 & p3 & p4 & sel & hid & con & gro & E1 & E2 & E3 & E4 & Hs).
  destruct o as [|cols|z|z|cols|bs|t|kind t on opt|f|col op v|col l|col l|col o|nm b deps|]; cbn [good_call apply_op] in *.
  - eexists. split; [reflexivity|]. do 6 (split; [assumption|]). exists p1, p2, p3, p4, sel, hid, con, gro. auto.
  - destruct cols as [|c cols]; [eexists; split; [reflexivity|exact Hq]|]. eexists. split; [reflexivity|].
    do 6 (split; [assumption|]). exists p1, p2, p3, p4, (c :: cols), hid, con, gro. split; [cbn; rewrite E1; reflexivity|]. repeat (split; [assumption|]).
    intros x Hx. apply in_app_or in Hx as [Hx|Hx]; [apply Ho; exact Hx|]. apply Hs. apply in_or_app. right. exact Hx.
  - eexists. split; [reflexivity|]. destruct (0 <? z)%Z; exact Hq.
  - eexists. split; [reflexivity|]. destruct (0 <? z)%Z; exact Hq.
  - eexists. split; [reflexivity|]. do 6 (split; [assumption|]). exists p1, p2, p3, p4, sel, hid, con, (gro ++ cols)%list. do 3 (split; [assumption|]).
    split; [cbn; rewrite E4; reflexivity|]. intros x Hx. rewrite !in_app_iff in Hx. destruct Hx as [Hx|[Hx|[Hx|[Hx|Hx]]]]; try (apply Ho; exact Hx); apply Hs; rewrite !in_app_iff; tauto.
  - eexists. split; [reflexivity|]. do 4 (split; [assumption|]). split; [intros x Hx; cbn in Hx; apply in_app_or in Hx as [Hx|Hx]; auto|]. split; [exact H6|].
    exists p1, p2, p3, p4, sel, hid, con, gro. auto.
  - destruct Ho as [Hn Hp]. eexists. split; [reflexivity|]. unfold qb_from. destruct (fst t) as [|a s] eqn:Et; [congruence|]. cbn [is_empty]. apply made_tables; [exact Hq|].
    intros ft Hft. apply in_app_or in Hft as [Hft|[<-|[]]]; [apply H4; exact Hft|]. apply plain_sound. exact Hp.
  - destruct Ho as (Hn & Hp & f & -> & Hf). unfold qb_join. destruct (fst t) as [|a s] eqn:Et; [congruence|]. cbn [is_empty].
    set (q1 := match q_tables q with [] => _ | _ => q end).
    assert (Hq1 : ready_made q1).
    { subst q1. destruct (q_tables q); [|exact Hq]. apply made_tables; [exact Hq|]. intros ft Hft. apply in_app_or in Hft as [Hft|[<-|[]]]; [apply H4; exact Hft|apply sd_nilfrag]. }
    assert (Hnew : sound h d e (BFrag (Ff (join_raw kind t) [BFrag (with_prefix f "ON")]))).
    { replace (Ff (join_raw kind t) [BFrag (with_prefix f "ON")]) with (Frag ((kind ++ " " ++ table_text t ++ " ") ++ "#f1" ++ "") [] [BFrag (with_prefix f "ON")] "" "").
      - apply around_sound; [exact He|exact Hp|reflexivity|reflexivity|apply prefix_sound; exact Hf].
      - unfold Ff, join_raw. change table_and_alias with table_text. rewrite !append_assoc. reflexivity. }
    destruct (assoc (applied t) (q_tdict q1)) as [id|]; eexists; (split; [reflexivity|]); (apply made_tables; [exact Hq1|]); intros ft Hft.
    + apply in_upd in Hft as [->|Hft]; [exact Hnew|]. destruct Hq1 as (_ & _ & _ & B & _). exact (B ft Hft).
    + apply in_app_or in Hft as [Hft|[<-|[]]]; [|exact Hnew]. destruct Hq1 as (_ & _ & _ & B & _). exact (B ft Hft).
  - destruct f as [f|]; eexists; (split; [reflexivity|]); [|exact Hq]. apply made_cond; [exact Hq|apply Ho; reflexivity].
  - destruct Ho as (A & B & C & D). eexists. split; [reflexivity|]. apply made_cond; [exact Hq|]. apply equal_sound; assumption.
  - destruct Ho as (A & vs & B & C). unfold where_in. rewrite B. eexists. split; [reflexivity|]. apply made_cond; [exact Hq|].
    eapply in_sound; [vm_compute; reflexivity|exact A|exact C].
  - destruct Ho as (A & vs & B & C). unfold where_in. rewrite B. eexists. split; [reflexivity|]. apply made_cond; [exact Hq|].
    eapply in_sound; [vm_compute; reflexivity|exact A|exact C].
  - eexists. split; [reflexivity|]. do 5 (split; [assumption|]). split; [|exists p1, p2, p3, p4, sel, hid, con, gro; auto].
    intros b w Hb. cbn in Hb. apply in_app_or in Hb as [Hb|[Hb|[]]]; [apply H6; exact Hb|]. injection Hb as <- <-. exact Ho.
  - eexists. split; [reflexivity|]. do 2 (split; [assumption|]). split; [intros c Hc; cbn in Hc; apply in_app_or in Hc as [Hc|[<-|[]]]; [apply H3; exact Hc|exact Ho]|].
    do 3 (split; [assumption|]). exists p1, p2, p3, p4, sel, hid, con, gro. auto.
  - destruct Ho.
Qed.
Lemma calls_made : forall os q, Forall (good_call h d e) os -> ready_made q -> exists q', apply_ops os q = ROk q' /\ ready_made q'.
Proof.
  induction os as [|o os IH]; intros q F Hq; [exists q; auto|]. inversion F; subst. cbn [apply_ops].
  destruct (call_made o q H1 Hq) as (q1 & -> & Hq1). apply IH; assumption.
Qed.
Lemma new_made : ready_made new_qb.
Proof.
  do 2 (split; [reflexivity|]). do 3 (split; [intros x []|]). split; [intros b o []|].
  exists "SELECT", "", "WHERE", "GROUP BY", [], [], [], []. do 4 (split; [reflexivity|]). intros b [].
Qed.
Theorem calls_fit : forall os, Forall (good_call h d e) os -> Forall op_ok os -> exists q, apply_ops os new_qb = ROk q /\
  (q_tables q <> [] -> (forall b, In b (clause_builders q) -> ~ has_nil b) -> (forall t, needed q t -> ~ undefined q t) ->
   (exists b, In b (f_frags (q_selects q)) /\ shows h d e b) -> fit h d e q).
Proof.
  intros os F Fo. destruct (calls_made os new_qb F new_made) as (q & E & (H1 & H2 & H3 & H4 & H5 & H6 & p1 & p2 & p3 & p4 & sel & hid & con & gro & E1 & E2 & E3 & E4 & Hs)).
  exists q. split; [exact E|]. intros Nt Nn Nd Sh. pose proof (tables_ok_ops os new_qb q Fo tables_ok_new E) as [T1 T2].
  split; [exact H1|]. split; [exact H2|]. split.
  { split; [exact Nt|]. split; [exact Nn|]. split.
    - intros t Ht. pose proof (Nd t Ht) as Hd. unfold undefined, table_of in *. destruct (assoc t (q_tdict q)) as [id|] eqn:Ea; [|congruence].
      destruct (T1 t id Ea) as (ft & f & A & _ & B & C). exists ft, f. auto.
    - intros id [Hi|[t Hi]]; [apply nth_error_Some, T2; exact Hi|]. destruct (T1 t id Hi) as (ft & f & A & _). congruence. }
  split; [exact H3|]. split.
  { intros ft Hft. unfold listed in Hft. apply in_map_iff in Hft as (id & <- & Hi). apply H4. apply nth_In. apply T2. exact Hi. }
  split; [exact H5|]. split; [exact H6|]. exists p1, p2, p3, p4, sel, hid, con, gro. do 4 (split; [assumption|]). split; [exact Hs|].
  rewrite E1 in Sh. exact Sh.
Qed.
End Fit.

(* ------------------------------------------------------------------ *)
(** * Building *)

Theorem sound_builds : forall h d e b, sound h d e b -> forall st, during h d st ->
  exists N s st', during h d st' /\ forall n, N <= n -> build n e b st = (ROk s, st').
Proof.
  intros h d e b H st Hst. destruct (sound_buildable h d e b H st Hst) as (N & o & st' & [[s ->] K] & E).
  exists N, s, st'. split; [exact K|]. intros n Hn. apply (E n n); exact Hn.
Qed.
Theorem sound_query : forall style h b, sound h (Z.eqb style style_dollar) [builtins] b ->
  exists N s args h', (forall n, N <= n -> build_query n style h b = (ROk (s, args), h')) /\ forall id, grown (nth id h new_qb) (nth id h' new_qb).
Proof.
  intros style h b H. destruct (sound_builds h _ [builtins] b H (new_store style h)) as (N & s & st' & K & E).
  { split; [reflexivity|]. intros id. apply gr_same. }
  exists N, s, (st_args st'), (st_heap st'). split; [|apply K]. intros n Hn. unfold build_query. rewrite E by exact Hn. reflexivity.
Qed.
Lemma usual_builtins : usual [builtins].
Proof. repeat split. Qed.
Theorem sound_again : forall style h b, sound h (Z.eqb style style_dollar) [builtins] b ->
  forall h', (forall id, grown (nth id h new_qb) (nth id h' new_qb)) ->
  exists N s args h2, (forall n, N <= n -> build_query n style h' b = (ROk (s, args), h2)) /\ forall id, grown (nth id h new_qb) (nth id h2 new_qb).
Proof.
  intros style h b H h' Hh. destruct (sound_builds h _ [builtins] b H (new_store style h')) as (N & s & st' & K & E).
  { split; [reflexivity|]. exact Hh. }
  exists N, s, (st_args st'), (st_heap st'). split; [|apply K]. intros n Hn. unfold build_query. rewrite E by exact Hn. reflexivity.
Qed.
Theorem calls_build : forall style h id os, let d := Z.eqb style style_dollar in
  Forall (good_call h d [builtins]) os -> Forall op_ok os ->
  exists q, apply_ops os new_qb = ROk q /\
    (nth id h new_qb = q -> q_tables q <> [] -> (forall b, In b (clause_builders q) -> ~ has_nil b) -> (forall t, needed q t -> ~ undefined q t) ->
     (exists b, In b (f_frags (q_selects q)) /\ shows h d [builtins] b) ->
     exists N s args h', forall n, N <= n -> build_query n style h (BQuery (Some id)) = (ROk (s, args), h')).
Proof.
  intros style h id os d F Fo. destruct (calls_fit h d [builtins] usual_builtins os F Fo) as (q & E & K). exists q. split; [exact E|].
  intros En H1 H2 H3 H4. destruct (sound_query style h (BQuery (Some id))) as (N & s & args & h' & B & _).
  { apply fit_sound; [apply usual_builtins|]. rewrite En. apply K; assumption. }
  eauto.
Qed.

(** Texts that show. *)
Lemma not_blank : forall a s, (32 < N_of_ascii a < 127)%N -> ~ blank (String a s).
Proof.
  intros a s Ha H. inversion H as [|w u Hw _ E].
  assert (W : forallb (fun w => match w with "" => false | String c _ => (N_of_ascii c <=? 32)%N || (127 <=? N_of_ascii c)%N end) whites = true) by (vm_compute; reflexivity).
  rewrite forallb_forall in W. specialize (W w Hw). destruct w as [|c w]; [discriminate|]. cbn [append] in E. injection E as -> _.
  apply orb_prop in W as [W|W]; apply N.leb_le in W; lia.
Qed.
Lemma plain_build : forall n e st t s st', plain_text t = true -> build n e (BFrag (F t)) st = (ROk s, st') -> s = trim_space t.
Proof.
  intros n e st t s st' Ht H. pose proof (mono_build n (S (S n)) e (BFrag (F t)) st ltac:(lia)) as [K|K]; rewrite H in K; [discriminate|].
  rewrite (plain_at n e st t Ht) in K. congruence.
Qed.
Lemma column_shows : forall h d e t tb a u, plain_text t = true -> trim_space t = String a u -> (32 < N_of_ascii a < 127)%N -> shows h d e (BCol (Some (F t)) tb).
Proof.
  intros h d e t tb a u Ht Hu Ha n st s st' _ H. destruct n as [|n]; [discriminate|].
  change (build (S n) e (BCol (Some (F t)) tb) st) with (build (S n) e (BFrag (F t)) st) in H. apply plain_build in H; [|exact Ht]. rewrite H, Hu. apply not_blank. exact Ha.
Qed.
