(** Closed parts give closed texts: query builders. *)
From Coq Require Import Strings.String Strings.Ascii NArith ZArith List Bool Lia.
From Verif Require Import GoStr GoNum Syntax Value Util Model Sqlf Sqlb Spec_base Spec_syntax Spec_eval Spec_query Spec_intact
  Lex_proofs Num_proofs Grammar_proofs Base_proofs Eval_proofs Use_proofs Query_proofs Clause_proofs Frame_proofs Intact_proofs Intact2_proofs.
Import ListNotations.
Open Scope string_scope.

(* ------------------------------------------------------------------ *)
(** * The texts the library writes *)
Lemma parts_of : forall l, reading_parts 0 None l = Some (0, None) -> (forall tmpl sep nums, ~ In (ACall "join" (LStr tmpl :: LStr sep :: nums)) l) -> intact_parts l.
Proof. intros l H1 H2. constructor; [exact H1|]. intros tmpl sep nums Hin. destruct (H2 _ _ _ Hin). Qed.
Lemma printed_parts : forall raw ps, raw = print ps -> wf ps = true ->
  reading_parts 0 None (denote 0 ps) = Some (0, None) -> (forall tmpl sep nums, ~ In (ACall "join" (LStr tmpl :: LStr sep :: nums)) (denote 0 ps)) ->
  forall l, parsed raw = Some l -> intact_parts l.
Proof.
  intros raw ps -> Hw Hr Hj l E. rewrite (parsed_print ps Hw) in E. destruct (style_ok false ps); [|discriminate]. injection E as <-.
  apply parts_of; [rewrite reading_norm; exact Hr|]. intros tmpl sep nums Hin. apply norm_call in Hin. exact (Hj _ _ _ Hin).
Qed.
Ltac no_joins := let H := fresh "H" in intros ? ? ? H; cbn [denote In] in H; repeat (destruct H as [H|H]; [discriminate H|]); exact H.
Lemma plain_parts : forall s, plain_text s = true -> enclosed s -> forall l, parsed s = Some l -> intact_parts l.
Proof.
  intros s Hp He. apply (printed_parts s [Text s]); [cbn; rewrite append_nil_r; reflexivity|unfold wf; cbn; rewrite Hp; reflexivity| |no_joins].
  cbn [denote reading_parts print1]. rewrite (enclosed_reading s He). reflexivity.
Qed.
Lemma around_parts : forall a c, plain_text a = true -> plain_text c = true -> starts is_digit c = false -> enclosed a -> enclosed c ->
  forall l, parsed (a ++ "#f1" ++ c) = Some l -> intact_parts l.
Proof.
  intros a c Ha Hc Hd Ea Ec. apply (printed_parts _ [Text a; Indexed "f" 1; Text c]).
  - cbn [print print1]. rewrite append_nil_r. change (dec 1) with "1". rewrite !append_assoc. reflexivity.
  - unfold wf. cbn [wf_at wf1 follow print print1]. rewrite !append_nil_r, Ha, Hc, Hd. reflexivity.
  - cbn [denote reading_parts print1]. rewrite (enclosed_reading a Ea), (enclosed_reading c Ec). reflexivity.
  - no_joins.
Qed.
Lemma compare_parts : forall op, plain_text op = true -> starts is_digit op = false -> enclosed op ->
  forall l, parsed ("#f1" ++ op ++ "$1") = Some l -> intact_parts l.
Proof.
  intros op Hop Hd He. apply (printed_parts _ [Indexed "f" 1; Text op; Dollar 1]).
  - cbn [print print1]. change (dec 1) with "1". rewrite !append_assoc. reflexivity.
  - assert (Hd2 : starts is_digit (op ++ "$1") = false) by (destruct op; [reflexivity|exact Hd]). unfold wf. cbn [wf_at wf1 follow print print1].
    change (dec 1) with "1". change ((op ++ ("$" ++ "1") ++ "") ++ "") with ((op ++ "$1") ++ ""). rewrite append_nil_r, Hd2, Hop. reflexivity.
  - cbn [denote reading_parts print1]. rewrite (enclosed_reading op He). reflexivity.
  - no_joins.
Qed.
Lemma one_join : forall raw l tmpl sep, parsed raw = Some l -> reading_parts 0 None l = Some (0, None) ->
  (forall t s nums, In (ACall "join" (LStr t :: LStr s :: nums)) l -> t = tmpl /\ s = sep) -> enclosed sep ->
  (forall l', parsed tmpl = Some l' -> intact_parts l') -> forall l', parsed raw = Some l' -> intact_parts l'.
Proof.
  intros raw l tmpl sep E Hr Hj Hs Ht l' E'. rewrite E in E'. injection E' as <-. constructor; [exact Hr|]. intros t s nums Hin. destruct (Hj _ _ _ Hin) as [-> ->]. auto.
Qed.
Ltac joins1 := let H := fresh "H" in intros ? ? ? H; cbn [In] in H; repeat (destruct H as [H|H]; [first [discriminate H|injection H as <- <- _; split; reflexivity]|]); destruct H.
Lemma func_parts : forall nm, nm = "#fragment" \/ nm = "#arg" -> forall l', parsed nm = Some l' -> intact_parts l'.
Proof.
  assert (G : forall nm f, parsed nm = Some [AFunc f] -> forall l', parsed nm = Some l' -> intact_parts l').
  { intros nm f E l' E'. rewrite E in E'. injection E' as <-. apply parts_of; [reflexivity|]. intros t s nums [H|[]]. discriminate. }
  intros nm [->| ->]; [apply (G _ "fragment")|apply (G _ "arg")]; vm_compute; reflexivity.
Qed.
Lemma comma_parts : forall l, parsed join_comma = Some l -> intact_parts l.
Proof.
  apply (one_join join_comma [ACall "join" [LStr "#fragment"; LStr ", "]] "#fragment" ", "); [vm_compute; reflexivity|reflexivity|joins1|enc|apply func_parts; auto].
Qed.
Lemma and_parts : forall l, parsed join_and = Some l -> intact_parts l.
Proof.
  apply (one_join join_and [ACall "join" [LStr "#fragment"; LStr " AND "]] "#fragment" " AND "); [vm_compute; reflexivity|reflexivity|joins1|enc|apply func_parts; auto].
Qed.
Lemma in_parts : forall raw, raw = "#f1 IN (#join('#arg', ', '))" \/ raw = "#f1 NOT IN (#join('#arg', ', '))" -> forall l, parsed raw = Some l -> intact_parts l.
Proof.
  intros raw [->| ->].
  - eapply (one_join _ _ "#arg" ", "); [vm_compute; reflexivity|vm_compute; reflexivity|joins1|enc|apply func_parts; auto].
  - eapply (one_join _ _ "#arg" ", "); [vm_compute; reflexivity|vm_compute; reflexivity|joins1|enc|apply func_parts; auto].
Qed.

(* ------------------------------------------------------------------ *)
(** * Query builders *)
Lemma frag_inv : forall f, intact_frag f -> (forall l, parsed (f_raw f) = Some l -> intact_parts l) /\ Forall intact (f_frags f) /\ brackets (f_prefix f) (f_suffix f).
Proof. intros f H. destruct H as [raw args frags p s H1 H2 H3]. auto. Qed.
Lemma frag_mk : forall f, (forall l, parsed (f_raw f) = Some l -> intact_parts l) -> Forall intact (f_frags f) -> brackets (f_prefix f) (f_suffix f) -> intact_frag f.
Proof. intros [raw args frags p s] H1 H2 H3. apply it_fragment; assumption. Qed.
Lemma brackets_none : brackets "" "".
Proof. exists 0. split; reflexivity. Qed.
Lemma brackets_closed : forall p s, enclosed p -> enclosed s -> brackets p s.
Proof. intros p s Hp Hs. exists 0. split; apply enclosed_iff; assumption. Qed.
Lemma brackets_suffix : forall p s, enclosed p -> brackets p s -> enclosed s.
Proof. intros p s Hp (d & H1 & H2). rewrite (enclosed_reading p Hp) in H1. injection H1 as <-. apply enclosed_iff. exact H2. Qed.
Lemma reprefix : forall f p, enclosed p -> intact_frag (with_prefix f "") -> intact_frag (with_prefix f p).
Proof.
  intros f p Hp H. destruct (frag_inv _ H) as (H1 & H2 & H3). apply frag_mk; [exact H1|exact H2|]. apply brackets_suffix in H3; [|apply en_empty].
  apply brackets_closed; assumption.
Qed.
Lemma reprefix_back : forall f p, enclosed p -> intact_frag (with_prefix f p) -> intact_frag (with_prefix f "").
Proof.
  intros f p Hp H. destruct (frag_inv _ H) as (H1 & H2 & H3). apply frag_mk; [exact H1|exact H2|]. apply brackets_suffix in H3; [|exact Hp].
  apply brackets_closed; [apply en_empty|assumption].
Qed.
Lemma frags_added : forall f bs, intact_frag f -> Forall intact bs -> intact_frag (append_frags f bs).
Proof.
  intros f bs H Hb. destruct (frag_inv _ H) as (H1 & H2 & H3). apply frag_mk; [exact H1| |exact H3]. cbn. apply Forall_app. split; assumption.
Qed.
Lemma plain_frag_intact : forall s, plain_text s = true -> enclosed s -> intact_frag (F s).
Proof. intros s Hp He. apply it_fragment; [apply plain_parts; assumption|apply Forall_nil|apply brackets_none]. Qed.
Lemma around_intact : forall a c b args, plain_text a = true -> plain_text c = true -> starts is_digit c = false -> enclosed a -> enclosed c -> intact b ->
  intact_frag (Frag (a ++ "#f1" ++ c) args [b] "" "").
Proof. intros. apply it_fragment; [apply around_parts; assumption|apply Forall_cons; [assumption|apply Forall_nil]|apply brackets_none]. Qed.
Lemma new_intact : intact_qb new_qb.
Proof.
  constructor; cbn; try apply Forall_nil; (apply it_fragment; [first [apply comma_parts|apply and_parts]|apply Forall_nil|]); apply brackets_closed; enc.
Qed.
Lemma get_intact : forall st id, heap_ok st -> intact_qb (get_q st id).
Proof.
  intros st id H. unfold get_q. destruct (nth_in_or_default id (st_heap st) new_qb) as [Hi|E]; [|rewrite E; apply new_intact].
  unfold heap_ok in H. rewrite Forall_forall in H. apply H. exact Hi.
Qed.
Lemma set_intact : forall st id q, heap_ok st -> intact_qb q -> heap_ok (set_q st id q).
Proof. intros st id q H Hq. unfold heap_ok, set_q. cbn [st_heap set_heap]. apply Forall_upd; assumption. Qed.
Lemma alias_plain : forall i, plain_text (order_alias i) = true /\ enclosed (order_alias i).
Proof.
  intros i. unfold order_alias. split.
  - rewrite plain_app, (digits_plain (itoa_nat i)); [reflexivity|]. unfold itoa_nat. destruct (Nat.to_uint i); [reflexivity|..]; apply (all_digits_uint (_ _)).
  - apply enclosed_idle. rewrite all_app, itoa_nat_idle. reflexivity.
Qed.
Lemma word_enclosed : forall o w, order_word o = Some w -> enclosed w.
Proof.
  intros o w H. unfold order_word in H. apply nth_error_In in H. unfold order_words in H. cbn [In] in H.
  repeat (destruct H as [<-|H]; [enc|]). destruct H.
Qed.
Lemma valid_word : forall os i x, In x (valid_orders i os) -> exists o, order_word o = Some (snd x).
Proof.
  induction os as [|[b o] os IH]; intros i x H; cbn in H; [contradiction|]. destruct (order_word o) eqn:E; [|exact (IH _ _ H)].
  destruct H as [<-|H]; [exists o; exact E|exact (IH _ _ H)].
Qed.
Lemma orders_intact : forall q, intact_qb q -> intact_qb (with_orders q) /\ Forall intact (order_items q).
Proof.
  intros q [C1 C2 C3 C4 C5 C6 C7 C8].
  assert (V : forall x, In x (valid_orders 1 (q_orders q)) -> intact (snd (fst x))).
  { intros x Hx. destruct (valid_in _ _ _ Hx) as [o [O1 <-]]. rewrite Forall_forall in C7. apply C7. exact O1. }
  assert (W : forall x, In x (valid_orders 1 (q_orders q)) -> plain_text (snd x) = true /\ starts is_digit (snd x) = false /\ enclosed (snd x)).
  { intros x Hx. destruct (valid_word _ _ _ Hx) as [o Ho]. destruct (word_plain _ _ Ho) as [P1 P2]. split; [exact P1|]. split; [exact P2|]. eapply word_enclosed; exact Ho. }
  split.
  - constructor; try assumption. unfold with_orders. cbn [set_errors set_touches q_touches]. change (more_frags (q_touches q) (hidden_columns q)) with (append_frags (q_touches q) (hidden_columns q)).
    apply frags_added; [exact C4|]. unfold hidden_columns. destruct (q_distinct q); [|apply Forall_nil].
    apply Forall_forall. intros b Hb. apply in_map_iff in Hb as [[[i c] w] [<- Hx]]. destruct (alias_plain i) as [A1 A2]. apply it_frag.
    change (Ff ("#f1 AS " ++ order_alias i) [c]) with (Frag ("" ++ "#f1" ++ (" AS " ++ order_alias i)) [] [c] "" "").
    apply around_intact; [reflexivity|rewrite plain_app, A1; reflexivity|reflexivity|apply en_empty|apply enclosed_app; [enc|exact A2]|exact (V _ Hx)].
  - unfold order_items. apply Forall_forall. intros b Hb. apply in_map_iff in Hb as [[[i c] w] [<- Hx]]. destruct (alias_plain i) as [A1 A2]. destruct (W _ Hx) as (W1 & W2 & W3). cbn [snd] in *.
    destruct (q_distinct q); apply it_frag.
    + apply plain_frag_intact; [rewrite !plain_app, A1, W1; reflexivity|]. apply enclosed_app; [exact A2|]. apply enclosed_app; [enc|exact W3].
    + change (Ff ("#f1 " ++ w) [c]) with (Frag ("" ++ "#f1" ++ (" " ++ w)) [] [c] "" "").
      apply around_intact; [reflexivity|rewrite plain_app, W1; reflexivity|reflexivity|apply en_empty|apply enclosed_app; [enc|exact W3]|exact (V _ Hx)].
Qed.

Section Parts.
Variable rb : builder -> store -> outcome string * store.
Hypothesis Hrb : forall b st, intact b -> heap_ok st -> fine (rb b st).

Definition fine_l (r : outcome (list string) * store) : Prop := heap_ok (snd r) /\ forall l, fst r = ROk l -> Forall enclosed l.
Lemma ctes_fine : forall cs d st, Forall (fun c => enclosed (c_name c) /\ intact (c_builder c)) cs -> heap_ok st -> fine (build_ctes rb cs d st).
Proof.
  assert (L : forall cs d st, Forall (fun c => enclosed (c_name c) /\ intact (c_builder c)) cs -> heap_ok st -> fine_l (build_ctes_loop rb cs d st)).
  { induction cs as [|c cs IH]; intros d st Hl H; cbn [build_ctes_loop]; [split; [exact H|intros l [= <-]; apply Forall_nil]|].
    inversion Hl as [|? ? [Hn Hc] Hl']; subst.
    destruct (dep_mem _ _); [|apply IH; assumption]. destruct (Hrb (c_builder c) st Hc H) as [E1 E2].
    destruct (rb (c_builder c) st) as [o st']. cbn [fst snd] in *.
    destruct o as [r|er|er|]; try (split; [exact E1|discriminate]). destruct (IH d st' Hl' E1) as [F1 F2].
    destruct (build_ctes_loop rb cs d st') as [o st2]. cbn [fst snd] in *.
    destruct o as [l0|er|er|]; (split; [exact F1|]); try discriminate. intros l [= <-]. specialize (F2 _ eq_refl). destruct (is_empty r); [exact F2|].
    apply Forall_cons; [|exact F2]. apply enclosed_app; [exact Hn|]. refine (enclosed_app " AS " ("(" ++ r ++ ")" ++ "") _ _); [enc|].
    apply en_paren; [apply E2; reflexivity|apply en_empty]. }
  intros cs d st Hl H. unfold build_ctes. destruct (L cs d st Hl H) as [E1 E2].
  destruct (build_ctes_loop rb cs d st) as [o st']. cbn [fst snd] in *.
  destruct o as [[|x l]|er|er|]; (split; [exact E1|]); try discriminate; intros s [= <-]; [apply en_empty|].
  refine (enclosed_app "With " (str_join ", " (x :: l)) _ _); [enc|]. apply enclosed_join; [enc|]. apply E2. reflexivity.
Qed.
Lemma from_fine : forall di fts d st, Forall (fun x => match ft_frag x with Some f => intact_frag f | None => True end) fts ->
  heap_ok st -> fine_l (build_from_loop rb di fts d st).
Proof.
  intros di. induction fts as [|ft fts IH]; intros d st Hl H; cbn [build_from_loop]; [split; [exact H|intros l [= <-]; apply Forall_nil]|].
  inversion Hl as [|? ? Hc Hl']; subst.
  destruct (_ && _); [apply IH; assumption|].
  assert (fine (build_ofrag rb (ft_frag ft) st)) as [E1 E2].
  { unfold build_ofrag. destruct (ft_frag ft); apply Hrb; try exact H; constructor. exact Hc. }
  destruct (build_ofrag rb (ft_frag ft) st) as [o st']. cbn [fst snd] in *.
  destruct o as [r|er|er|]; try (split; [exact E1|discriminate]). destruct (IH d st' Hl' E1) as [F1 F2].
  destruct (build_from_loop rb di fts d st') as [o st2]. cbn [fst snd] in *.
  destruct o as [l0|er|er|]; (split; [exact F1|]); try discriminate. intros l [= <-]. apply Forall_cons; [apply E2|apply F2]; reflexivity.
Qed.
Lemma union_text : forall l, Forall enclosed l -> enclosed ("UNION (" ++ str_join ") UNION (" l ++ ")").
Proof.
  intros l H. assert (G : forall l, Forall enclosed l -> l <> [] -> enclosed ("(" ++ str_join ") UNION (" l ++ ")")).
  { clear l H. intros l H _. induction H as [|x l Hx H IH]; [enc|]. destruct l as [|y l].
    - exact (en_paren x "" Hx en_empty).
    - change (str_join ") UNION (" (x :: y :: l)) with (x ++ ") UNION (" ++ str_join ") UNION (" (y :: l)).
      replace ("(" ++ (x ++ ") UNION (" ++ str_join ") UNION (" (y :: l)) ++ ")") with ("(" ++ x ++ ")" ++ " UNION " ++ ("(" ++ str_join ") UNION (" (y :: l) ++ ")")).
      + apply en_paren; [exact Hx|]. refine (enclosed_app " UNION " ("(" ++ str_join ") UNION (" (y :: l) ++ ")") _ _); [enc|exact IH].
      + rewrite !append_assoc. reflexivity. }
  refine (enclosed_app "UNION " ("(" ++ str_join ") UNION (" l ++ ")") _ _); [enc|].
  destruct l as [|x l]; [enc|]. apply G; [exact H|discriminate].
Qed.
Lemma union_fine : forall bs st, Forall intact bs -> heap_ok st -> fine (build_union rb bs st).
Proof.
  assert (L : forall bs st, Forall intact bs -> heap_ok st -> fine_l (build_union_loop rb bs st)).
  { induction bs as [|b bs IH]; intros st Hl H; cbn [build_union_loop]; [split; [exact H|intros l [= <-]; apply Forall_nil]|].
    inversion Hl as [|? ? Hc Hl']; subst. destruct (Hrb b st Hc H) as [E1 E2].
    destruct (rb b st) as [o st']. cbn [fst snd] in *.
    destruct o as [r|er|er|]; try (split; [exact E1|discriminate]). destruct (IH st' Hl' E1) as [F1 F2].
    destruct (build_union_loop rb bs st') as [o st2]. cbn [fst snd] in *.
    destruct o as [l0|er|er|]; (split; [exact F1|]); try discriminate. intros l [= <-]. specialize (F2 _ eq_refl). destruct (is_empty r); [exact F2|].
    apply Forall_cons; [apply E2; reflexivity|exact F2]. }
  intros bs st Hl H. unfold build_union. destruct (L bs st Hl H) as [E1 E2].
  destruct (build_union_loop rb bs st) as [o st']. cbn [fst snd] in *.
  destruct o as [l|er|er|]; (split; [exact E1|]); try discriminate. intros s E. injection E as <-. apply (union_text l), E2. reflexivity.
Qed.
Lemma orders_fine : forall id st, heap_ok st -> fine (build_orders rb id st).
Proof.
  intros id st H. pose proof (get_intact st id H) as C. unfold build_orders. rewrite orders_spec.
  destruct (orders_intact _ C) as [C1 C2]. apply Hrb; [|apply set_intact; assumption]. apply it_frag. apply it_fragment; [apply comma_parts|exact C2|apply brackets_closed; enc].
Qed.
Lemma selects_fine : forall id st, heap_ok st -> fine (build_selects rb id st).
Proof.
  intros id st H. pose proof (get_intact st id H) as C. unfold build_selects.
  set (p := if q_distinct (get_q st id) then "SELECT DISTINCT" else "SELECT"). assert (Hp : enclosed p) by (unfold p; destruct (q_distinct _); enc).
  assert (K : heap_ok (set_q st id (set_selects (get_q st id) (with_prefix (q_selects (get_q st id)) p)))).
  { apply set_intact; [exact H|]. destruct C as [C1 C2 C3 C4 C5 C6 C7 C8]. constructor; assumption. }
  assert (Hs : intact (BFrag (with_prefix (q_selects (get_q st id)) p))) by (apply it_frag, reprefix; [exact Hp|exact (it_selects _ C)]).
  destruct (Hrb _ _ Hs K) as [E1 E2]. destruct (rb _ (set_q st id _)) as [o s6]. cbn [fst snd] in *.
  destruct o as [r|er|er|]; try (split; [exact E1|discriminate]).
  assert (Ht : intact (BFrag (q_touches (get_q s6 id)))) by (apply it_frag; exact (it_touches _ (get_intact s6 id E1))).
  destruct (Hrb _ _ Ht E1) as [D1 D2]. destruct (rb _ s6) as [o s7]. cbn [fst snd] in *. destruct o as [r2|er|er|]; try (split; [exact D1|discriminate]).
  destruct (is_empty r); [split; [exact D1|discriminate]|]. destruct (is_empty r2); (split; [exact D1|]); intros s [= <-]; [apply E2; reflexivity|].
  apply enclosed_app; [apply E2; reflexivity|]. refine (enclosed_app ", " r2 _ _); [enc|apply D2; reflexivity].
Qed.
Lemma fine_bind : forall r k, fine r -> (forall s st, enclosed s -> heap_ok st -> fine (k s st)) -> fine (bind r k).
Proof. intros [[s|er|er|] st] k [H1 H2] Hk; cbn [bind]; try (split; [exact H1|discriminate]). apply Hk; [apply H2; reflexivity|exact H1]. Qed.
Lemma nonempty_enclosed : forall s, enclosed s -> Forall enclosed (nonempty s).
Proof. intros s H. unfold nonempty. destruct (is_empty s); [apply Forall_nil|apply Forall_cons; [exact H|apply Forall_nil]]. Qed.
Lemma itoa_enclosed : forall z, (0 <? z)%Z = true -> enclosed (itoa z).
Proof.
  intros z H. apply Z.ltb_lt in H. destruct z as [|p|p]; try lia. apply enclosed_idle, digits_idle. unfold itoa. cbn [Z.to_int].
  destruct (Pos.to_uint p) eqn:E; [reflexivity|..]; apply (all_digits_uint (_ _)).
Qed.
Lemma internal_fine : forall id st, heap_ok st -> fine (build_internal rb id st).
Proof.
  intros id st H. unfold build_internal. pose proof (get_intact st id H) as C.
  destruct (q_errors (get_q st id)); [|split; [exact H|discriminate]]. destruct (collect_deps (get_q st id)) as [d|er|er|]; try (split; [exact H|discriminate]).
  apply fine_bind; [apply ctes_fine; [exact (it_ctes _ C)|exact H]|]. clear H C st. intros sq st Hsq H. pose proof (get_intact st id H) as C.
  apply fine_bind.
  { unfold build_from. assert (Hl : Forall (fun x => match ft_frag x with Some f => intact_frag f | None => True end) (from_tables (get_q st id))).
    { apply Forall_forall. intros ft Hin. unfold from_tables in Hin. apply in_map_iff in Hin as [j [<- _]].
      destruct (nth_in_or_default j (q_tobjs (get_q st id)) (mkFT ("", "") None false)) as [Hj| ->]; [|exact Logic.I].
      pose proof (it_tables _ C) as T. rewrite Forall_forall in T. apply T. exact Hj. }
    destruct (from_fine (q_distinct (get_q st id)) _ d st Hl H) as [E1 E2].
    destruct (build_from_loop rb _ _ d st) as [o s2]. cbn [fst snd] in *. destruct o as [l|er|er|]; (split; [exact E1|]); try discriminate.
    intros s E. injection E as <-. refine (enclosed_app "FROM " (str_join " " l) _ _); [enc|]. apply enclosed_join; [enc|]. apply E2. reflexivity. }
  clear H C st. intros fr st Hfr H. pose proof (get_intact st id H) as C.
  apply fine_bind; [apply Hrb; [apply it_frag; exact (it_conds _ C)|exact H]|]. clear H C st. intros wh st Hwh H. pose proof (get_intact st id H) as C.
  apply fine_bind; [apply Hrb; [apply it_frag; exact (it_groups _ C)|exact H]|]. clear H C st. intros gr st Hgr H.
  apply fine_bind; [apply orders_fine; assumption|]. clear H st. intros ord st Hord H. cbn zeta.
  generalize (get_q st id). intros q0.
  apply fine_bind; [apply selects_fine; assumption|]. clear H st. intros sel st Hsel H. pose proof (get_intact st id H) as C.
  set (query := trim_space _). assert (Hq : enclosed query).
  { apply enclosed_trim, enclosed_join; [enc|]. repeat (apply Forall_app; split); try (apply nonempty_enclosed; assumption).
    - apply Forall_cons; [exact Hsel|apply Forall_nil].
    - destruct (0 <? q_limit q0)%Z eqn:L; [|apply Forall_nil]. apply Forall_cons; [|apply Forall_nil]. refine (enclosed_app "LIMIT " (itoa (q_limit q0)) _ _); [enc|apply itoa_enclosed, L].
    - destruct (0 <? q_offset q0)%Z eqn:L; [|apply Forall_nil]. apply Forall_cons; [|apply Forall_nil]. refine (enclosed_app "OFFSET " (itoa (q_offset q0)) _ _); [enc|apply itoa_enclosed, L]. }
  apply fine_bind.
  { pose proof (it_unions _ C) as U. destruct (q_unions (get_q st id)); [split; [exact H|intros s [= <-]; exact Hq]|]. apply fine_bind; [apply union_fine; assumption|].
    intros r s8 Hr K. split; [exact K|]. intros s E. injection E as <-. apply enclosed_trim, enclosed_app; [exact Hq|]. refine (enclosed_app " " r _ _); [enc|exact Hr]. }
  clear H C st. intros r st Hr H. destruct (q_debug (get_q st id)); [|split; [exact H|intros s [= <-]; exact Hr]].
  destruct (interpolate _ _ _); (split; [exact H|]); try discriminate; intros s [= <-]; exact Hr.
Qed.
End Parts.

Theorem build_fine : forall n e b st, intact_env e -> intact b -> heap_ok st -> fine (build n e b st).
Proof.
  induction n as [|n IH]; intros e b st He Hb H; [split; [exact H|discriminate]|].
  destruct b as [| |f| |[f|] tb|tb|x a|[id|]|p]; cbn [build]; try (split; [exact H|discriminate]); inversion Hb; subst;
    try (split; [exact H|intros s [= <-]; apply en_empty]).
  - apply frag_fine; assumption.
  - apply frag_fine; assumption.
  - split; [exact H|intros s [= <-]; assumption].
  - split; [exact H|intros s [= <-]]. unfold applied. cbn [fst snd]. destruct (is_empty a); assumption.
  - apply internal_fine; [intros; apply IH; assumption|exact H].
  - apply prog_fine; [exact IH|assumption|assumption|exact H].
Qed.
Theorem query_enclosed : forall n style h b, Forall intact_qb h -> intact b ->
  (forall s args, fst (build_query n style h b) = ROk (s, args) -> enclosed s) /\ Forall intact_qb (snd (build_query n style h b)).
Proof.
  intros n style h b Hh Hb. unfold build_query. destruct (build_fine n [builtins] b (new_store style h) builtins_intact Hb Hh) as [E1 E2].
  destruct (build n [builtins] b (new_store style h)) as [o st]. cbn [fst snd] in *. split; [|exact E1]. intros s args E. destruct o as [x|er|er|]; try discriminate.
  injection E as <- _. apply E2. reflexivity.
Qed.

(* ------------------------------------------------------------------ *)
(** * Calls *)
Lemma plain_tables : forall t, plain_text (fst t) = true -> plain_text (snd t) = true -> enclosed (fst t) -> enclosed (snd t) ->
  plain_text (table_and_alias t) = true /\ enclosed (table_and_alias t).
Proof.
  intros t P1 P2 E1 E2. split; [apply plain_table; assumption|]. unfold table_and_alias. destruct (is_empty (snd t)); [exact E1|].
  apply enclosed_app; [exact E1|]. apply enclosed_app; [enc|exact E2].
Qed.
Lemma call_intact : forall o q q', intact_call o -> intact_qb q -> apply_op o q = ROk q' -> intact_qb q'.
Proof.
  assert (A : forall q f, intact_qb q -> intact_frag f -> intact_qb (add_cond q f)).
  { intros q f [C1 C2 C3 C4 C5 C6 C7 C8] Hf. constructor; try assumption. unfold add_cond. cbn [set_conds q_conds]. apply frags_added; [exact C5|].
    apply Forall_cons; [apply it_frag; exact Hf|apply Forall_nil]. }
  assert (T : forall q objs ts d, intact_qb q -> Forall (fun t => match ft_frag t with Some f => intact_frag f | None => True end) objs -> intact_qb (set_tables q objs ts d)).
  { intros q objs ts d [C1 C2 C3 C4 C5 C6 C7 C8] Ho. constructor; assumption. }
  intros o q q' Ho Hq E. pose proof Hq as [C1 C2 C3 C4 C5 C6 C7 C8].
  destruct o as [|cols|n|n|cols|bs|t|kind t on opt|[f|]|col op v|col l|col l|col o|name b ds|]; cbn [apply_op intact_call] in *.
  - injection E as <-. constructor; assumption.
  - destruct cols as [|c cols]; injection E as <-; [exact Hq|]. constructor; try assumption. destruct (frag_inv _ C3) as (F1 & F2 & F3). cbn [set_selects q_selects].
    apply frag_mk; [exact F1|exact Ho|exact F3].
  - injection E as <-. destruct (0 <? n)%Z; [constructor; assumption|exact Hq].
  - injection E as <-. destruct (0 <? n)%Z; [constructor; assumption|exact Hq].
  - injection E as <-. constructor; try assumption. cbn [set_groups q_groups]. apply frags_added; assumption.
  - injection E as <-. constructor; try assumption. cbn [set_unions q_unions]. apply Forall_app. split; assumption.
  - injection E as <-. unfold qb_from. destruct (is_empty _); [constructor; assumption|]. cbn zeta. apply T; [exact Hq|].
    apply Forall_app. split; [exact C2|]. apply Forall_cons; [|apply Forall_nil]. cbn [ft_frag]. destruct Ho as (P1 & P2 & E1 & E2).
    destruct (plain_tables t P1 P2 E1 E2). apply plain_frag_intact; assumption.
  - unfold qb_join in E. destruct (is_empty _); [injection E as <-; constructor; assumption|]. cbn zeta in E.
    set (q1 := match q_tables q with [] => _ | _ => q end) in E.
    assert (H1 : intact_qb q1).
    { unfold q1. destruct (q_tables q); [|exact Hq]. apply T; [exact Hq|]. apply Forall_app. split; [exact C2|]. apply Forall_cons; [exact Logic.I|apply Forall_nil]. }
    pose proof (it_tables _ H1) as C2'.
    destruct on as [on|]; [|discriminate E]. destruct Ho as (P0 & P1 & P2 & E0 & E1 & E2 & Hon). destruct (plain_tables t P1 P2 E1 E2) as [T1 T2].
    assert (Hf : intact_frag (Ff (join_raw kind t) [BFrag (with_prefix on "ON")])).
    { unfold Ff, join_raw. replace (kind ++ " " ++ table_and_alias t ++ " #f1") with ((kind ++ " " ++ table_and_alias t ++ " ") ++ "#f1" ++ "") by (rewrite !append_assoc; reflexivity).
      apply around_intact; [rewrite !plain_app, P0, T1; reflexivity|reflexivity|reflexivity| |apply en_empty|].
      - apply enclosed_app; [exact E0|]. apply enclosed_app; [enc|]. apply enclosed_app; [exact T2|enc].
      - apply it_frag, reprefix; [enc|]. apply Hon. reflexivity. }
    destruct (assoc _ _); injection E as <-; (apply T; [exact H1|]).
    + apply Forall_upd; [exact C2'|exact Hf].
    + apply Forall_app. split; [exact C2'|]. apply Forall_cons; [exact Hf|apply Forall_nil].
  - injection E as <-. apply A; [exact Hq|]. apply Ho. reflexivity.
  - injection E as <-. exact Hq.
  - injection E as <-. apply A; [exact Hq|]. destruct Ho as (H1 & H2 & H3 & H4). apply it_fragment; [apply compare_parts; assumption|apply Forall_cons; [exact H1|apply Forall_nil]|apply brackets_none].
  - unfold where_in in E. destruct (args_flatted _); try discriminate E. injection E as <-. apply A; [exact Hq|]. apply it_fragment; [apply in_parts; left; reflexivity|apply Forall_cons; [exact Ho|apply Forall_nil]|apply brackets_none].
  - unfold where_in in E. destruct (args_flatted _); try discriminate E. injection E as <-. apply A; [exact Hq|]. apply it_fragment; [apply in_parts; right; reflexivity|apply Forall_cons; [exact Ho|apply Forall_nil]|apply brackets_none].
  - injection E as <-. constructor; try assumption. cbn [set_orders q_orders]. apply Forall_app. split; [assumption|]. apply Forall_cons; [exact Ho|apply Forall_nil].
  - injection E as <-. constructor; try assumption. cbn [set_ctes q_ctes]. apply Forall_app. split; [assumption|]. apply Forall_cons; [exact Ho|apply Forall_nil].
  - injection E as <-. constructor; assumption.
Qed.
Theorem calls_intact : forall os q, Forall intact_call os -> apply_ops os new_qb = ROk q -> intact_qb q.
Proof.
  intros os. assert (G : forall p q, intact_qb p -> Forall intact_call os -> apply_ops os p = ROk q -> intact_qb q).
  { induction os as [|o os IH]; intros p q Hp Hl E; cbn [apply_ops] in E; [injection E as <-; exact Hp|]. inversion Hl as [|? ? Ho Hl']; subst.
    destruct (apply_op o p) as [p'|er|er|] eqn:K; try discriminate E. apply (IH p'); try assumption. eapply call_intact; eassumption. }
  intros q. apply G. apply new_intact.
Qed.
