(** Proofs for Prop_nread.v: the texts of statements of several queries are read
    back. *)
From Coq Require Import Strings.String Strings.Ascii NArith ZArith List Bool Lia.
From Verif Require Import GoStr GoNum Syntax Value Util Model Sqlf Sqlb Spec_syntax Num_proofs RefSem Spec_build
  Spec_util Spec_eval Spec_query Spec_sql Spec_nest Spec_interp Sql_proofs Interp_proofs Sqltok_proofs Read_proofs Spec_sqltok Spec_read Spec_nread.
Import ListNotations.
Open Scope string_scope.
Open Scope list_scope.

(** ** Trees *)
Fixpoint flat1 (x : tree) : list token :=
  match x with Leaf t => [t] | Group l => TOp "(" :: flat_map flat1 l ++ [TOp ")"] end.
Definition flats (l : list tree) : list token := flat_map flat1 l.
Definition bracket (t : token) : bool := op "(" t || op ")" t.
Fixpoint good1 (x : tree) : bool := match x with Leaf t => negb (bracket t) | Group l => forallb good1 l end.
Definition good (l : list tree) : Prop := forallb good1 l = true.
Lemma flats_app : forall a b, flats (a ++ b) = flats a ++ flats b.
Proof. intros a b. apply flat_map_app. Qed.
Lemma outline_app : forall a b, outline (a ++ b) = outline a ++ outline b.
Proof. intros a b. apply map_app. Qed.
Lemma groups_app : forall a b, groups (a ++ b) = groups a ++ groups b.
Proof. intros a b. apply flat_map_app. Qed.
Lemma good_app : forall a b, good a -> good b -> good (a ++ b).
Proof. intros a b H K. unfold good in *. rewrite forallb_app, H, K. reflexivity. Qed.
Lemma pair_list : forall l, Forall (fun x => good1 x = true -> forall r cur up, pair_up (flat1 x ++ r) cur up = pair_up r (x :: cur) up) l ->
  good l -> forall r cur up, pair_up (flats l ++ r) cur up = pair_up r (rev l ++ cur) up.
Proof.
  intros l F. induction F as [|x l H F IH]; intros G r cur up; [reflexivity|].
  unfold good in G. cbn [forallb] in G. apply andb_prop in G. destruct G as [G1 G2].
  change (flats (x :: l)) with (flat1 x ++ flats l). rewrite <- app_assoc, (H G1), (IH G2). cbn [rev]. rewrite <- app_assoc. reflexivity.
Qed.
Lemma pair_tree : forall x, good1 x = true -> forall r cur up, pair_up (flat1 x ++ r) cur up = pair_up r (x :: cur) up.
Proof.
  fix IH 1. intros [t|l] G r cur up.
  - cbn [good1] in G. unfold bracket in G. cbn [flat1 app pair_up]. destruct (op "(" t); [discriminate|]. destruct (op ")" t); [discriminate|]. reflexivity.
  - cbn [good1] in G. cbn [flat1]. rewrite <- app_comm_cons, <- app_assoc. cbn [pair_up].
    change (op "(" (TOp "(")) with true. cbv iota. change (flat_map flat1 l) with (flats l). rewrite pair_list; [|clear -IH; induction l; constructor; [apply IH|assumption]|exact G].
    cbn [app pair_up]. change (op "(" (TOp ")")) with false. change (op ")" (TOp ")")) with true. cbv iota. rewrite app_nil_r, rev_involutive. reflexivity.
Qed.
Lemma pair_flats : forall l, good l -> pair_up (flats l) [] [] = Some l.
Proof.
  intros l G. rewrite <- (app_nil_r (flats l)). rewrite pair_list; [|apply Forall_forall; intros x _; apply pair_tree|exact G].
  cbn [pair_up]. rewrite app_nil_r, rev_involutive. reflexivity.
Qed.
Lemma flats_leaf : forall l, flats (map Leaf l) = l.
Proof. induction l as [|t l IH]; [reflexivity|]. cbn. f_equal. exact IH. Qed.
Lemma outline_leaf : forall l, outline (map Leaf l) = l.
Proof. induction l as [|t l IH]; [reflexivity|]. cbn. f_equal. exact IH. Qed.
Lemma groups_leaf : forall l, groups (map Leaf l) = [].
Proof. induction l as [|t l IH]; [reflexivity|]. exact IH. Qed.
Lemma good_leaf : forall l, quiet bracket l -> good (map Leaf l).
Proof. intros l F. induction F as [|t l H F IH]; [reflexivity|]. unfold good in *. cbn [map forallb good1]. rewrite H, IH. reflexivity. Qed.
Lemma good_join : forall s l, good s -> Forall good l -> good (token_join s l).
Proof.
  intros s l Hs F. destruct F as [|x l Hx F]; [reflexivity|]. cbn [token_join]. apply good_app; [exact Hx|].
  induction F as [|y l Hy F IH]; [reflexivity|]. cbn [map concat]. apply good_app; [apply good_app; assumption|exact IH].
Qed.
Lemma good_concat : forall l, Forall good l -> good (concat l).
Proof. intros l F. induction F as [|x l Hx F IH]; [reflexivity|]. cbn [concat]. apply good_app; assumption. Qed.
Lemma join_hom : forall A D (h : list A -> list D) s l, (forall a b, h (a ++ b) = h a ++ h b) -> h [] = [] -> h (token_join s l) = token_join (h s) (map h l).
Proof.
  intros A D h s l H H0. destruct l as [|x l]; [exact H0|]. cbn [token_join map]. rewrite H. f_equal.
  induction l as [|y l IH]; [exact H0|]. cbn [map concat]. rewrite !H, IH. reflexivity.
Qed.
Lemma list_hom : forall A D (h : list A -> list D) pre s l, (forall a b, h (a ++ b) = h a ++ h b) -> h [] = [] ->
  h (concat (list_toks pre s l)) = concat (list_toks (h pre) (h s) (map h l)).
Proof.
  intros A D h pre s l H H0. destruct l as [|x l]; [exact H0|]. cbn [list_toks concat map]. rewrite !app_nil_r, H, join_hom by assumption. reflexivity.
Qed.
Lemma join_nil : forall A (l : list (list A)), token_join [] l = concat l.
Proof. intros A [|x l]; [reflexivity|]. cbn [token_join app concat]. rewrite map_id. reflexivity. Qed.
Lemma list_nil : forall A (l : list (list A)), concat (list_toks [] [] l) = concat l.
Proof. intros A [|x l]; [reflexivity|]. cbn [list_toks concat app]. rewrite app_nil_r. apply (join_nil A (x :: l)). Qed.
Lemma group_shorter : forall l g, In g (groups l) -> List.length (flats g) < List.length (flats l).
Proof.
  induction l as [|x l IH]; intros g H; [destruct H|]. change (flats (x :: l)) with (flat1 x ++ flats l). rewrite app_length.
  destruct x as [t|g']; [specialize (IH g H); lia|]. destruct H as [<-|H]; [|specialize (IH g H); lia].
  cbn [flat1 List.length]. rewrite app_length. fold (flats g'). lia.
Qed.

(** ** The fixed parts of a query *)
Definition skeleton : list string :=
  ["DISTINCT"; "FROM"; "WHERE"; "GROUP"; "BY"; "ORDER"; "LIMIT"; "OFFSET"; "JOIN"; "INNER"; "LEFT"; "RIGHT"; "FULL"; "ON"; "AS"; "AND"; "ASC"; "DESC"; "NULLS"; "FIRST"; "LAST"].
Definition static (p : token -> bool) : Prop :=
  foreign p /\ (forall w, In w skeleton -> p (TWord w) = false) /\ p (TOp ",") = false /\ p (TOp "=") = false /\ forall d, p (TNum d) = false.
Ltac skel := match goal with H : forall w, In w skeleton -> _ |- _ => apply H; cbn [skeleton In]; tauto end.
Lemma order_word_static : forall p w, static p -> In w order_words -> quiet p (tokens false w).
Proof.
  intros p w (_ & H & _) Hw. cbn [order_words In] in Hw.
  destruct Hw as [<-|[<-|[<-|[<-|[<-|[<-|[]]]]]]]; repeat (constructor; [skel|]); constructor.
Qed.
Lemma select_static : forall p m, static p -> named m -> quiet p (tl (select_toks m)).
Proof.
  intros p m (Hf & H & Hc & _) N. destruct (named_parts m N) as (_ & _ & Hi & _). unfold select_toks, select_words.
  assert (Q : quiet p (token_join [TOp ","] (map item_toks (items m)))).
  { apply quiet_join; [constructor; [exact Hc|constructor]|]. clear -Hf H Hi. induction Hi as [|[c a] l [A B] F IH]; [constructor|]. cbn [map]. constructor; [|exact IH].
    apply quiet_app; [apply col_quiet; assumption|apply as_quiet; [exact Hf|skel|exact B]]. }
  destruct (m_distinct m); [|exact Q]. constructor; [skel|exact Q].
Qed.
Lemma source_static : forall p m, static p -> named m -> quiet p (source_toks m).
Proof.
  intros p m (Hf & H & _ & He & _) N. destruct (named_parts m N) as (Hs & _). destruct N as (_ & _ & Ht & _).
  constructor; [skel|]. apply quiet_app; [apply table_quiet; [exact Hf|skel|exact Ht]|]. apply quiet_concat.
  induction Hs as [|j js K F IH]; [constructor|]. cbn [map]. constructor; [|exact IH].
  constructor; [destruct (j_kind j); cbn [kind_word]; skel|]. apply join_tail_quiet; try assumption; skel.
Qed.
Lemma number_static : forall p w z, static p -> In w skeleton -> Forall (quiet p) (number_toks w z).
Proof.
  intros p w z (_ & H & _ & _ & Hn) Hw. unfold number_toks. destruct (0 <? z)%Z; [|constructor]. constructor; [|constructor].
  constructor; [apply H; exact Hw|]. constructor; [apply Hn|constructor].
Qed.
Lemma list_static : forall p pre s l, quiet p pre -> quiet p s -> Forall (quiet p) l -> Forall (quiet p) (list_toks pre s l).
Proof. intros p pre s l H1 H2 F. destruct l as [|x l]; [constructor|]. constructor; [|constructor]. apply quiet_app; [exact H1|apply quiet_join; assumption]. Qed.
Lemma last_static : forall p m, static p -> named m -> quiet p (concat (last_toks m)).
Proof.
  intros p m St N. pose proof St as (Hf & H & Hc & _ & _). destruct (named_parts m N) as (_ & He & _). destruct N as (_ & _ & _ & _ & _ & Hg & _).
  apply quiet_concat. unfold last_toks. rewrite !Forall_app. split; [|split; [|split]].
  - apply list_static; [repeat (constructor; [skel|]); constructor|constructor; [exact Hc|constructor]|].
    clear -Hg Hf. induction Hg as [|c l K F IH]; [constructor|]. cbn [map]. constructor; [apply col_quiet; assumption|exact IH].
  - apply list_static; [repeat (constructor; [skel|]); constructor|constructor; [exact Hc|constructor]|].
    clear -He St Hf. induction He as [|[i [c o]] l [Kc Ko] F IH]; [constructor|]. cbn [map fst snd] in *. constructor; [|exact IH].
    apply quiet_app; [|apply order_word_static; [exact St|apply order_word_in; exact Ko]]. apply col_quiet; [exact Hf|].
    destruct (m_distinct m); [|exact Kc]. split; [left; reflexivity|right; apply alias_name].
  - apply number_static; [exact St|cbn [skeleton In]; tauto].
  - apply number_static; [exact St|cbn [skeleton In]; tauto].
Qed.
Lemma static_kw : forall k, In k reserved -> ~ In k skeleton -> static (kw k).
Proof.
  intros k H K. split; [apply foreign_kw; exact H|]. split; [|repeat split; reflexivity].
  intros w Hw. cbn [kw]. destruct (String.eqb w k) eqn:E; [|reflexivity]. apply String.eqb_eq in E. subst w. contradiction.
Qed.
Lemma static_union : static (kw "UNION").
Proof. apply static_kw; [reserved_in|cbn [skeleton In]; intuition discriminate]. Qed.
Lemma static_select : static (kw "SELECT").
Proof. apply static_kw; [reserved_in|cbn [skeleton In]; intuition discriminate]. Qed.
Lemma foreign_bracket : foreign bracket.
Proof.
  intros [w|w|w|w|c|w|w] H; try discriminate; try exact Logic.I. unfold bracket in H. apply orb_prop in H. cbn [op] in H.
  destruct H as [H|H]; apply Ascii.eqb_eq in H; subst c; split; discriminate.
Qed.
Lemma static_bracket : static bracket.
Proof. split; [exact foreign_bracket|]. split; [|repeat split; reflexivity]. intros w _. reflexivity. Qed.
Lemma sleepy_bracket : sleepy bracket.
Proof. split; [|repeat split; reflexivity]. intros c H. cbn [In] in H. repeat (destruct H as [<-|H]; [reflexivity|]). destruct H. Qed.
Lemma op_toks_plain : forall p ts, (forall w, p (TWord w) = false) -> (forall c, op_char c = true -> p (TOp c) = false) -> op_toks ts -> quiet p ts.
Proof.
  intros p ts H K [[F _]|(w & -> & _)].
  - induction F as [|t ts (c & -> & Hc & _) F IH]; [constructor|]. constructor; [apply K; exact Hc|exact IH].
  - constructor; [apply H|constructor].
Qed.

(** ** Queries and conditions as trees *)
Definition query_tree (text : string) (q : nreading) (T : list tree) : Prop :=
  lx text (flats T) /\ good T /\ is_query T = true /\ forall n, List.length (flats T) <= n -> read_level n T = Some q.
Definition content_read (g : list tree) (c : content) : Prop :=
  forall n, List.length (flats g) <= n -> read_content (read_level n) g = Some c.
Definition cond_tree (text : string) (x : ncond) (T : list tree) : Prop :=
  lx text (flats T) /\ good T /\
  (forall p, wordy p -> p (TWord "IN") = false -> p (TWord "NOT") = false -> quiet p (outline T)) /\
  exists oc gs, read_ocond (outline T) = Some oc /\ Forall2 content_read (groups T) gs /\
    forall l rest, take_conds (oc :: l) (gs ++ rest) = match take_conds l rest with Some (r, gs) => Some (x :: r, gs) | None => None end.
Lemma query_content : forall text q T, query_tree text q T -> content_read T (inl q).
Proof. intros text q T (_ & _ & Q & R) n L. unfold read_content. rewrite Q, (R n L). reflexivity. Qed.

Lemma follows_ops : forall ts r, op_toks ts -> follows (ts ++ r).
Proof.
  intros ts r [[F N]|(w & -> & _)]; [|exact Logic.I]. destruct F as [|t ts (c & -> & Hc & _) F]; [congruence|]. cbn [app follows]. intros ->. discriminate Hc.
Qed.
(** The operators before a group. *)
Definition group_toks (ts : list token) : Prop :=
  op_toks ts \/ ts = [TWord "IN"] \/ ts = [TWord "NOT"; TWord "IN"] \/ exists os w, ts = os ++ [TWord w] /\ Forall op_tok os /\ os <> [] /\ name w.
Lemma group_follows : forall ts r, group_toks ts -> follows (ts ++ r).
Proof.
  intros ts r [H|[->|[->|(os & w & -> & F & N & _)]]]; [apply follows_ops; exact H|exact Logic.I|exact Logic.I|].
  rewrite <- app_assoc. apply follows_ops. left. auto.
Qed.
Lemma group_plain : forall p ts, (forall w, p (TWord w) = false) -> (forall c, op_char c = true -> p (TOp c) = false) -> group_toks ts -> quiet p ts.
Proof.
  intros p ts H K [G|[->|[->|(os & w & -> & F & N & _)]]]; [apply op_toks_plain; assumption| | |].
  - constructor; [apply H|constructor].
  - constructor; [apply H|]. constructor; [apply H|constructor].
  - apply quiet_app; [apply op_toks_plain; [exact H|exact K|left; auto]|]. constructor; [apply H|constructor].
Qed.
Lemma group_quiet : forall p ts, wordy p -> p (TWord "IN") = false -> p (TWord "NOT") = false -> group_toks ts -> quiet p ts.
Proof.
  intros p ts Hp H K [G|[->|[->|(os & w & -> & F & N & Nw)]]]; [apply op_toks_quiet; assumption| | |].
  - constructor; [exact H|constructor].
  - constructor; [exact K|]. constructor; [exact H|constructor].
  - apply quiet_app; [apply op_toks_quiet; [exact Hp|left; auto]|]. constructor; [|constructor]. apply name_quiet; [apply wordy_foreign; exact Hp|exact Nw].
Qed.
Lemma op_char_bracket : forall c, op_char c = true -> bracket (TOp c) = false.
Proof. intros c H. unfold bracket. cbn [op]. rewrite (op_char_not c "(" H eq_refl), (op_char_not c ")" H eq_refl). reflexivity. Qed.
Lemma op_char_open : forall c, op_char c = true -> op "(" (TOp c) = false.
Proof. intros c H. exact (op_char_not c "(" H eq_refl). Qed.
Lemma col_bracket : forall c, col_named c -> quiet bracket (col_toks c).
Proof. intros c H. apply col_quiet; [exact foreign_bracket|exact H]. Qed.

Definition group_cond (c : col) (o : list token) (g : list tree) : list tree := map Leaf (col_toks c ++ o) ++ [Group g].
Lemma group_cond_flats : forall c o g, flats (group_cond c o g) = col_toks c ++ o ++ TOp "(" :: flats g ++ [TOp ")"].
Proof. intros c o g. unfold group_cond. rewrite flats_app, flats_leaf, <- app_assoc. cbn [flats flat_map flat1]. rewrite app_nil_r. reflexivity. Qed.
Lemma group_cond_outline : forall c o g, outline (group_cond c o g) = col_toks c ++ o ++ [TOp "("].
Proof. intros c o g. unfold group_cond. rewrite outline_app, outline_leaf, <- app_assoc. reflexivity. Qed.
Lemma group_cond_groups : forall c o g, groups (group_cond c o g) = [g].
Proof. intros c o g. unfold group_cond. rewrite groups_app, groups_leaf. reflexivity. Qed.
Lemma group_cond_good : forall c o g, col_named c -> group_toks o -> good g -> good (group_cond c o g).
Proof.
  intros c o g Hc Ho Hg. apply good_app; [apply good_leaf, quiet_app; [apply col_bracket; exact Hc|]|].
  - apply group_plain; [reflexivity|exact op_char_bracket|exact Ho].
  - unfold good in *. cbn [forallb good1]. rewrite Hg. reflexivity.
Qed.
Lemma group_cond_quiet : forall c o g p, col_named c -> group_toks o -> wordy p -> p (TWord "IN") = false -> p (TWord "NOT") = false -> quiet p (outline (group_cond c o g)).
Proof.
  intros c o g p Hc Ho Hp H K. rewrite group_cond_outline. apply quiet_app; [apply col_quiet; [apply wordy_foreign; exact Hp|exact Hc]|].
  apply quiet_app; [apply group_quiet; assumption|]. constructor; [apply wordy_op; exact Hp|constructor].
Qed.
Lemma group_cond_read : forall c o g, col_named c -> group_toks o -> read_ocond (outline (group_cond c o g)) = Some (OGroup c o).
Proof.
  intros c o g Hc Ho. rewrite group_cond_outline. unfold read_ocond. rewrite read_prefix_col; [|exact Hc|apply group_follows; exact Ho].
  rewrite starting_one; [reflexivity| |reflexivity|constructor]. apply group_plain; [reflexivity|exact op_char_open|exact Ho].
Qed.
(** A condition with a subquery. *)
Lemma sub_toks : forall o, sub_operator o -> lv o (tokens false o) /\ starts separates o = true /\ group_toks (tokens false o).
Proof.
  intros o [H|[->|[->|(p & w & -> & P1 & P2 & Nw)]]].
  - destruct (comparison_toks o H) as (A & B & C). split; [exact A|]. split; [exact B|left; exact C].
  - split; [apply lv_text; reflexivity|]. split; [reflexivity|right; left; reflexivity].
  - split; [apply lv_text; reflexivity|]. split; [reflexivity|right; right; left; reflexivity].
  - destruct (comparison_toks p (or_introl (conj P1 P2))) as (A & B & C).
    assert (L : lv (p ++ w ++ " ")%string (tokens false p ++ [TWord w])).
    { apply lv_app; [exact A|]. apply (lxv_app w " " [TWord w] []); [apply lx_word; apply Nw|exact lv_blank|reflexivity]. }
    rewrite (lx_tokens _ _ (lv_is_lx _ _ L)). split; [exact L|]. split; [apply starts_more; exact B|]. right. right. right. exists (tokens false p), w.
    split; [reflexivity|]. destruct (op_feed p P1) as (ts & E & F & M). assert (T : tokens false p = ts) by (rewrite tokens_eq, E; cbn [fst snd finish]; apply app_nil_r).
    rewrite T. split; [exact F|]. split; [apply M; exact P2|exact Nw].
Qed.
Lemma sub_tree : forall c o text q T, col_named c -> sub_operator o -> query_tree text q T ->
  cond_tree (col_text c ++ o ++ "(" ++ text ++ ")")%string (NSub c (tokens false o) q) (group_cond c (tokens false o) T).
Proof.
  intros c o text q T Hc Ho Q. destruct (sub_toks o Ho) as (O1 & O2 & O3). split; [|split; [|split]].
  - rewrite group_cond_flats. apply lx_app; [apply lx_col; exact Hc| |apply starts_more; exact O2]. apply lvx_app; [exact O1|].
    apply lv_is_lx. apply (lv_app "(" _ [TOp "("]); [apply lv_text; reflexivity|]. apply lxv_app; [apply Q|apply lv_text; reflexivity|reflexivity].
  - apply group_cond_good; [exact Hc|exact O3|apply Q].
  - intros p Hp H K. apply group_cond_quiet; assumption.
  - exists (OGroup c (tokens false o)), [inl q]. split; [apply group_cond_read; assumption|]. rewrite group_cond_groups.
    split; [constructor; [eapply query_content; exact Q|constructor]|]. intros l rest. reflexivity.
Qed.
(** A list of values. *)
Definition values_tree (phs : list string) : list tree := map Leaf (token_join [TOp ","] (map (tokens false) phs)).
Lemma values_good : forall phs, Forall operand phs -> good (values_tree phs).
Proof.
  intros phs F. apply good_leaf, quiet_join; [constructor; [reflexivity|constructor]|]. apply operands_quiet; [exact sleepy_bracket|exact F].
Qed.
Lemma values_no_query : forall phs, Forall operand phs -> is_query (values_tree phs) = false.
Proof.
  intros phs F. destruct F as [|x l H F]; [reflexivity|]. unfold values_tree. cbn [map token_join]. destruct (operand_ok x H) as [_ V].
  destruct (tokens false x) as [|t ts] eqn:E; [discriminate V|]. cbn [app map is_query].
  assert (S1 : sleepy (kw "SELECT")) by (apply wordy_sleepy, wordy_kw; reserved_in).
  assert (S2 : sleepy (kw "With")).
  { split; [reflexivity|]. split; [reflexivity|]. split; [reflexivity|]. intros w Hw. cbn [In] in Hw. repeat (destruct Hw as [<-|Hw]; [reflexivity|]). destruct Hw. }
  pose proof (operand_quiet _ _ S1 V) as Q1. pose proof (operand_quiet _ _ S2 V) as Q2. inversion Q1 as [|? ? A _]; subst. inversion Q2 as [|? ? B _]; subst. rewrite A, B. reflexivity.
Qed.
Lemma values_read : forall phs, Forall operand phs -> content_read (values_tree phs) (inr (map (tokens false) phs)).
Proof.
  intros phs F n _. unfold read_content. rewrite (values_no_query phs F). unfold values_tree. rewrite outline_leaf.
  assert (R : read_values (token_join [TOp ","] (map (tokens false) phs)) = Some (map (tokens false) phs)); [|rewrite R; reflexivity].
  destruct phs as [|x l]; [reflexivity|].
  pose proof (pieces_join (op ",") (TOp ",") (map (tokens false) (x :: l)) eq_refl (operands_quiet (op ",") (x :: l) (op_sleepy "," ltac:(cbn; intuition discriminate)) F) ltac:(discriminate)) as P.
  unfold read_values. rewrite P. rewrite (each_ok _ _ read_operand (map (tokens false) (x :: l)) (map (tokens false) (x :: l))).
  - destruct (token_join [TOp ","] (map (tokens false) (x :: l))) eqn:E; [|reflexivity]. exfalso. cbn [map token_join] in E.
    inversion F as [|x' l' Hm _]; subst. apply app_eq_nil in E. destruct E as [E _]. exact (operand_nonempty _ (proj2 (operand_ok x Hm)) E).
  - clear -F. induction F as [|y l0 H F IH]; [constructor|]. cbn [map]. constructor; [apply operand_read, operand_ok; exact H|exact IH].
Qed.
Lemma plain_tree : forall x phs, cond_named x -> Forall operand phs -> List.length phs = List.length (cond_args x) ->
  exists T, cond_tree (cond_text x phs) (NSimple (cond_said x (map (tokens false) phs))) T.
Proof.
  intros x phs N F L. pose proof (lx_cond x phs N F L) as X. pose proof N as [Hc Ho]. destruct x as [c o v|c l|c l]; cbn [cond_col] in Hc.
  - exists (map Leaf (cond_toks (Compare c o v) phs)). destruct (comparison_toks o Ho) as (_ & _ & O).
    cbn [cond_args List.length] in L. destruct phs as [|ph [|z phs]]; try discriminate. inversion F as [|ph' l' Hm _]; subst. destruct (operand_ok ph Hm) as [_ V].
    assert (E : cond_toks (Compare c o v) [ph] = col_toks c ++ tokens false o ++ tokens false ph).
    { unfold cond_toks. cbn [cond_col map concat]. rewrite app_nil_r. reflexivity. }
    split; [rewrite flats_leaf; exact X|]. split; [|split].
    + rewrite E. apply good_leaf, quiet_app; [apply col_bracket; exact Hc|]. apply quiet_app; [|apply operand_quiet; [exact sleepy_bracket|exact V]].
      apply op_toks_plain; [reflexivity|exact op_char_bracket|exact O].
    + intros p Hp H K. rewrite outline_leaf. apply cond_quiet; assumption.
    + exists (OValue c (tokens false o) (tokens false ph)), []. rewrite outline_leaf, groups_leaf, E. split; [|split; [constructor|reflexivity]].
      unfold read_ocond. rewrite read_prefix_col; [|exact Hc|apply follows_ops; exact O]. rewrite starting_quiet.
      * rewrite (comparison_read _ _ O V), (operand_read _ V). reflexivity.
      * apply quiet_app; [apply op_toks_plain; [reflexivity|exact op_char_open|exact O]|]. apply operand_quiet; [apply op_sleepy; cbn; intuition discriminate|exact V].
  - assert (G : group_toks [TWord "IN"]) by (right; left; reflexivity). exists (group_cond c [TWord "IN"] (values_tree phs)). split; [|split; [|split]].
    + rewrite group_cond_flats. unfold values_tree. rewrite flats_leaf. exact X.
    + apply group_cond_good; [exact Hc|exact G|apply values_good; exact F].
    + intros p Hp H K. apply group_cond_quiet; assumption.
    + exists (OGroup c [TWord "IN"]), [inr (map (tokens false) phs)]. split; [apply group_cond_read; assumption|]. rewrite group_cond_groups.
      split; [constructor; [apply values_read; exact F|constructor]|]. reflexivity.
  - assert (G : group_toks [TWord "NOT"; TWord "IN"]) by (right; right; left; reflexivity). exists (group_cond c [TWord "NOT"; TWord "IN"] (values_tree phs)). split; [|split; [|split]].
    + rewrite group_cond_flats. unfold values_tree. rewrite flats_leaf. exact X.
    + apply group_cond_good; [exact Hc|exact G|apply values_good; exact F].
    + intros p Hp H K. apply group_cond_quiet; assumption.
    + exists (OGroup c [TWord "NOT"; TWord "IN"]), [inr (map (tokens false) phs)]. split; [apply group_cond_read; assumption|]. rewrite group_cond_groups.
      split; [constructor; [apply values_read; exact F|constructor]|]. reflexivity.
Qed.

(** ** One level *)
Definition with_tree (p : string * list tree) : list tree := [Leaf (TWord (fst p)); Leaf (TWord "AS"); Group (snd p)].
Definition withs_tree (l : list (string * list tree)) : list tree :=
  concat (list_toks [Leaf (TWord "With")] [Leaf (TOp ",")] (map with_tree l)).
Definition select_tree (m : stmt) (cs : list (list tree)) : list tree :=
  map Leaf (select_toks m ++ source_toks m) ++ concat (list_toks [Leaf (TWord "WHERE")] [Leaf (TWord "AND")] cs) ++ map Leaf (concat (last_toks m)).
Definition union_tree (g : list tree) : list tree := [Leaf (TWord "UNION"); Group g].
Definition level_tree (m : stmt) (ws : list (string * list tree)) (cs us : list (list tree)) : list tree :=
  withs_tree ws ++ select_tree m cs ++ concat (map union_tree us).

Lemma concat_hom : forall A D (h : list A -> list D) l, (forall a b, h (a ++ b) = h a ++ h b) -> h [] = [] -> h (concat l) = concat (map h l).
Proof. intros A D h l H H0. induction l as [|x l IH]; [exact H0|]. cbn [concat map]. rewrite H, IH. reflexivity. Qed.
Lemma select_tree_flats : forall m cs, flats (select_tree m cs) = concat (clause_toks m (map flats cs)).
Proof.
  intros m cs. unfold select_tree. rewrite !flats_app, !flats_leaf, (list_hom _ _ flats) by (apply flats_app || reflexivity).
  unfold clause_toks. rewrite !concat_app. cbn [concat]. rewrite !app_nil_r, <- app_assoc. reflexivity.
Qed.
Lemma select_tree_outline : forall m cs, outline (select_tree m cs) = concat (clause_toks m (map outline cs)).
Proof.
  intros m cs. unfold select_tree. rewrite !outline_app, !outline_leaf, (list_hom _ _ outline) by (apply outline_app || reflexivity).
  unfold clause_toks. rewrite !concat_app. cbn [concat]. rewrite !app_nil_r, <- app_assoc. reflexivity.
Qed.
Lemma select_tree_groups : forall m cs, groups (select_tree m cs) = concat (map groups cs).
Proof.
  intros m cs. unfold select_tree. rewrite !groups_app, !groups_leaf, app_nil_r, (list_hom _ _ groups) by (apply groups_app || reflexivity). apply list_nil.
Qed.
Lemma list_good : forall pre s l, good pre -> good s -> Forall good l -> good (concat (list_toks pre s l)).
Proof. intros pre s l H K F. destruct l as [|x l]; [reflexivity|]. cbn [list_toks concat]. rewrite app_nil_r. apply good_app; [exact H|apply good_join; assumption]. Qed.
Lemma select_head : forall m, exists r, select_toks m = TWord "SELECT" :: r /\ r = tl (select_toks m).
Proof. intros m. exists (tl (select_toks m)). split; [|reflexivity]. unfold select_toks, select_words. destruct (m_distinct m); reflexivity. Qed.
Lemma select_tree_good : forall m cs, named m -> Forall good cs -> good (select_tree m cs).
Proof.
  intros m cs N F. apply good_app; [|apply good_app].
  - apply good_leaf, quiet_app; [|apply source_static; [exact static_bracket|exact N]]. destruct (select_head m) as (r & E & ->). rewrite E.
    constructor; [reflexivity|apply select_static; [exact static_bracket|exact N]].
  - apply list_good; [reflexivity|reflexivity|exact F].
  - apply good_leaf, last_static; [exact static_bracket|exact N].
Qed.
Lemma withs_tree_flats : forall l, flats (withs_tree l) = concat (list_toks [TWord "With"] [TOp ","] (map (fun p => [TWord (fst p); TWord "AS"; TOp "("] ++ flats (snd p) ++ [TOp ")"]) l)).
Proof.
  intros l. unfold withs_tree. rewrite (list_hom _ _ flats) by (apply flats_app || reflexivity). rewrite map_map. f_equal. f_equal.
  apply map_ext. intros [n g]. cbn. rewrite app_nil_r. reflexivity.
Qed.
Lemma withs_tree_outline : forall l, outline (withs_tree l) = concat (list_toks [TWord "With"] [TOp ","] (map (fun p => [TWord (fst p); TWord "AS"; TOp "("]) l)).
Proof. intros l. unfold withs_tree. rewrite (list_hom _ _ outline) by (apply outline_app || reflexivity). rewrite map_map. reflexivity. Qed.
Lemma withs_tree_groups : forall l, groups (withs_tree l) = map snd l.
Proof.
  intros l. unfold withs_tree. rewrite (list_hom _ _ groups) by (apply groups_app || reflexivity). change (groups [Leaf (TWord "With")]) with (@nil (list tree)).
  change (groups [Leaf (TOp ",")]) with (@nil (list tree)). rewrite list_nil, map_map. induction l as [|[n g] l IH]; [reflexivity|]. cbn. f_equal. exact IH.
Qed.
Lemma withs_tree_good : forall l, Forall (fun p => good (snd p)) l -> good (withs_tree l).
Proof.
  intros l F. apply list_good; [reflexivity|reflexivity|]. induction F as [|[n g] l H F IH]; [constructor|]. cbn [map]. constructor; [|exact IH].
  unfold good in *. cbn [with_tree forallb good1 fst snd] in *. rewrite H. reflexivity.
Qed.
Lemma unions_flats : forall l, flats (concat (map union_tree l)) = concat (map (fun g => [TWord "UNION"; TOp "("] ++ flats g ++ [TOp ")"]) l).
Proof. intros l. rewrite (concat_hom _ _ flats) by (apply flats_app || reflexivity). rewrite map_map. f_equal. apply map_ext. intros g. cbn. rewrite app_nil_r. reflexivity. Qed.
Lemma unions_outline : forall l, outline (concat (map union_tree l)) = concat (map (fun _ => [TWord "UNION"; TOp "("]) l).
Proof. intros l. rewrite (concat_hom _ _ outline) by (apply outline_app || reflexivity). rewrite map_map. reflexivity. Qed.
Lemma unions_groups : forall l, groups (concat (map union_tree l)) = l.
Proof. intros l. induction l as [|g l IH]; [reflexivity|]. cbn [map concat]. rewrite groups_app, IH. reflexivity. Qed.
Lemma unions_good : forall l, Forall good l -> good (concat (map union_tree l)).
Proof.
  intros l F. apply good_concat. induction F as [|g l H F IH]; [constructor|]. cbn [map]. constructor; [|exact IH].
  unfold good in *. cbn [union_tree forallb good1]. rewrite H. reflexivity.
Qed.

Lemma withs_read : forall l, Forall (fun p : string * list tree => name (fst p)) l -> read_withs (outline (withs_tree l)) = Some (map fst l).
Proof.
  intros l F. rewrite withs_tree_outline. destruct l as [|p l]; [reflexivity|]. cbn [map list_toks concat]. rewrite app_nil_r. cbn [app read_withs].
  change (kw "With" (TWord "With")) with true. cbv iota.
  assert (Q : Forall (quiet (op ",")) (map (fun p : string * list tree => [TWord (fst p); TWord "AS"; TOp "("]) (p :: l))).
  { apply Forall_forall. intros x Hx. apply in_map_iff in Hx. destruct Hx as (y & <- & _). repeat constructor. }
  pose proof (pieces_join (op ",") (TOp ",") _ eq_refl Q ltac:(discriminate)) as P. cbn [map] in P. rewrite P. clear P Q.
  apply (each_ok _ _ read_with (map (fun p : string * list tree => [TWord (fst p); TWord "AS"; TOp "("]) (p :: l)) (map fst (p :: l))).
  clear F. induction (p :: l) as [|q r IH]; [constructor|]. cbn [map]. constructor; [reflexivity|exact IH].
Qed.
Lemma withs_quiet : forall k l, k = "UNION" \/ k = "SELECT" -> Forall (fun p : string * list tree => name (fst p)) l -> quiet (kw k) (outline (withs_tree l)).
Proof.
  intros k l Hk F. assert (R : In k reserved) by (destruct Hk as [->| ->]; reserved_in).
  rewrite withs_tree_outline. apply quiet_concat, list_static.
  - constructor; [|constructor]. destruct Hk as [->| ->]; reflexivity.
  - repeat constructor.
  - induction F as [|p l H F IH]; [constructor|]. cbn [map]. constructor; [|exact IH].
    constructor; [apply name_quiet; [apply foreign_kw; exact R|exact H]|]. constructor; [destruct Hk as [->| ->]; reflexivity|]. repeat constructor.
Qed.
Lemma take_queries_ok : forall A (l : list A) qs rest, List.length l = List.length qs -> take_queries l (map inl qs ++ rest) = Some (combine l qs, rest).
Proof.
  intros A l. induction l as [|a l IH]; intros [|q qs] rest L; try discriminate; [reflexivity|]. cbn [map app take_queries combine].
  rewrite IH; [reflexivity|]. cbn [List.length] in L. lia.
Qed.
Lemma said_no_conds : forall C m (cs : list C), no_conds (said_by m cs) = said_by m [].
Proof. reflexivity. Qed.
(** What the conditions of a level are read as. *)
Lemma conds_trees : forall ts (ps : list (list tree * ncond)), Forall2 (fun t p => cond_tree t (snd p) (fst p)) ts ps ->
  Forall2 lx ts (map flats (map fst ps)) /\ Forall good (map fst ps) /\
  (forall p, wordy p -> p (TWord "IN") = false -> p (TWord "NOT") = false -> Forall (quiet p) (map outline (map fst ps))) /\
  exists ocs gs, Forall2 (fun x y => read_ocond x = Some y) (map outline (map fst ps)) ocs /\
    Forall2 content_read (concat (map groups (map fst ps))) gs /\
    forall rest, take_conds ocs (gs ++ rest) = Some (map snd ps, rest).
Proof.
  intros ts ps F. induction F as [|t [T x] ts ps (A & B & C & oc & gs & D & E & G) F (IA & IB & IC & ocs & igs & ID & IE & IG)].
  - split; [constructor|]. split; [constructor|]. split; [intros; constructor|]. exists [], []. repeat split; constructor.
  - cbn [fst snd] in *. cbn [map fst snd]. split; [constructor; assumption|]. split; [constructor; assumption|].
    split; [intros p Hp H K; constructor; [apply C; assumption|apply IC; assumption]|].
    exists (oc :: ocs), (gs ++ igs). split; [constructor; assumption|]. split; [cbn [concat]; apply Forall2_app; assumption|].
    intros rest. rewrite <- app_assoc, G, IG. reflexivity.
Qed.
Lemma level : forall x wts (wps : list (list tree * (string * nreading))) cts (cps : list (list tree * ncond)) uts (ups : list (list tree * nreading)),
  named (x_stmt x) -> Forall (fun w => name (w_name w)) (emitted x) ->
  Forall2 (fun t p => query_tree t (snd (snd p)) (fst p)) wts wps -> map (fun p => fst (snd p)) wps = map w_name (emitted x) ->
  Forall2 (fun t p => cond_tree t (snd p) (fst p)) cts cps -> Forall2 (fun t p => query_tree t (snd p) (fst p)) uts ups ->
  exists T, query_tree (xtext x wts cts uts) (NR (map snd wps) (said_by (x_stmt x) []) (map snd cps) (map snd ups)) T.
Proof.
  intros x wts wps cts cps uts ups N Hw W Wn C U. set (m := x_stmt x) in *.
  destruct (conds_trees _ _ C) as (C1 & C2 & C3 & ocs & gs & C4 & C5 & C6).
  set (ws := map (fun p : list tree * (string * nreading) => (fst (snd p), fst p)) wps).
  set (us := map fst ups). set (cs := map fst cps) in *.
  assert (Wname : Forall (fun p : string * list tree => name (fst p)) ws).
  { unfold ws. apply Forall_forall. intros p Hp. apply in_map_iff in Hp. destruct Hp as (q & <- & Hq). cbn [fst].
    assert (I1 : In (fst (snd q)) (map w_name (emitted x))) by (rewrite <- Wn; apply (in_map (fun p => fst (snd p))); exact Hq).
    apply in_map_iff in I1. destruct I1 as (w & <- & Iw). rewrite Forall_forall in Hw. exact (Hw w Iw). }
  assert (Wgood : Forall (fun p : string * list tree => good (snd p)) ws).
  { unfold ws. clear -W. induction W as [|t p l l' (_ & G & _) F IH]; [constructor|]. cbn [map]. constructor; [exact G|exact IH]. }
  assert (Ugood : Forall good us).
  { unfold us. clear -U. induction U as [|t p l l' (_ & G & _) F IH]; [constructor|]. cbn [map]. constructor; [exact G|exact IH]. }
  exists (level_tree m ws cs us). split; [|split; [|split]].
  - unfold level_tree. rewrite !flats_app, withs_tree_flats, select_tree_flats, unions_flats, <- !concat_app.
    assert (X : xtext x wts cts uts = str_join " "
      (list_clause "With" ", " (map (fun wt => w_name (fst wt) ++ " AS (" ++ snd wt ++ ")")%string (combine (emitted x) wts)) ++
       clause_texts m cts ++ map (fun u => "UNION (" ++ u ++ ")")%string uts)).
    { unfold xtext, clause_texts. fold m. rewrite <- !app_assoc. reflexivity. }
    rewrite X. clear X. apply lx_list.
    + apply Forall2_app; [|apply Forall2_app].
      * apply list_clause_lx; [apply lx_word; reflexivity|exact lv_comma|reflexivity|].
        unfold ws. rewrite map_map. cbn [fst snd]. clear -W Wn Hw. revert wts wps W Wn. induction (emitted x) as [|w l IH]; intros wts wps W Wn.
        -- destruct wps; [|discriminate]. destruct wts; constructor.
        -- destruct wps as [|p wps]; [discriminate|]. inversion W as [|t ? wts' ? Q W']; subst. cbn [map] in Wn. injection Wn as E1 E2.
           inversion Hw as [|? ? Nw Hw']; subst. cbn [combine map fst snd]. constructor; [|apply IH; assumption].
           rewrite E1. change ([TWord (w_name w); TWord "AS"; TOp "("] ++ flats (fst p) ++ [TOp ")"]) with ([TWord (w_name w)] ++ [TWord "AS"; TOp "("] ++ flats (fst p) ++ [TOp ")"]).
           apply lx_app; [apply lx_word; apply Nw| |reflexivity]. apply lv_is_lx. apply (lv_app " AS (" _ [TWord "AS"; TOp "("]); [apply lv_text; reflexivity|].
           apply lxv_app; [apply Q|apply lv_text; reflexivity|reflexivity].
      * apply clauses_lx; [exact N|exact C1].
      * unfold us. rewrite map_map. clear -U. induction U as [|t p l l' Q F IH]; [constructor|]. cbn [map]. constructor; [|exact IH].
        apply lv_is_lx. apply (lv_app "UNION (" _ [TWord "UNION"; TOp "("]); [apply lv_text; reflexivity|].
        apply lxv_app; [apply Q|apply lv_text; reflexivity|reflexivity].
    + intros E. apply app_eq_nil in E. destruct E as [_ E]. apply app_eq_nil in E. destruct E as [E _]. unfold clause_texts in E.
      apply app_eq_nil in E. destruct E as [E _]. destruct N as (Nc & _). destruct (m_cols m); [congruence|discriminate].
  - apply good_app; [apply withs_tree_good; exact Wgood|]. apply good_app; [apply select_tree_good; assumption|apply unions_good; exact Ugood].
  - unfold level_tree, withs_tree. destruct ws as [|p ws']; [|reflexivity]. cbn [map list_toks concat app]. unfold select_tree.
    destruct (select_head m) as (r & E & _). rewrite E. reflexivity.
  - intros n L. assert (Q : exists n', n = Datatypes.S n' /\ forall g, In g (groups (level_tree m ws cs us)) -> List.length (flats g) <= n').
    { destruct n as [|n']; [|exists n'; split; [reflexivity|intros g Hg; apply group_shorter in Hg; lia]].
      exfalso. unfold level_tree in L. rewrite !flats_app, !app_length, select_tree_flats in L. destruct (select_head m) as (r & E & _).
      unfold clause_toks in L. cbn [app concat] in L. rewrite E in L. cbn [app List.length] in L. lia. }
    destruct Q as (n' & -> & Ln). cbn [read_level].
    assert (G : each (read_content (read_level n')) (groups (level_tree m ws cs us)) =
                Some (map inl (map (fun p => snd (snd p)) wps) ++ gs ++ map inl (map snd ups) ++ [])).
    { apply each_ok. rewrite app_nil_r.
      assert (K : Forall2 content_read (groups (level_tree m ws cs us)) (map inl (map (fun p => snd (snd p)) wps) ++ gs ++ map inl (map snd ups))).
      { unfold level_tree. rewrite !groups_app, withs_tree_groups, select_tree_groups, unions_groups. apply Forall2_app; [|apply Forall2_app].
        - unfold ws. rewrite !map_map. cbn [snd]. clear -W. induction W as [|t p l l' H F IH]; [constructor|]. cbn [map]. constructor; [eapply query_content; exact H|exact IH].
        - exact C5.
        - unfold us. rewrite map_map. clear -U. induction U as [|t p l l' H F IH]; [constructor|]. cbn [map]. constructor; [eapply query_content; exact H|exact IH]. }
      clear -K Ln. induction K as [|g c l l' H F IH]; [constructor|]. constructor; [apply H, Ln; left; reflexivity|apply IH; intros g' Hg; apply Ln; right; exact Hg]. }
    rewrite G. clear G.
    assert (O : read_outline (outline (level_tree m ws cs us)) = Some (map fst ws, said_by m ocs, map (fun _ => tt) us)).
    { unfold read_outline, level_tree. rewrite !outline_app, unions_outline, app_assoc.
      assert (Sq : forall k, k = "UNION" \/ k = "SELECT" -> quiet (kw k) (tl (outline (select_tree m cs)))).
      { intros k Hk. assert (St : static (kw k)) by (destruct Hk as [->| ->]; [exact static_union|exact static_select]).
        assert (Wk : wordy (kw k)) by (apply wordy_kw; destruct Hk as [->| ->]; reserved_in).
        assert (Kw : forall w, k <> w -> kw k (TWord w) = false) by (intros w Hn; cbn [kw]; apply String.eqb_neq; congruence).
        rewrite select_tree_outline. unfold clause_toks. destruct (select_head m) as (r & E & ->). cbn [app concat]. rewrite E. cbn [app tl].
        apply quiet_app; [apply select_static; assumption|]. apply quiet_app; [apply source_static; assumption|]. rewrite concat_app.
        apply quiet_app; [|apply last_static; assumption]. apply quiet_concat. unfold where_toks. apply list_static.
        - constructor; [apply Kw; destruct Hk as [->| ->]; discriminate|constructor].
        - constructor; [apply Kw; destruct Hk as [->| ->]; discriminate|constructor].
        - apply C3; [exact Wk| |]; apply Kw; destruct Hk as [->| ->]; discriminate. }
      assert (H0 : outline (select_tree m cs) = TWord "SELECT" :: tl (outline (select_tree m cs))).
      { rewrite select_tree_outline. unfold clause_toks. destruct (select_head m) as (r & E & _). cbn [app concat]. rewrite E. reflexivity. }
      rewrite starting_concat.
      - rewrite H0. rewrite starting_one; [|apply withs_quiet; [right; reflexivity|exact Wname]|reflexivity|apply Sq; right; reflexivity].
        rewrite <- H0, (withs_read ws Wname), select_tree_outline.
        rewrite (clauses_read _ read_ocond m (map outline cs) ocs N C4 (C3 _ wordy_clauses eq_refl eq_refl) (C3 _ wordy_and eq_refl eq_refl)).
        rewrite (each_ok _ _ read_union (map (fun _ : list tree => [TWord "UNION"; TOp "("]) us) (map (fun _ => tt) us)); [reflexivity|].
        clear. induction us as [|u us IH]; [constructor|]. cbn [map]. constructor; [reflexivity|exact IH].
      - apply quiet_app; [apply withs_quiet; [left; reflexivity|exact Wname]|]. rewrite H0. constructor; [reflexivity|]. apply Sq. left. reflexivity.
      - apply Forall_forall. intros l Hl. apply in_map_iff in Hl. destruct Hl as (g & <- & _). exists (TWord "UNION"), [TOp "("]. split; [reflexivity|]. split; [reflexivity|repeat constructor]. }
    rewrite O. unfold assemble. rewrite take_queries_ok by (unfold ws; rewrite !map_length; reflexivity).
    change (r_conds (said_by m ocs)) with ocs. rewrite C6. rewrite take_queries_ok by (unfold us; rewrite !map_length; reflexivity).
    rewrite said_no_conds. f_equal. f_equal.
    + unfold ws. rewrite map_map. cbn [fst]. clear. induction wps as [|[T [a b]] l IH]; [reflexivity|]. cbn. f_equal. exact IH.
    + unfold us. rewrite map_map. clear. induction ups as [|[T q] l IH]; [reflexivity|]. cbn. f_equal. exact IH.
Qed.

(** ** Statements *)
Lemma share_trees : forall A C (args : A -> list value) text (f : A -> list (list token) -> C) (P : string -> C -> list tree -> Prop) l phs,
  (forall a phs, In a l -> Forall operand phs -> List.length phs = List.length (args a) -> exists T, P (text a phs) (f a (map (tokens false) phs)) T) ->
  Forall operand phs -> List.length phs = List.length (flat_map args l) ->
  exists ps : list (list tree * C), Forall2 (fun t p => P t (snd p) (fst p)) (share args text l phs) ps /\ map snd ps = share_said args f l (map (tokens false) phs).
Proof.
  intros A C args text f P l. induction l as [|a l IH]; intros phs H F L; [exists []; split; [constructor|reflexivity]|].
  cbn [flat_map] in L. rewrite app_length in L. destruct (marks_split _ phs _ F L) as (F1 & L1 & F2 & L2).
  destruct (H a _ (or_introl eq_refl) F1 L1) as (T & HT). destruct (IH _ (fun b q Hb => H b q (or_intror Hb)) F2 L2) as (ps & Hp & Es).
  exists ((T, f a (map (tokens false) (firstn (List.length (args a)) phs))) :: ps). cbn [share share_said map snd fst]. split; [constructor; assumption|].
  rewrite firstn_map, skipn_map, Es. reflexivity.
Qed.
Lemma share_names : forall A (args : A -> list value) (g : A -> string) (f : A -> list (list token) -> nreading) l phs,
  map fst (share_said args (fun a phs => (g a, f a phs)) l phs) = map g l.
Proof. intros A args g f l. induction l as [|a l IH]; intros phs; [reflexivity|]. cbn [share_said map fst]. rewrite IH. reflexivity. Qed.
Theorem statement_tree : forall B, Forall xnamed B -> forall d id phs, complete B d id -> Forall operand phs -> List.length phs = List.length (args_of B d id) ->
  exists T, query_tree (text_of B d id phs) (statement_said B d id (map (tokens false) phs)) T.
Proof.
  intros B HB. induction d as [|d IH]; intros id phs Hc F L; [destruct Hc|].
  cbn [complete args_of text_of statement_said] in *. destruct (nth_error B id) as [x|] eqn:E; [|destruct Hc].
  assert (Nx : xnamed x) by (rewrite Forall_forall in HB; apply HB; eapply nth_error_In; exact E). destruct Nx as (Nm & _ & Nw & Nc).
  rewrite !app_length in L. set (nw := List.length (flat_map (fun w => args_of B d (w_id w)) (emitted x))) in *.
  set (nc := List.length (flat_map (xcond_args (args_of B d)) (x_conds x))) in *.
  destruct (marks_split nw phs _ F L) as (F1 & L1 & F' & L'). destruct (marks_split nc _ _ F' L') as (F2 & L2 & F3 & L3).
  destruct (share_trees _ _ (fun w => args_of B d (w_id w)) (fun w => text_of B d (w_id w)) (fun w phs => (w_name w, statement_said B d (w_id w) phs))
              (fun t c T => query_tree t (snd c) T) (emitted x) _ (fun w q Hw Fq Lq => IH (w_id w) q (Hc _ (in_or_app _ _ _ (or_introl (in_map w_id _ _ Hw)))) Fq Lq) F1 L1) as (wps & W1 & W2).
  destruct (share_trees _ _ (xcond_args (args_of B d)) (xcond_text (text_of B d)) (xcond_said (statement_said B d)) cond_tree (x_conds x) (firstn nc (skipn nw phs))) as (cps & C1 & C2).
  { intros c q Hcin Fq Lq. rewrite Forall_forall in Nc. specialize (Nc c Hcin). destruct c as [c|c o i]; [apply plain_tree; assumption|]. destruct Nc as [Ncol Nop].
    destruct (IH i q) as (T & HT); [|exact Fq|exact Lq|].
    - apply Hc. unfold refs. apply in_or_app. right. apply in_or_app. left. apply in_flat_map. exists (Sub c o i). split; [exact Hcin|left; reflexivity].
    - exists (group_cond c (tokens false o) T). apply sub_tree; assumption. }
  { exact F2. } { exact L2. }
  destruct (share_trees _ _ (args_of B d) (text_of B d) (statement_said B d) query_tree (x_unions x) (skipn nc (skipn nw phs))) as (ups & U1 & U2).
  { intros u q Hu Fq Lq. apply IH; [|exact Fq|exact Lq]. apply Hc. unfold refs. apply in_or_app. right. apply in_or_app. right. exact Hu. }
  { exact F3. } { exact L3. }
  rewrite firstn_map, skipn_map, firstn_map, skipn_map, <- W2, <- C2, <- U2.
  apply level; try assumption.
  - rewrite Forall_forall in Nw |- *. intros w Hw. apply Nw. unfold emitted in Hw. apply filter_In in Hw. apply Hw.
  - rewrite <- (map_map snd fst), W2. apply share_names.
Qed.
Theorem read_text : forall B d id phs, Forall xnamed B -> complete B d id -> Forall operand phs -> List.length phs = List.length (args_of B d id) ->
  read_statement (tokens false (text_of B d id phs)) = Some (statement_said B d id (map (tokens false) phs)).
Proof.
  intros B d id phs HB Hc F L. destruct (statement_tree B HB d id phs Hc F L) as (T & X & G & _ & R).
  rewrite (lx_tokens _ _ X). unfold read_statement. rewrite (pair_flats T G). apply R. lia.
Qed.
