(** Proofs for Prop_read.v: the text of a statement is read as what it says. *)
From Coq Require Import Strings.String Strings.Ascii NArith ZArith List Bool Lia.
From Verif Require Import GoStr GoNum Syntax Value Util Model Sqlf Sqlb Spec_syntax Lex_proofs Grammar_proofs Base_proofs Num_proofs Spec_util
  Spec_eval Spec_query Spec_sql Sqltok_proofs Spec_sqltok Spec_read.
Import ListNotations.
Open Scope string_scope.
Open Scope list_scope.

(** ** Tokens of composed texts *)
Definition lv (s : string) (ts : list token) : Prop := forall r, tokens false (s ++ r)%string = ts ++ tokens false r.
Definition lx (s : string) (ts : list token) : Prop :=
  forall r, (r = ""%string \/ starts separates r = true) -> tokens false (s ++ r)%string = ts ++ tokens false r.
Lemma lv_is_lx : forall s ts, lv s ts -> lx s ts.
Proof. intros s ts H r _. apply H. Qed.
Lemma lv_app : forall a b ts us, lv a ts -> lv b us -> lv (a ++ b)%string (ts ++ us).
Proof. intros a b ts us H K r. rewrite append_assoc, H, K, app_assoc. reflexivity. Qed.
Lemma lvx_app : forall a b ts us, lv a ts -> lx b us -> lx (a ++ b)%string (ts ++ us).
Proof. intros a b ts us H K r R. rewrite append_assoc, H, K, app_assoc by exact R. reflexivity. Qed.
Lemma starts_more : forall f a b, starts f a = true -> starts f (a ++ b)%string = true.
Proof. intros f [|c a] b H; [discriminate|exact H]. Qed.
Lemma lx_app : forall a b ts us, lx a ts -> lx b us -> starts separates b = true -> lx (a ++ b)%string (ts ++ us).
Proof. intros a b ts us H K S r R. rewrite append_assoc, H by (right; apply starts_more; exact S). rewrite K, app_assoc by exact R. reflexivity. Qed.
Lemma lxv_app : forall a b ts us, lx a ts -> lv b us -> starts separates b = true -> lv (a ++ b)%string (ts ++ us).
Proof. intros a b ts us H K S r. rewrite append_assoc, H by (right; apply starts_more; exact S). rewrite K, app_assoc. reflexivity. Qed.
Lemma lv_text : forall s ts, leaves false s -> tokens false s = ts -> lv s ts.
Proof. intros s ts H E r. rewrite tokens_leaves by exact H. rewrite E. reflexivity. Qed.
Lemma lx_tokens : forall s ts, lx s ts -> tokens false s = ts.
Proof. intros s ts H. specialize (H ""%string (or_introl eq_refl)). rewrite append_nil_r in H. rewrite H. apply app_nil_r. Qed.
Lemma feed_word : forall s a, all in_word s = true -> feed false (InWord a) s = (InWord (a ++ s)%string, []).
Proof.
  induction s as [|c s IH]; intros a H; [cbn [feed]; rewrite append_nil_r; reflexivity|].
  cbn [all] in H. apply andb_prop in H. destruct H as [Hc H]. cbn [feed step]. rewrite Hc, (IH _ H), snoc_app. reflexivity.
Qed.
Lemma letter_begin : forall c, is_letter c = true -> begin c = (InWord (String c ""), []).
Proof.
  intros c H. unfold begin. rewrite H. assert (B : is_blank c = false); [|rewrite B; reflexivity].
  destruct c as [[] [] [] [] [] [] [] []]; try discriminate H; reflexivity.
Qed.
Lemma word_fed : forall s, starts is_letter s = true -> all in_word s = true -> feed false Between s = (InWord s, []).
Proof.
  intros [|c s] H A; [discriminate|]. cbn [starts] in H. cbn [all] in A. apply andb_prop in A. destruct A as [_ A].
  cbn [feed step]. rewrite (letter_begin c H), (feed_word s _ A). reflexivity.
Qed.
Lemma lx_word : forall s, starts is_letter s = true -> all in_word s = true -> lx s [TWord s].
Proof.
  intros s H A r R. apply reads_text; [|exact R]. apply (reads_by false s (InWord s) [] [TWord s]); [apply word_fed; assumption|apply settles_word].
Qed.
Lemma word_dot : forall s r, starts is_letter s = true -> all in_word s = true ->
  tokens false (s ++ "." ++ r)%string = [TWord s; TOp "."] ++ tokens false r.
Proof.
  intros s r H A. rewrite !tokens_eq, feed_app, (word_fed s H A). cbn [fst snd append feed step].
  change (in_word ".") with false. cbv iota. unfold after. change (begin ".") with (Between, [TOp "."]). cbn [fst snd].
  destruct (feed false Between r) as [p ts]. reflexivity.
Qed.
Lemma lx_digits : forall d, starts is_digit d = true -> all is_digit d = true -> lx d [TNum d].
Proof.
  intros d H A r R. apply reads_text; [|exact R]. apply (reads_num false false d H).
  eapply all_impl; [exact digit_num|exact A].
Qed.
Lemma lx_space : forall a b ts us, lx a ts -> lx b us -> lx (a ++ " " ++ b)%string (ts ++ us).
Proof. intros a b ts us H K. apply lx_app; [exact H| |reflexivity]. apply (lvx_app " " b [] us); [apply lv_text; reflexivity|exact K]. Qed.
Definition token_join {A} (sep : list A) (l : list (list A)) : list A :=
  match l with [] => [] | x :: l' => x ++ concat (map (fun y => sep ++ y) l') end.
Lemma lx_join : forall sep seps l ts, lv sep seps -> starts separates sep = true -> Forall2 lx l ts -> l <> [] ->
  lx (str_join sep l) (token_join seps ts).
Proof.
  intros sep seps l ts Hs Hp F. induction F as [|x t l ts H F IH]; [congruence|]. intros _.
  destruct F as [|y u l ts K F].
  - cbn [str_join token_join map concat]. rewrite app_nil_r. exact H.
  - change (str_join sep (x :: y :: l)) with (x ++ sep ++ str_join sep (y :: l))%string.
    cbn [token_join map concat]. rewrite <- (app_assoc seps u).
    apply lx_app; [exact H| |apply starts_more; exact Hp]. apply lvx_app; [exact Hs|]. apply IH. discriminate.
Qed.
Lemma lv_comma : lv ", " [TOp ","].
Proof. apply lv_text; reflexivity. Qed.
Lemma lv_and : lv " AND " [TWord "AND"].
Proof. apply lv_text; reflexivity. Qed.
Lemma lv_blank : lv " " [].
Proof. apply lv_text; reflexivity. Qed.

(** ** Names, columns, tables *)
Definition name_tok (s : string) : token := if String.eqb s "*" then TOp "*" else TWord s.
Definition col_toks (c : col) : list token := (if is_empty (fst c) then [] else [TWord (fst c); TOp "."]) ++ [name_tok (snd c)].
Definition as_toks (a : string) : list token := if is_empty a then [] else [TWord "AS"; TWord a].
Definition table_toks (t : tname) : list token := TWord (fst t) :: as_toks (snd t).
Lemma name_star : forall s, name s -> String.eqb s "*" = false.
Proof. intros s (H & _ & _). destruct (String.eqb s "*") eqn:E; [|reflexivity]. apply String.eqb_eq in E. subst s. discriminate H. Qed.
Lemma name_nonempty : forall s, name s -> is_empty s = false.
Proof. intros [|c s] (H & _ & _); [discriminate|reflexivity]. Qed.
Lemma lx_name : forall s, s = "*" \/ name s -> lx s [name_tok s].
Proof.
  intros s [->|H]; [apply lv_is_lx, lv_text; reflexivity|]. unfold name_tok. rewrite (name_star s H). destruct H as (H & A & _). apply lx_word; assumption.
Qed.
Lemma lx_col : forall c, col_named c -> lx (col_text c) (col_toks c).
Proof.
  intros [t n] [Ht Hn]. cbn [fst snd] in Ht, Hn. unfold col_text, col_toks. cbn [fst snd]. destruct Ht as [->|Ht]; [apply lx_name; exact Hn|].
  rewrite (name_nonempty t Ht). intros r R. rewrite !append_assoc. rewrite word_dot by apply Ht. rewrite (lx_name n Hn r R). reflexivity.
Qed.
Lemma lx_as : forall s ts a, lx s ts -> name a -> lx (s ++ " AS " ++ a)%string (ts ++ [TWord "AS"; TWord a]).
Proof.
  intros s ts a H (Ha & A & _). apply lx_app; [exact H| |reflexivity]. apply (lvx_app " AS " a [TWord "AS"] [TWord a]); [apply lv_text; reflexivity|apply lx_word; assumption].
Qed.
Lemma lx_table : forall t, table_named t -> lx (table_text t) (table_toks t).
Proof.
  intros [t a] [Ht Ha]. cbn [fst snd] in Ht, Ha. unfold table_text, table_toks, as_toks. cbn [fst snd]. destruct Ha as [->|Ha].
  - apply lx_word; apply Ht.
  - rewrite (name_nonempty a Ha). apply (lx_as t [TWord t] a); [apply lx_word; apply Ht|exact Ha].
Qed.

(** ** Pieces *)
Definition quiet (p : token -> bool) (l : list token) : Prop := Forall (fun t => p t = false) l.
Definition headed (p : token -> bool) (l : list token) : Prop := exists t r, l = t :: r /\ p t = true /\ quiet p r.
Lemma quiet_app : forall p a b, quiet p a -> quiet p b -> quiet p (a ++ b).
Proof. intros p a b H K. apply Forall_app. split; assumption. Qed.
Lemma starting_concat : forall p a ls, quiet p a -> Forall (headed p) ls -> starting p (a ++ concat ls) = (a, ls).
Proof.
  intros p a ls Ha F. revert a Ha. induction F as [|l ls (t & r & -> & Ht & Hr) F IH]; intros a Ha.
  - cbn [concat]. rewrite app_nil_r. induction Ha as [|x a Hx Ha IH]; [reflexivity|]. cbn [starting]. rewrite IH, Hx. reflexivity.
  - induction Ha as [|x a Hx Ha IHa].
    + cbn [concat app starting]. rewrite (IH r Hr), Ht. reflexivity.
    + cbn [app starting]. rewrite IHa, Hx. reflexivity.
Qed.
Lemma starting_quiet : forall p a, quiet p a -> starting p a = (a, []).
Proof. intros p a H. rewrite <- (app_nil_r a) at 1. apply (starting_concat p a []); [exact H|constructor]. Qed.
Lemma starting_one : forall p a t r, quiet p a -> p t = true -> quiet p r -> starting p (a ++ t :: r) = (a, [t :: r]).
Proof.
  intros p a t r Ha Ht Hr. rewrite <- (app_nil_r (t :: r)) at 1. apply (starting_concat p a [t :: r]); [exact Ha|].
  constructor; [|constructor]. exists t, r. auto.
Qed.
Lemma pieces_join : forall p s l, p s = true -> Forall (quiet p) l -> l <> [] -> pieces p (token_join [s] l) = l.
Proof.
  intros p s l Hs F N. destruct F as [|x l Hx F]; [congruence|]. cbn [token_join]. unfold pieces.
  rewrite (starting_concat p x (map (fun y => [s] ++ y) l) Hx).
  - f_equal. rewrite map_map. cbn [app tl]. apply map_id.
  - clear -Hs F. induction F as [|y l Hy F IH]; [constructor|]. constructor; [|exact IH]. exists s, y. auto.
Qed.
Lemma each_ok : forall X A (f : X -> option A) l rs, Forall2 (fun x y => f x = Some y) l rs -> each f l = Some rs.
Proof. intros X A f l rs F. induction F as [|x y l rs H F IH]; [reflexivity|]. cbn [each]. rewrite H, IH. reflexivity. Qed.
Lemma quiet_join : forall p s l, quiet p s -> Forall (quiet p) l -> quiet p (token_join s l).
Proof.
  intros p s l Hs F. destruct F as [|x l Hx F]; [constructor|]. cbn [token_join]. apply quiet_app; [exact Hx|].
  induction F as [|y l Hy F IH]; [constructor|]. cbn [map concat]. apply quiet_app; [apply quiet_app; assumption|exact IH].
Qed.
Lemma quiet_concat : forall p l, Forall (quiet p) l -> quiet p (concat l).
Proof. intros p l F. induction F as [|x l Hx F IH]; [constructor|]. cbn [concat]. apply quiet_app; assumption. Qed.

(** Marks that do not occur in names. *)
Definition foreign (p : token -> bool) : Prop :=
  forall t, p t = true -> match t with TWord k => In k reserved | TOp c => c <> "."%char /\ c <> "*"%char | _ => True end.
Lemma name_quiet : forall p s, foreign p -> name s -> p (TWord s) = false.
Proof. intros p s Hp (_ & _ & H). destruct (p (TWord s)) eqn:E; [|reflexivity]. destruct (H (Hp _ E)). Qed.
Lemma foreign_op : forall p c, foreign p -> c = "."%char \/ c = "*"%char -> p (TOp c) = false.
Proof. intros p c Hp H. destruct (p (TOp c)) eqn:E; [|reflexivity]. destruct (Hp _ E) as [A B]. destruct H; contradiction. Qed.
Lemma tok_quiet : forall p s, foreign p -> s = "*" \/ name s -> p (name_tok s) = false.
Proof.
  intros p s Hp [->|H]; [apply foreign_op; auto|]. unfold name_tok. rewrite (name_star s H). apply name_quiet; assumption.
Qed.
Lemma col_quiet : forall p c, foreign p -> col_named c -> quiet p (col_toks c).
Proof.
  intros p [t n] Hp [Ht Hn]. cbn [fst snd] in Ht, Hn. unfold col_toks. cbn [fst snd]. apply quiet_app.
  - destruct Ht as [->|Ht]; [constructor|]. rewrite (name_nonempty t Ht). constructor; [apply name_quiet; assumption|]. constructor; [apply foreign_op; auto|constructor].
  - constructor; [apply tok_quiet; assumption|constructor].
Qed.
Lemma foreign_kw : forall k, In k reserved -> foreign (kw k).
Proof. intros k Hk [w|w|w|w|c|w|w] H; try exact Logic.I; try discriminate. cbn [kw] in H. apply String.eqb_eq in H. subst w. exact Hk. Qed.
Lemma foreign_o : forall c, c <> "."%char -> c <> "*"%char -> foreign (op c).
Proof. intros c H1 H2 [w|w|w|w|x|w|w] H; try exact Logic.I; try discriminate. cbn [op] in H. apply Ascii.eqb_eq in H. subst x. auto. Qed.
Lemma foreign_any : forall ps, Forall foreign ps -> foreign (any_of ps).
Proof.
  intros ps F t H. unfold any_of in H. apply existsb_exists in H. destruct H as (p & Hp & H). rewrite Forall_forall in F. exact (F p Hp t H).
Qed.
Ltac reserved_in := cbn [reserved In]; tauto.
Lemma foreign_clauses : foreign (any_of clauses).
Proof. apply foreign_any. repeat (constructor; [apply foreign_kw; reserved_in|]). constructor. Qed.
Lemma foreign_kinds : foreign (any_of kinds).
Proof. apply foreign_any. repeat (constructor; [apply foreign_kw; reserved_in|]). constructor. Qed.
Lemma foreign_comma : foreign (op ",").
Proof. apply foreign_o; discriminate. Qed.
Lemma foreign_eq : foreign (op "=").
Proof. apply foreign_o; discriminate. Qed.
Lemma foreign_and : foreign (kw "AND").
Proof. apply foreign_kw. reserved_in. Qed.
Lemma foreign_on : foreign (kw "ON").
Proof. apply foreign_kw. reserved_in. Qed.
Lemma as_quiet : forall p a, foreign p -> p (TWord "AS") = false -> a = "" \/ name a -> quiet p (as_toks a).
Proof.
  intros p a Hp H [->|Ha]; [constructor|]. unfold as_toks. rewrite (name_nonempty a Ha). constructor; [exact H|]. constructor; [apply name_quiet; assumption|constructor].
Qed.
Lemma table_quiet : forall p t, foreign p -> p (TWord "AS") = false -> table_named t -> quiet p (table_toks t).
Proof. intros p t Hp H [Ht Ha]. constructor; [apply name_quiet; assumption|apply as_quiet; assumption]. Qed.

(** ** Reading columns and tables *)
Lemma read_name_tok : forall s, s = "*" \/ name s -> read_name (name_tok s) = Some s.
Proof. intros s [->|H]; [reflexivity|]. unfold name_tok. rewrite (name_star s H). reflexivity. Qed.
(** What may follow a column. *)
Definition follows (r : list token) : Prop := match r with TOp c :: _ => c <> "."%char | _ => True end.
Lemma read_prefix_col : forall c r, col_named c -> follows r -> read_prefix (col_toks c ++ r) = Some (c, r).
Proof.
  intros [t n] r [Ht Hn] F. cbn [fst snd] in Ht, Hn. unfold col_toks. cbn [fst snd]. destruct Ht as [->|Ht].
  - cbn [is_empty app]. destruct Hn as [->|Hn]; [reflexivity|]. unfold name_tok. rewrite (name_star n Hn). cbn [read_prefix].
    destruct r as [|[w|w|w|w|c|w|w] [|y r]]; try reflexivity. cbn [follows] in F. apply Ascii.eqb_neq in F. rewrite F. reflexivity.
  - rewrite (name_nonempty t Ht). cbn [app read_prefix]. change (Ascii.eqb "." ".") with true. cbv iota. rewrite (read_name_tok n Hn). reflexivity.
Qed.
Lemma read_col_ok : forall c, col_named c -> read_col (col_toks c) = Some c.
Proof. intros c H. unfold read_col. rewrite <- (app_nil_r (col_toks c)), (read_prefix_col c [] H Logic.I). reflexivity. Qed.
Lemma read_item_ok : forall c a, col_named c -> (a = "" \/ name a) -> read_item (col_toks c ++ as_toks a) = Some (c, a).
Proof.
  intros c a H Ha. unfold read_item. destruct Ha as [->|Ha].
  - change (as_toks "") with (@nil token). rewrite (read_prefix_col c [] H Logic.I). reflexivity.
  - unfold as_toks. rewrite (name_nonempty a Ha). rewrite (read_prefix_col c [TWord "AS"; TWord a] H Logic.I). reflexivity.
Qed.
Lemma read_table_ok : forall t, table_named t -> read_table (table_toks t) = Some t.
Proof.
  intros [t a] [Ht [Ha|Ha]]; cbn [fst snd] in *; unfold table_toks, as_toks; cbn [fst snd]; [subst a; reflexivity|].
  rewrite (name_nonempty a Ha). reflexivity.
Qed.

(** ** Joins *)
Definition join_named (j : join) : Prop := table_named (j_table j) /\ col_named (j_left j) /\ col_named (j_right j).
Definition join_toks (j : join) : list token :=
  TWord (kind_word (j_kind j)) :: TWord "JOIN" :: table_toks (j_table j) ++ TWord "ON" :: col_toks (j_left j) ++ TOp "=" :: col_toks (j_right j).
Lemma lx_join_sql : forall j, join_named j -> lx (join_sql j) (join_toks j).
Proof.
  intros j (Ht & Hl & Hr). unfold join_sql, join_toks.
  assert (K : lx (kind_text (j_kind j)) [TWord (kind_word (j_kind j)); TWord "JOIN"]).
  { destruct (j_kind j); intros r R; unfold kind_text, kind_word.
    1: apply (lvx_app "INNER " "JOIN" [TWord "INNER"] [TWord "JOIN"]); [apply lv_text; reflexivity|apply lx_word; reflexivity|exact R].
    1: apply (lvx_app "LEFT " "JOIN" [TWord "LEFT"] [TWord "JOIN"]); [apply lv_text; reflexivity|apply lx_word; reflexivity|exact R].
    1: apply (lvx_app "RIGHT " "JOIN" [TWord "RIGHT"] [TWord "JOIN"]); [apply lv_text; reflexivity|apply lx_word; reflexivity|exact R].
    1: apply (lvx_app "FULL " "JOIN" [TWord "FULL"] [TWord "JOIN"]); [apply lv_text; reflexivity|apply lx_word; reflexivity|exact R].
    apply (lvx_app "LEFT " "JOIN" [TWord "LEFT"] [TWord "JOIN"]); [apply lv_text; reflexivity|apply lx_word; reflexivity|exact R]. }
  apply (lx_space _ _ _ _ K). apply (lx_app _ _ (table_toks (j_table j)) (TWord "ON" :: col_toks (j_left j) ++ TOp "=" :: col_toks (j_right j))); [apply lx_table; exact Ht| |reflexivity].
  apply (lvx_app " ON " _ [TWord "ON"] (col_toks (j_left j) ++ TOp "=" :: col_toks (j_right j))); [apply lv_text; reflexivity|].
  apply lx_app; [apply lx_col; exact Hl| |reflexivity].
  apply (lvx_app "=" _ [TOp "="] (col_toks (j_right j))); [apply lv_text; reflexivity|apply lx_col; exact Hr].
Qed.
Lemma read_join_ok : forall j, join_named j -> read_join (join_toks j) = Some (join_said j).
Proof.
  intros j (Ht & Hl & Hr). unfold join_toks, read_join. change (kw "JOIN" (TWord "JOIN")) with true. cbv iota.
  rewrite starting_one; [|apply table_quiet; [exact foreign_on|reflexivity|exact Ht]|reflexivity|].
  - rewrite starting_one; [|apply col_quiet; [exact foreign_eq|exact Hl]|reflexivity|apply col_quiet; [exact foreign_eq|exact Hr]].
    rewrite (read_table_ok _ Ht), (read_col_ok _ Hl), (read_col_ok _ Hr). reflexivity.
  - apply quiet_app; [apply col_quiet; [exact foreign_on|exact Hl]|]. constructor; [reflexivity|apply col_quiet; [exact foreign_on|exact Hr]].
Qed.
Lemma join_tail_quiet : forall p j, foreign p -> p (TWord "JOIN") = false -> p (TWord "ON") = false -> p (TWord "AS") = false -> p (TOp "=") = false ->
  join_named j -> quiet p (tl (join_toks j)).
Proof.
  intros p j Hp H1 H2 H3 H4 (Ht & Hl & Hr). cbn [join_toks tl]. constructor; [exact H1|]. apply quiet_app; [apply table_quiet; assumption|].
  constructor; [exact H2|]. apply quiet_app; [apply col_quiet; assumption|]. constructor; [exact H4|]. apply col_quiet; assumption.
Qed.
Definition from_toks (t : tname) (js : list join) : list token := table_toks t ++ concat (map join_toks js).
Lemma read_from_ok : forall t js, table_named t -> Forall join_named js -> read_from (from_toks t js) = Some (t, map join_said js).
Proof.
  intros t js Ht F. unfold read_from, from_toks. rewrite starting_concat.
  - rewrite (read_table_ok t Ht). rewrite (each_ok _ _ read_join (map join_toks js) (map join_said js)); [reflexivity|].
    induction F as [|j js H F IH]; [constructor|]. constructor; [apply read_join_ok; exact H|exact IH].
  - apply table_quiet; [exact foreign_kinds|reflexivity|exact Ht].
  - induction F as [|j js H F IH]; [constructor|]. constructor; [|exact IH]. exists (TWord (kind_word (j_kind j))), (tl (join_toks j)).
    split; [reflexivity|]. split; [destruct (j_kind j); reflexivity|]. apply join_tail_quiet; try reflexivity; [exact foreign_kinds|exact H].
Qed.
Lemma from_quiet : forall t js, table_named t -> Forall join_named js -> quiet (any_of clauses) (from_toks t js).
Proof.
  intros t js Ht F. apply quiet_app; [apply table_quiet; [exact foreign_clauses|reflexivity|exact Ht]|]. apply quiet_concat.
  induction F as [|j js H F IH]; [constructor|]. cbn [map]. constructor; [|exact IH]. constructor; [destruct (j_kind j); reflexivity|].
  apply join_tail_quiet; try reflexivity; [exact foreign_clauses|exact H].
Qed.

(** ** Operands *)
Lemma mark_operand : forall s, mark s -> lx s (tokens false s) /\ is_operand (tokens false s) = true.
Proof.
  intros s [->|(d & -> & D & A)]; [split; [apply lv_is_lx, lv_text; reflexivity|reflexivity]|].
  assert (L : lx ("$" ++ d)%string [TOp "$"; TNum d]).
  { apply (lvx_app "$" d [TOp "$"] [TNum d]); [apply lv_text; reflexivity|apply lx_digits; assumption]. }
  rewrite (lx_tokens _ _ L). split; [exact L|reflexivity].
Qed.
Lemma stands_operand : forall ft v ts, stands ft v ts -> is_operand ts = true.
Proof.
  intros ft v ts H. induction H; try reflexivity; [assumption|destruct (z <? 0)%Z; reflexivity|].
  match goal with F : float_tokens _ _ |- _ => destruct F as [f neg d _ _| |neg] end; [destruct neg; reflexivity|reflexivity|destruct neg; reflexivity].
Qed.
Lemma literal_reads : forall ft v s, literal ft v s -> readable false ft v = true -> lx s (tokens false s) /\ stands ft v (tokens false s).
Proof.
  intros ft v s H R. destruct (value_reads false ft v s H R) as (ts & St & Rd).
  assert (L : lx s ts) by (intros r Hr; apply reads_text; assumption). rewrite (lx_tokens _ _ L). split; assumption.
Qed.
Lemma operand_ok : forall s, operand s -> lx s (tokens false s) /\ is_operand (tokens false s) = true.
Proof.
  intros s [H|(ft & v & H & R)]; [apply mark_operand; exact H|]. destruct (literal_reads ft v s H R) as [L St].
  split; [exact L|eapply stands_operand; exact St].
Qed.
Definition sleepy (p : token -> bool) : Prop :=
  (forall c, In c ["?"; "$"; "-"; "+"]%char -> p (TOp c) = false) /\ (forall d, p (TNum d) = false) /\ (forall d, p (TStr d) = false) /\
  forall w, In w ["NULL"; "TRUE"; "FALSE"; "NaN"; "Inf"] -> p (TWord w) = false.
Lemma operand_quiet : forall p ts, sleepy p -> is_operand ts = true -> quiet p ts.
Proof.
  intros p ts (H1 & H2 & H3 & H4) H.
  assert (C : forall c x, Ascii.eqb c x = true -> In x ["?"; "$"; "-"; "+"]%char -> p (TOp c) = false) by (intros c x E K; apply Ascii.eqb_eq in E; subst c; auto).
  destruct ts as [|[w|d|d|d|c|d|d] [|[w'|d'|d'|d'|c'|d'|d'] [|t ts]]]; try discriminate H; cbn [is_operand] in H.
  - constructor; [|constructor]. apply existsb_exists in H. destruct H as (x & Hx & E). apply String.eqb_eq in E. subst x. apply H4. cbn [In] in Hx |- *. tauto.
  - constructor; [apply H2|constructor].
  - constructor; [apply H3|constructor].
  - constructor; [|constructor]. apply (C c "?"%char H). cbn [In]. tauto.
  - apply andb_prop in H. destruct H as [H E]. apply String.eqb_eq in E. subst w'. constructor; [|constructor; [apply H4; cbn [In]; tauto|constructor]].
    apply orb_prop in H. destruct H as [H|H]; [apply (C c "-"%char H)|apply (C c "+"%char H)]; cbn [In]; tauto.
  - constructor; [|constructor; [apply H2|constructor]]. apply orb_prop in H. destruct H as [H|H]; [apply (C c "$"%char H)|apply (C c "-"%char H)]; cbn [In]; tauto.
Qed.
Lemma operand_nonempty : forall ts, is_operand ts = true -> ts <> [].
Proof. intros ts H ->. discriminate H. Qed.
Lemma operand_read : forall ts, is_operand ts = true -> read_operand ts = Some ts.
Proof. intros ts H. unfold read_operand. rewrite H. reflexivity. Qed.
Lemma operand_no_op : forall ts, is_operand ts = true -> read_op ts = ([], ts).
Proof.
  intros ts H. destruct ts as [|[w|d|d|d|c|d|d] r]; try reflexivity. cbn [read_op]. assert (N : op_char c = false); [|rewrite N; reflexivity].
  assert (K : c = "?"%char \/ c = "$"%char \/ c = "-"%char \/ c = "+"%char).
  { destruct r as [|[w'|d'|d'|d'|c'|d'|d'] [|t r]]; try discriminate H; cbn [is_operand] in H.
    - apply Ascii.eqb_eq in H. auto.
    - apply andb_prop in H. destruct H as [H _]. apply orb_prop in H. destruct H as [H|H]; apply Ascii.eqb_eq in H; auto.
    - apply orb_prop in H. destruct H as [H|H]; apply Ascii.eqb_eq in H; auto. }
  destruct K as [->|[->|[->| ->]]]; reflexivity.
Qed.

(** ** Operators *)
Lemma op_char_begin : forall c, op_char c = true -> begin c = (Between, if Ascii.eqb c " " then [] else [TOp c]).
Proof. intros c H. unfold op_char in H. apply existsb_exists in H. destruct H as (x & Hx & E). apply Ascii.eqb_eq in E. subst x. cbn [In] in Hx. repeat (destruct Hx as [<-|Hx]; [reflexivity|]). destruct Hx. Qed.
Definition op_tok (t : token) : Prop := exists c, t = TOp c /\ op_char c = true /\ c <> " "%char.
Lemma op_feed : forall o, all op_char o = true -> exists ts, feed false Between o = (Between, ts) /\ Forall op_tok ts /\ (all (fun c => Ascii.eqb c " ") o = false -> ts <> []).
Proof.
  induction o as [|c o IH]; intros H; [exists []; split; [reflexivity|split; [constructor|discriminate]]|].
  cbn [all] in H. apply andb_prop in H. destruct H as [Hc H]. destruct (IH H) as (ts & E & F & N). cbn [feed step]. rewrite (op_char_begin c Hc), E.
  destruct (Ascii.eqb c " ") eqn:Q.
  - exists ts. split; [reflexivity|]. split; [exact F|]. cbn [all]. rewrite Q. exact N.
  - exists (TOp c :: ts). split; [reflexivity|]. split; [|discriminate]. constructor; [|exact F]. exists c. apply Ascii.eqb_neq in Q. auto.
Qed.
(** The tokens of an operator. *)
Definition op_toks (ts : list token) : Prop := (Forall op_tok ts /\ ts <> []) \/ exists w, ts = [TWord w] /\ name w.
Lemma comparison_toks : forall o, comparison o -> lv o (tokens false o) /\ starts separates o = true /\ op_toks (tokens false o).
Proof.
  intros o [[H N]|(w & -> & H)].
  - destruct (op_feed o H) as (ts & E & F & M). assert (T : tokens false o = ts) by (rewrite tokens_eq, E; cbn [fst snd finish]; apply app_nil_r).
    rewrite T. split; [|split].
    + apply lv_text; [unfold leaves; rewrite E; reflexivity|exact T].
    + destruct o as [|c o]; [discriminate|]. cbn [all] in H. apply andb_prop in H. destruct H as [H _]. cbn [starts]. unfold op_char in H. apply existsb_exists in H.
      destruct H as (x & Hx & E'). apply Ascii.eqb_eq in E'. subst x. cbn [In] in Hx. repeat (destruct Hx as [<-|Hx]; [reflexivity|]). destruct Hx.
    + left. split; [exact F|apply M; exact N].
  - assert (L : lv (" " ++ w ++ " ")%string [TWord w]).
    { apply (lv_app " " (w ++ " ") [] [TWord w] lv_blank). apply (lxv_app w " " [TWord w] []); [apply lx_word; apply H|exact lv_blank|reflexivity]. }
    rewrite (lx_tokens _ _ (lv_is_lx _ _ L)). split; [exact L|]. split; [reflexivity|]. right. exists w. auto.
Qed.
Lemma op_char_not : forall c d, op_char c = true -> op_char d = false -> Ascii.eqb c d = false.
Proof. intros c d H K. destruct (Ascii.eqb c d) eqn:E; [|reflexivity]. apply Ascii.eqb_eq in E. subst d. congruence. Qed.

(** ** Conditions *)
Definition wordy (p : token -> bool) : Prop := forall t, p t = true -> exists k, t = TWord k /\ In k reserved.
Lemma wordy_foreign : forall p, wordy p -> foreign p.
Proof. intros p H t E. destruct (H t E) as (k & -> & K). exact K. Qed.
Lemma wordy_op : forall p c, wordy p -> p (TOp c) = false.
Proof. intros p c H. destruct (p (TOp c)) eqn:E; [|reflexivity]. destruct (H _ E) as (k & K & _). discriminate. Qed.
Lemma wordy_num : forall p c, wordy p -> p (TNum c) = false.
Proof. intros p c H. destruct (p (TNum c)) eqn:E; [|reflexivity]. destruct (H _ E) as (k & K & _). discriminate. Qed.
Lemma wordy_kw : forall k, In k reserved -> wordy (kw k).
Proof. intros k Hk [w|w|w|w|c|w|w] H; try discriminate. cbn [kw] in H. apply String.eqb_eq in H. subst w. eauto. Qed.
Lemma wordy_any : forall ps, Forall wordy ps -> wordy (any_of ps).
Proof. intros ps F t H. unfold any_of in H. apply existsb_exists in H. destruct H as (p & Hp & H). rewrite Forall_forall in F. exact (F p Hp t H). Qed.
Lemma wordy_clauses : wordy (any_of clauses).
Proof. apply wordy_any. repeat (constructor; [apply wordy_kw; reserved_in|]). constructor. Qed.
Lemma wordy_and : wordy (kw "AND").
Proof. apply wordy_kw. reserved_in. Qed.
Lemma op_toks_quiet : forall p ts, wordy p -> op_toks ts -> quiet p ts.
Proof.
  intros p ts Hp [[F _]|(w & -> & H)].
  - induction F as [|t ts (c & -> & _) F IH]; [constructor|]. constructor; [apply wordy_op; exact Hp|exact IH].
  - constructor; [|constructor]. apply name_quiet; [apply wordy_foreign; exact Hp|exact H].
Qed.
Lemma wordy_sleepy : forall p, wordy p -> sleepy p.
Proof.
  intros p H. split; [intros c _; apply wordy_op; exact H|]. split; [intros d; apply wordy_num; exact H|]. split.
  - intros d. destruct (p (TStr d)) eqn:E; [|reflexivity]. destruct (H _ E) as (k & K & _). discriminate.
  - intros w Hw. destruct (p (TWord w)) eqn:E; [|reflexivity]. destruct (H _ E) as (k & K & R). injection K as <-. exfalso.
    cbn [In] in Hw. repeat (destruct Hw as [<-|Hw]; [cbn [In reserved] in R; intuition discriminate|]). destruct Hw.
Qed.
Lemma op_sleepy : forall c, ~ In c ["?"; "$"; "-"; "+"]%char -> sleepy (op c).
Proof.
  intros c H. split; [|repeat split; reflexivity]. intros x Hx. cbn [op]. destruct (Ascii.eqb x c) eqn:E; [|reflexivity].
  apply Ascii.eqb_eq in E. subst x. contradiction.
Qed.
Lemma comparison_read : forall o v, op_toks o -> is_operand v = true -> read_comparison (o ++ v) = (o, v).
Proof.
  intros o v [[F N]|(w & -> & H)] V; [|reflexivity].
  assert (R : read_op (o ++ v) = (o, v)).
  { clear N. induction F as [|t o (c & -> & Hc & _) F IH]; [apply operand_no_op; exact V|]. cbn [app read_op]. rewrite Hc, IH. reflexivity. }
  destruct F as [|t o (c & -> & _) F]; [congruence|]. exact R.
Qed.
Definition cond_toks (x : cond) (phs : list string) : list token :=
  col_toks (cond_col x) ++
  match x with
  | Compare _ o _ => tokens false o ++ concat (map (tokens false) phs)
  | Among _ _ => TWord "IN" :: TOp "(" :: token_join [TOp ","] (map (tokens false) phs) ++ [TOp ")"]
  | NotAmong _ _ => TWord "NOT" :: TWord "IN" :: TOp "(" :: token_join [TOp ","] (map (tokens false) phs) ++ [TOp ")"]
  end.
Lemma marks_lx : forall phs, Forall operand phs -> Forall2 lx phs (map (tokens false) phs).
Proof. intros phs F. induction F as [|x l H F IH]; [constructor|]. cbn [map]. constructor; [apply operand_ok; exact H|exact IH]. Qed.
Lemma lx_marks : forall phs, Forall operand phs -> lv (str_join ", " phs ++ ")")%string (token_join [TOp ","] (map (tokens false) phs) ++ [TOp ")"]).
Proof.
  intros phs F. destruct phs as [|x l]; [apply lv_text; reflexivity|].
  apply lxv_app; [|apply lv_text; reflexivity|reflexivity]. apply lx_join; [exact lv_comma|reflexivity|apply marks_lx; exact F|discriminate].
Qed.
Lemma lx_cond : forall x phs, cond_named x -> Forall operand phs -> List.length phs = List.length (cond_args x) -> lx (cond_text x phs) (cond_toks x phs).
Proof.
  intros x phs [Hc Ho] F L. destruct x as [c o v|c l|c l]; cbn [cond_col] in Hc; unfold cond_text, cond_toks; cbn [cond_col].
  - destruct (comparison_toks o Ho) as (O1 & O2 & _). cbn [cond_args List.length] in L. destruct phs as [|ph [|z phs]]; try discriminate.
    inversion F as [|ph' l' Hm _]; subst. cbn [str_join map concat]. rewrite app_nil_r.
    apply lx_app; [apply lx_col; exact Hc| |apply starts_more; exact O2]. apply lvx_app; [exact O1|apply operand_ok; exact Hm].
  - apply lx_app; [apply lx_col; exact Hc| |reflexivity]. apply lv_is_lx.
    apply (lv_app " IN (" _ [TWord "IN"; TOp "("]); [apply lv_text; reflexivity|apply lx_marks; exact F].
  - apply lx_app; [apply lx_col; exact Hc| |reflexivity]. apply lv_is_lx.
    apply (lv_app " NOT IN (" _ [TWord "NOT"; TWord "IN"; TOp "("]); [apply lv_text; reflexivity|apply lx_marks; exact F].
Qed.
Lemma operands_quiet : forall p phs, sleepy p -> Forall operand phs -> Forall (quiet p) (map (tokens false) phs).
Proof. intros p phs Hp F. induction F as [|x l H F IH]; [constructor|]. cbn [map]. constructor; [apply operand_quiet; [exact Hp|apply operand_ok; exact H]|exact IH]. Qed.
Lemma read_operands_ok : forall phs, Forall operand phs -> read_operands (token_join [TOp ","] (map (tokens false) phs) ++ [TOp ")"]) = Some (map (tokens false) phs).
Proof.
  intros phs F. unfold read_operands. rewrite starting_one; [| |reflexivity|constructor].
  - destruct phs as [|x l]; [reflexivity|].
    pose proof (pieces_join (op ",") (TOp ",") (map (tokens false) (x :: l)) eq_refl (operands_quiet (op ",") (x :: l) (op_sleepy "," ltac:(cbn; intuition discriminate)) F) ltac:(discriminate)) as P.
    rewrite P. rewrite (each_ok _ _ read_operand (map (tokens false) (x :: l)) (map (tokens false) (x :: l))).
    + destruct (token_join [TOp ","] (map (tokens false) (x :: l))) eqn:E; [|reflexivity]. exfalso. cbn [map token_join] in E.
      inversion F as [|x' l' Hm _]; subst. apply app_eq_nil in E. destruct E as [E _]. exact (operand_nonempty _ (proj2 (operand_ok x Hm)) E).
    + clear -F. induction F as [|y l0 H F IH]; [constructor|]. cbn [map]. constructor; [apply operand_read, operand_ok; exact H|exact IH].
  - apply quiet_join; [repeat constructor|]. apply operands_quiet; [apply op_sleepy; cbn; intuition discriminate|exact F].
Qed.
Lemma read_cond_ok : forall x phs, cond_named x -> Forall operand phs -> List.length phs = List.length (cond_args x) ->
  read_cond (cond_toks x phs) = Some (cond_said x (map (tokens false) phs)).
Proof.
  intros x phs [Hc Ho] F L. unfold read_cond, cond_toks. destruct x as [c o v|c l|c l]; cbn [cond_col] in *.
  - destruct (comparison_toks o Ho) as (_ & _ & O). cbn [cond_args List.length] in L. destruct phs as [|ph [|z phs]]; try discriminate.
    inversion F as [|ph' l' Hm _]; subst. cbn [map concat]. rewrite app_nil_r. cbn [cond_said].
    destruct (operand_ok ph Hm) as [_ V]. pose proof (comparison_read _ _ O V) as S1. pose proof (operand_read _ V) as R.
    rewrite read_prefix_col; [|exact Hc|].
    + assert (K : exists a rest, tokens false o = a :: rest /\ kw "IN" a = false /\ kw "NOT" a = false).
      { destruct O as [[OF ON]|(w & OE & OH)].
        - destruct OF as [|a rest (c' & -> & _) OF]; [congruence|]. exists (TOp c'), rest. auto.
        - exists (TWord w), []. rewrite OE. split; [reflexivity|]. split; apply name_quiet; try exact OH; apply foreign_kw; reserved_in. }
      destruct K as (a & rest & K & K1 & K2). rewrite K in S1 |- *. cbn [app] in S1 |- *.
      destruct (rest ++ tokens false ph) as [|b rr] eqn:X; [apply app_eq_nil in X; destruct X as [_ X]; exfalso; exact (operand_nonempty _ V X)|].
      rewrite K1, K2. cbn [andb]. rewrite S1, R. reflexivity.
    + unfold follows. destruct O as [[OF ON]|(w & OE & OH)].
      * destruct OF as [|a rest (c' & -> & Hc' & _) OF]; [congruence|]. cbn [app]. intros ->. discriminate Hc'.
      * rewrite OE. exact Logic.I.
  - rewrite read_prefix_col; [|exact Hc|exact Logic.I]. change (kw "IN" (TWord "IN") && op "(" (TOp "(")) with true. cbv iota.
    rewrite (read_operands_ok phs F). reflexivity.
  - rewrite read_prefix_col; [|exact Hc|exact Logic.I]. change (kw "IN" (TWord "NOT") && op "(" (TWord "IN")) with false.
    change (kw "NOT" (TWord "NOT") && kw "IN" (TWord "IN") && op "(" (TOp "(")) with true. cbv iota. cbn [tl].
    rewrite (read_operands_ok phs F). reflexivity.
Qed.
Lemma cond_quiet : forall p x phs, wordy p -> p (TWord "IN") = false -> p (TWord "NOT") = false -> cond_named x -> Forall operand phs -> quiet p (cond_toks x phs).
Proof.
  intros p x phs Hp H1 H2 [Hc Ho] F. unfold cond_toks. apply quiet_app; [apply col_quiet; [apply wordy_foreign; exact Hp|exact Hc]|].
  assert (Q : Forall (quiet p) (map (tokens false) phs)) by (apply operands_quiet; [apply wordy_sleepy; exact Hp|exact F]).
  assert (M : quiet p (token_join [TOp ","] (map (tokens false) phs) ++ [TOp ")"])).
  { apply quiet_app; [apply quiet_join; [|exact Q]|]; (constructor; [apply wordy_op; exact Hp|constructor]). }
  destruct x as [c o v|c l|c l].
  - destruct (comparison_toks o Ho) as (_ & _ & O). apply quiet_app; [apply op_toks_quiet; assumption|apply quiet_concat; exact Q].
  - constructor; [exact H1|]. constructor; [apply wordy_op; exact Hp|exact M].
  - constructor; [exact H2|]. constructor; [exact H1|]. constructor; [apply wordy_op; exact Hp|exact M].
Qed.
Fixpoint conds_toks (cs : list cond) (phs : list string) : list (list token) :=
  match cs with
  | [] => []
  | x :: cs' => let k := List.length (cond_args x) in cond_toks x (firstn k phs) :: conds_toks cs' (skipn k phs)
  end.
Lemma marks_split : forall k (phs : list string) n, Forall operand phs -> List.length phs = k + n ->
  Forall operand (firstn k phs) /\ List.length (firstn k phs) = k /\ Forall operand (skipn k phs) /\ List.length (skipn k phs) = n.
Proof.
  intros k phs n F L. rewrite <- (firstn_skipn k phs) in F. apply Forall_app in F. destruct F as [F1 F2].
  split; [exact F1|]. split; [apply firstn_length_le; lia|]. split; [exact F2|]. rewrite skipn_length. lia.
Qed.
Lemma conds_ok : forall cs phs, Forall cond_named cs -> Forall operand phs -> List.length phs = List.length (flat_map cond_args cs) ->
  Forall2 lx (cond_texts cs phs) (conds_toks cs phs) /\ Forall2 (fun x y => read_cond x = Some y) (conds_toks cs phs) (conds_said cs (map (tokens false) phs)) /\
  Forall (quiet (any_of clauses)) (conds_toks cs phs) /\ Forall (quiet (kw "AND")) (conds_toks cs phs).
Proof.
  induction cs as [|x cs IH]; intros phs N F L; [repeat split; constructor|].
  cbn [flat_map] in L. rewrite app_length in L. inversion N as [|x' cs' Hx Hcs]; subst.
  destruct (marks_split _ phs _ F L) as (F1 & L1 & F2 & L2). destruct (IH (skipn (List.length (cond_args x)) phs) Hcs F2 L2) as (A & B & C & D).
  cbn [cond_texts conds_toks conds_said]. rewrite firstn_map, skipn_map. repeat split; constructor; try assumption.
  - apply lx_cond; assumption.
  - apply read_cond_ok; assumption.
  - apply cond_quiet; try assumption; try reflexivity. exact wordy_clauses.
  - apply cond_quiet; try assumption; try reflexivity. exact wordy_and.
Qed.

(** ** Orders *)
Lemma order_word_in : forall o, (o <= 5)%N -> In (nth (N.to_nat o) order_words "") order_words.
Proof. intros o H. apply nth_In. change (List.length order_words) with 6. lia. Qed.
Lemma order_word_ok : forall w, In w order_words ->
  lx w (tokens false w) /\ quiet (any_of clauses) (tokens false w) /\ quiet (op ",") (tokens false w) /\ follows (tokens false w).
Proof.
  intros w H. assert (L : forall a b : string, leaves false a -> starts is_letter b = true -> all in_word b = true -> lx (a ++ b)%string (tokens false (a ++ b)%string)).
  { intros a b Ha Hb Hc. pose proof (lvx_app a b _ _ (lv_text a _ Ha eq_refl) (lx_word b Hb Hc)) as X. rewrite (lx_tokens _ _ X). exact X. }
  cbn [order_words In] in H. destruct H as [<-|[<-|[<-|[<-|[<-|[<-|[]]]]]]].
  - split; [exact (L "" "ASC" eq_refl eq_refl eq_refl)|repeat split; repeat constructor].
  - split; [exact (L "ASC NULLS " "FIRST" eq_refl eq_refl eq_refl)|repeat split; repeat constructor].
  - split; [exact (L "ASC NULLS " "LAST" eq_refl eq_refl eq_refl)|repeat split; repeat constructor].
  - split; [exact (L "" "DESC" eq_refl eq_refl eq_refl)|repeat split; repeat constructor].
  - split; [exact (L "DESC NULLS " "FIRST" eq_refl eq_refl eq_refl)|repeat split; repeat constructor].
  - split; [exact (L "DESC NULLS " "LAST" eq_refl eq_refl eq_refl)|repeat split; repeat constructor].
Qed.
Definition order_toks (c : col) (w : string) : list token := col_toks c ++ tokens false w.
Lemma order_ok : forall c w, col_named c -> In w order_words ->
  lx (col_text c ++ " " ++ w)%string (order_toks c w) /\ read_order (order_toks c w) = Some (c, tokens false w) /\
  quiet (any_of clauses) (order_toks c w) /\ quiet (op ",") (order_toks c w).
Proof.
  intros c w Hc Hw. destruct (order_word_ok w Hw) as (A & B & C & D). split; [|split; [|split]].
  - apply lx_space; [apply lx_col; exact Hc|exact A].
  - apply read_prefix_col; assumption.
  - apply quiet_app; [apply col_quiet; [exact foreign_clauses|exact Hc]|exact B].
  - apply quiet_app; [apply col_quiet; [exact foreign_comma|exact Hc]|exact C].
Qed.
Lemma alias_name : forall i, name (nth_alias i).
Proof.
  intros i. unfold nth_alias. split; [reflexivity|]. split.
  - change (("_order_" ++ itoa_nat i)%string) with (String "_" ("order_" ++ itoa_nat i)). cbn [all append].
    assert (H : all in_word (itoa_nat i) = true); [|rewrite H; reflexivity].
    rewrite Store_proofs.itoa_nat_dec. eapply all_impl; [|apply dec_digits]. intros a Ha. unfold in_word. rewrite Ha, orb_true_r. reflexivity.
  - cbn [append]. intros H. cbn [reserved In] in H. repeat (destruct H as [H|H]; [discriminate|]). destruct H.
Qed.

(** ** Clauses *)
Definition list_toks {A} (pre sep : list A) (l : list (list A)) : list (list A) :=
  match l with [] => [] | _ => [pre ++ token_join sep l] end.
Lemma list_clause_lx : forall w pre sep seps l ts, lx w pre -> lv sep seps -> starts separates sep = true -> Forall2 lx l ts ->
  Forall2 lx (list_clause w sep l) (list_toks pre seps ts).
Proof.
  intros w pre sep seps l ts Hw Hs Hp F. destruct F as [|x t l ts H F]; [constructor|]. cbn [list_clause list_toks]. constructor; [|constructor].
  apply lx_space; [exact Hw|]. apply lx_join; [exact Hs|exact Hp|constructor; assumption|discriminate].
Qed.
Definition number_toks (w : string) (z : Z) : list (list token) := if (0 <? z)%Z then [[TWord w; TNum (itoa z)]] else [].
Lemma itoa_digits : forall z, (0 < z)%Z -> starts is_digit (itoa z) = true /\ all is_digit (itoa z) = true.
Proof. intros [|p|p] H; try lia. split; [exact (dec_starts (Npos p))|exact (dec_digits (Npos p))]. Qed.
Lemma number_lx : forall w z, starts is_letter w = true -> all in_word w = true -> Forall2 lx (number_clause (w ++ " ") z) (number_toks w z).
Proof.
  intros w z H A. unfold number_clause, number_toks. destruct (0 <? z)%Z eqn:E; [|constructor]. apply Z.ltb_lt in E. constructor; [|constructor].
  rewrite append_assoc. destruct (itoa_digits z E) as [D1 D2]. apply (lx_space w (itoa z) [TWord w] [TNum (itoa z)]); [apply lx_word; assumption|apply lx_digits; assumption].
Qed.
Definition misses (ws : list string) (l : list (list token)) : Prop := match l with [] => True | x :: _ => after_words ws x = None end.
Lemma clause_miss : forall A ws (f : list token -> option A) l, misses ws l -> clause ws f l = Some (None, l).
Proof. intros A ws f [|x l] H; [reflexivity|]. cbn [misses] in H. cbn [clause]. rewrite H. reflexivity. Qed.
Lemma clause_hit : forall A ws (f : list token -> option A) x l r a, after_words ws x = Some r -> f r = Some a -> clause ws f (x :: l) = Some (Some a, l).
Proof. intros A ws f x l r a H K. cbn [clause]. rewrite H, K. reflexivity. Qed.
(** The reading of a list clause. *)
Lemma clause_list : forall A ws pre s p (f : list token -> option A) ts rs l,
  (forall r, after_words ws (pre ++ r) = Some r) -> p s = true -> Forall (quiet p) ts -> Forall2 (fun x y => f x = Some y) ts rs -> misses ws l ->
  exists o, clause ws (fun l => each f (pieces p l)) (list_toks pre [s] ts ++ l) = Some (o, l) /\ listed o = rs.
Proof.
  intros A ws pre s p f ts rs l H Hs Q F M. destruct ts as [|t ts].
  - inversion F; subst. exists None. split; [apply clause_miss; exact M|reflexivity].
  - exists (Some rs). split; [|reflexivity]. cbn [list_toks app]. eapply clause_hit; [apply H|]. cbv beta.
    rewrite (pieces_join p s (t :: ts) Hs Q ltac:(discriminate)). apply each_ok. exact F.
Qed.
Lemma clause_number : forall w z l, misses [w] l -> clause [w] read_number (number_toks w z ++ l) = Some (number_said z, l).
Proof.
  intros w z l M. unfold number_toks, number_said. destruct (0 <? z)%Z; [|apply clause_miss; exact M].
  cbn [app]. apply (clause_hit _ [w] read_number _ _ [TNum (itoa z)]); [|reflexivity]. cbn [after_words kw]. rewrite String.eqb_refl. reflexivity.
Qed.
Lemma misses_list : forall ws pre s ts l, (forall r, after_words ws (pre ++ r) = None) -> misses ws l -> misses ws (list_toks pre [s] ts ++ l).
Proof. intros ws pre s [|t ts] l H M; [exact M|]. apply H. Qed.
Lemma misses_number : forall ws w z l, (forall r, after_words ws (TWord w :: r) = None) -> misses ws l -> misses ws (number_toks w z ++ l).
Proof. intros ws w z l H M. unfold number_toks. destruct (0 <? z)%Z; [apply H|exact M]. Qed.
Lemma headed_list : forall p t pre s ts, p t = true -> quiet p pre -> quiet p [s] -> Forall (quiet p) ts -> Forall (headed p) (list_toks (t :: pre) [s] ts).
Proof.
  intros p t pre s ts Ht Hp Hs F. destruct ts as [|x ts]; [constructor|]. constructor; [|constructor]. exists t, (pre ++ token_join [s] (x :: ts)).
  split; [reflexivity|]. split; [exact Ht|]. apply quiet_app; [exact Hp|apply quiet_join; assumption].
Qed.
Lemma headed_number : forall p w z, p (TWord w) = true -> (forall d, p (TNum d) = false) -> Forall (headed p) (number_toks w z).
Proof.
  intros p w z H K. unfold number_toks. destruct (0 <? z)%Z; [|constructor]. constructor; [|constructor]. exists (TWord w), [TNum (itoa z)].
  split; [reflexivity|]. split; [exact H|]. constructor; [apply K|constructor].
Qed.

(** ** The statement *)
Definition item_toks (x : col * string) : list token := col_toks (fst x) ++ as_toks (snd x).
Definition item_named (x : col * string) : Prop := col_named (fst x) /\ (snd x = "" \/ name (snd x)).
Definition item_text (x : col * string) : string := if is_empty (snd x) then col_text (fst x) else (col_text (fst x) ++ " AS " ++ snd x)%string.
Lemma items_ok : forall l, Forall item_named l ->
  Forall2 lx (map item_text l) (map item_toks l) /\ Forall2 (fun x y => read_item x = Some y) (map item_toks l) l /\
  Forall (quiet (any_of clauses)) (map item_toks l) /\ Forall (quiet (op ",")) (map item_toks l).
Proof.
  intros l F. induction F as [|[c a] l [Hc Ha] F (A & B & C & D)]; [repeat split; constructor|]. cbn [fst snd] in Hc, Ha. cbn [map].
  repeat split; (constructor; [|assumption]).
  - unfold item_text, item_toks. cbn [fst snd]. destruct Ha as [->|Ha].
    + cbn [is_empty]. change (as_toks "") with (@nil token). rewrite app_nil_r. apply lx_col. exact Hc.
    + rewrite (name_nonempty a Ha). unfold as_toks. rewrite (name_nonempty a Ha). apply lx_as; [apply lx_col; exact Hc|exact Ha].
  - apply read_item_ok; assumption.
  - apply quiet_app; [apply col_quiet; [exact foreign_clauses|exact Hc]|apply as_quiet; [exact foreign_clauses|reflexivity|exact Ha]].
  - apply quiet_app; [apply col_quiet; [exact foreign_comma|exact Hc]|apply as_quiet; [exact foreign_comma|reflexivity|exact Ha]].
Qed.
Lemma cols_ok : forall l, Forall col_named l ->
  Forall2 lx (map col_text l) (map col_toks l) /\ Forall2 (fun x y => read_col x = Some y) (map col_toks l) l /\
  Forall (quiet (any_of clauses)) (map col_toks l) /\ Forall (quiet (op ",")) (map col_toks l).
Proof.
  intros l F. induction F as [|c l Hc F (A & B & C & D)]; [repeat split; constructor|]. cbn [map].
  repeat split; (constructor; [|assumption]).
  - apply lx_col. exact Hc.
  - apply read_col_ok. exact Hc.
  - apply col_quiet; [exact foreign_clauses|exact Hc].
  - apply col_quiet; [exact foreign_comma|exact Hc].
Qed.
Definition order_said (d : bool) (x : nat * (col * N)) : col * list token :=
  (if d then ("", nth_alias (fst x)) else fst (snd x), tokens false (nth (N.to_nat (snd (snd x))) order_words "")).
Definition order_text (d : bool) (x : nat * (col * N)) : string :=
  ((if d then nth_alias (fst x) else col_text (fst (snd x))) ++ " " ++ nth (N.to_nat (snd (snd x))) order_words "")%string.
Definition orders_toks (d : bool) (x : nat * (col * N)) : list token :=
  order_toks (if d then ("", nth_alias (fst x)) else fst (snd x)) (nth (N.to_nat (snd (snd x))) order_words "").
Definition entry_named (x : nat * (col * N)) : Prop := col_named (fst (snd x)) /\ (snd (snd x) <= 5)%N.
Lemma orders_ok : forall d l, Forall entry_named l ->
  Forall2 lx (map (order_text d) l) (map (orders_toks d) l) /\ Forall2 (fun x y => read_order x = Some y) (map (orders_toks d) l) (map (order_said d) l) /\
  Forall (quiet (any_of clauses)) (map (orders_toks d) l) /\ Forall (quiet (op ",")) (map (orders_toks d) l).
Proof.
  intros d l F. induction F as [|[i [c o]] l [Hc Ho] F (A & B & C & D)]; [repeat split; constructor|]. cbn [fst snd] in Hc, Ho. cbn [map].
  assert (N : col_named (if d then ("", nth_alias i) else c)).
  { destruct d; [|exact Hc]. split; [left; reflexivity|right; apply alias_name]. }
  destruct (order_ok _ _ N (order_word_in o Ho)) as (O1 & O2 & O3 & O4).
  repeat split; (constructor; [|assumption]); try assumption.
  unfold order_text. cbn [fst snd]. replace (if d then nth_alias i else col_text c) with (col_text (if d then ("", nth_alias i) else c)) by (destruct d; reflexivity). exact O1.
Qed.
Lemma numbered_in : forall x m, In x (numbered m) -> In (snd x) (m_orders m).
Proof. intros [i o] m H. unfold numbered in H. apply in_combine_r in H. exact H. Qed.
Lemma lx_list : forall l ts, Forall2 lx l ts -> l <> [] -> lx (str_join " " l) (concat ts).
Proof.
  intros l ts F N. pose proof (lx_join " " [] l ts lv_blank eq_refl F N) as H.
  assert (E : token_join [] ts = concat ts); [|rewrite E in H; exact H].
  destruct ts as [|t ts]; [reflexivity|]. cbn [token_join app concat]. rewrite map_id. reflexivity.
Qed.
Definition select_words (d : bool) : list token := if d then [TWord "SELECT"; TWord "DISTINCT"] else [TWord "SELECT"].
Definition items (m : stmt) : list (col * string) :=
  map (fun c => (c, "")) (m_cols m) ++ (if m_distinct m then map (fun x => (fst (snd x), nth_alias (fst x))) (numbered m) else []).
Lemma items_text : forall m, map item_text (items m) = map col_text (m_cols m) ++ hidden_texts m.
Proof.
  intros m. unfold items, hidden_texts. rewrite map_app, map_map.
  destruct (m_distinct m); [rewrite map_map; reflexivity|reflexivity].
Qed.
(** The clauses of a statement, from those of its conditions. *)
Definition clause_texts (m : stmt) (cs : list string) : list string :=
  list_clause (if m_distinct m then "SELECT DISTINCT" else "SELECT") ", " (map col_text (m_cols m) ++ hidden_texts m) ++
  list_clause "FROM" " " (table_text (m_main m) :: map join_sql (m_shown m)) ++
  list_clause "WHERE" " AND " cs ++
  list_clause "GROUP BY" ", " (map col_text (m_groups m)) ++
  list_clause "ORDER BY" ", " (order_texts m) ++
  number_clause "LIMIT " (m_limit m) ++ number_clause "OFFSET " (m_offset m).
Definition select_toks (m : stmt) : list token := select_words (m_distinct m) ++ token_join [TOp ","] (map item_toks (items m)).
Definition source_toks (m : stmt) : list token := TWord "FROM" :: from_toks (m_main m) (m_shown m).
Definition where_toks (cs : list (list token)) : list (list token) := list_toks [TWord "WHERE"] [TWord "AND"] cs.
Definition last_toks (m : stmt) : list (list token) :=
  list_toks [TWord "GROUP"; TWord "BY"] [TOp ","] (map col_toks (m_groups m)) ++
  list_toks [TWord "ORDER"; TWord "BY"] [TOp ","] (map (orders_toks (m_distinct m)) (numbered m)) ++
  number_toks "LIMIT" (m_limit m) ++ number_toks "OFFSET" (m_offset m).
Definition clause_toks (m : stmt) (cs : list (list token)) : list (list token) :=
  [select_toks m] ++ [source_toks m] ++ where_toks cs ++ last_toks m.
Lemma named_parts : forall m, named m -> Forall join_named (m_shown m) /\ Forall entry_named (numbered m) /\ Forall item_named (items m) /\ map item_toks (items m) <> [].
Proof.
  intros m (Hn & Hc & Ht & Hj & Hw & Hg & Ho).
  assert (Hs : Forall join_named (m_shown m)).
  { rewrite Forall_forall in Hj |- *. intros j Hin. apply Hj. unfold m_shown in Hin. apply filter_In in Hin. apply Hin. }
  assert (He : Forall entry_named (numbered m)).
  { rewrite Forall_forall in Ho |- *. intros x Hx. apply numbered_in in Hx. exact (Ho _ Hx). }
  split; [exact Hs|]. split; [exact He|]. split.
  - unfold items. apply Forall_app. split.
    + clear -Hc. induction Hc as [|c l H F IH]; [constructor|]. cbn [map]. constructor; [split; [exact H|left; reflexivity]|exact IH].
    + destruct (m_distinct m); [|constructor]. clear -He. induction He as [|[i o] l [H _] F IH]; [constructor|]. cbn [map]. constructor; [|exact IH].
      split; [exact H|right; apply alias_name].
  - unfold items. destruct (m_cols m); [congruence|discriminate].
Qed.
Lemma clauses_lx : forall m cs ts, named m -> Forall2 lx cs ts -> Forall2 lx (clause_texts m cs) (clause_toks m ts).
Proof.
  intros m cs ts N W1. destruct (named_parts m N) as (Hs & He & Hi & Ni). destruct N as (Hn & Hc & Ht & Hj & Hw & Hg & Ho).
  destruct (items_ok _ Hi) as (I1 & _). destruct (cols_ok _ Hg) as (G1 & _). destruct (orders_ok (m_distinct m) _ He) as (O1 & _).
  unfold clause_texts, clause_toks, last_toks. rewrite <- items_text. refine (Forall2_app _ (Forall2_app _ (Forall2_app _ (Forall2_app _ (Forall2_app _ (Forall2_app _ _)))))).
  - unfold select_toks. destruct (map item_toks (items m)) as [|t0 ts0] eqn:E; [congruence|].
    change [select_words (m_distinct m) ++ token_join [TOp ","] (t0 :: ts0)] with (list_toks (select_words (m_distinct m)) [TOp ","] (t0 :: ts0)).
    apply list_clause_lx; [|exact lv_comma|reflexivity|exact I1].
    destruct (m_distinct m); [apply (lvx_app "SELECT " "DISTINCT" [TWord "SELECT"] [TWord "DISTINCT"]); [apply lv_text; reflexivity|apply lx_word; reflexivity]|apply lx_word; reflexivity].
  - replace [source_toks m] with (list_toks [TWord "FROM"] [] (table_toks (m_main m) :: map join_toks (m_shown m))).
    2: { unfold list_toks, source_toks, from_toks. cbn [token_join app]. rewrite map_id. reflexivity. }
    apply list_clause_lx; [apply lx_word; reflexivity|exact lv_blank|reflexivity|]. constructor; [apply lx_table; exact Ht|].
    clear -Hs. induction Hs as [|j l H F IH]; [constructor|]. cbn [map]. constructor; [apply lx_join_sql; exact H|exact IH].
  - apply list_clause_lx; [apply lx_word; reflexivity|exact lv_and|reflexivity|exact W1].
  - apply list_clause_lx; [|exact lv_comma|reflexivity|exact G1].
    apply (lvx_app "GROUP " "BY" [TWord "GROUP"] [TWord "BY"]); [apply lv_text; reflexivity|apply lx_word; reflexivity].
  - apply list_clause_lx; [|exact lv_comma|reflexivity|].
    + apply (lvx_app "ORDER " "BY" [TWord "ORDER"] [TWord "BY"]); [apply lv_text; reflexivity|apply lx_word; reflexivity].
    + replace (order_texts m) with (map (order_text (m_distinct m)) (numbered m)); [exact O1|].
      unfold order_texts, numbered. apply map_ext. intros [i [c o]]. reflexivity.
  - apply (number_lx "LIMIT"); reflexivity.
  - apply (number_lx "OFFSET"); reflexivity.
Qed.
Lemma clauses_read : forall C (rc : list token -> option C) m cs rs, named m -> Forall2 (fun x y => rc x = Some y) cs rs ->
  Forall (quiet (any_of clauses)) cs -> Forall (quiet (kw "AND")) cs ->
  read_select_by rc (concat (clause_toks m cs)) = Some (said_by m rs).
Proof.
  intros C rc m cs rs N W2 W3 W4. destruct (named_parts m N) as (Hs & He & Hi & Ni). destruct N as (Hn & Hc & Ht & Hj & Hw & Hg & Ho).
  destruct (items_ok _ Hi) as (_ & I2 & I3 & I4).
  destruct (cols_ok _ Hg) as (_ & G2 & G3 & G4). destruct (orders_ok (m_distinct m) _ He) as (_ & O2 & O3 & O4).
  set (sel := select_words (m_distinct m) ++ token_join [TOp ","] (map item_toks (items m))).
  set (fr := TWord "FROM" :: from_toks (m_main m) (m_shown m)).
  set (wh := list_toks [TWord "WHERE"] [TWord "AND"] cs).
  set (gr := list_toks [TWord "GROUP"; TWord "BY"] [TOp ","] (map col_toks (m_groups m))).
  set (ord := list_toks [TWord "ORDER"; TWord "BY"] [TOp ","] (map (orders_toks (m_distinct m)) (numbered m))).
  set (li := number_toks "LIMIT" (m_limit m)). set (off := number_toks "OFFSET" (m_offset m)).
  set (cls := fr :: wh ++ gr ++ ord ++ li ++ off).
  change (concat (clause_toks m cs)) with (sel ++ concat cls).
  assert (S1 : starting (any_of clauses) (sel ++ concat cls) = (sel, cls)).
  { apply starting_concat.
    - apply quiet_app; [destruct (m_distinct m); repeat constructor|]. apply quiet_join; [repeat constructor|exact I3].
    - constructor.
      + exists (TWord "FROM"), (from_toks (m_main m) (m_shown m)). split; [reflexivity|]. split; [reflexivity|]. apply from_quiet; assumption.
      + apply Forall_app. split; [apply headed_list; [reflexivity|constructor|repeat constructor|exact W3]|].
        apply Forall_app. split; [apply headed_list; [reflexivity|repeat constructor|repeat constructor|exact G3]|].
        apply Forall_app. split; [apply headed_list; [reflexivity|repeat constructor|repeat constructor|exact O3]|].
        apply Forall_app. split; apply headed_number; reflexivity. }
  unfold read_select_by. rewrite S1.
  assert (A1 : after_words ["SELECT"] sel = Some (tl (select_words (m_distinct m)) ++ token_join [TOp ","] (map item_toks (items m)))).
  { unfold sel. destruct (m_distinct m); reflexivity. }
  rewrite A1. clear A1.
  assert (D0 : after_words ["DISTINCT"] (token_join [TOp ","] (map item_toks (items m))) = None).
  { unfold items. destruct (m_cols m) as [|c l]; [congruence|]. inversion Hc as [|c' l' Hcc _]; subst. cbn [map app token_join]. unfold item_toks at 1. cbn [fst snd].
    pose proof (col_quiet (kw "DISTINCT") c ltac:(apply foreign_kw; reserved_in) Hcc) as Q. destruct (col_toks c) as [|t r] eqn:E.
    - unfold col_toks in E. destruct (is_empty (fst c)); discriminate.
    - inversion Q as [|t' r' Q1 _]; subst. cbn [app after_words]. rewrite Q1. reflexivity. }
  assert (A2 : forall X, after_words ["DISTINCT"] (tl (select_words true) ++ X) = Some X) by reflexivity.
  assert (A3 : (match after_words ["DISTINCT"] (tl (select_words (m_distinct m)) ++ token_join [TOp ","] (map item_toks (items m))) with Some _ => true | None => false end) = m_distinct m).
  { destruct (m_distinct m) eqn:E; [reflexivity|]. cbn [select_words tl app]. rewrite D0. reflexivity. }
  assert (A4 : (match after_words ["DISTINCT"] (tl (select_words (m_distinct m)) ++ token_join [TOp ","] (map item_toks (items m))) with Some r => r
     | None => tl (select_words (m_distinct m)) ++ token_join [TOp ","] (map item_toks (items m)) end) = token_join [TOp ","] (map item_toks (items m))).
  { destruct (m_distinct m) eqn:E; [reflexivity|]. cbn [select_words tl app]. rewrite D0. reflexivity. }
  cbv zeta. rewrite A3, A4. rewrite (pieces_join (op ",") (TOp ",") (map item_toks (items m)) eq_refl I4 Ni), (each_ok _ _ read_item _ _ I2).
  unfold cls. rewrite (clause_hit _ ["FROM"] read_from fr (wh ++ gr ++ ord ++ li ++ off) (from_toks (m_main m) (m_shown m)) _ eq_refl (read_from_ok _ _ Ht Hs)).
  assert (Mo : misses ["OFFSET"] []) by exact Logic.I.
  assert (Ml : misses ["LIMIT"] off) by (rewrite <- (app_nil_r off); apply misses_number; [reflexivity|exact Logic.I]).
  assert (Mr : misses ["ORDER"; "BY"] (li ++ off)).
  { apply misses_number; [reflexivity|]. rewrite <- (app_nil_r off). apply misses_number; [reflexivity|exact Logic.I]. }
  assert (Mg : misses ["GROUP"; "BY"] (ord ++ li ++ off)).
  { apply misses_list; [reflexivity|]. apply misses_number; [reflexivity|]. rewrite <- (app_nil_r off). apply misses_number; [reflexivity|exact Logic.I]. }
  assert (Mw : misses ["WHERE"] (gr ++ ord ++ li ++ off)).
  { apply misses_list; [reflexivity|]. apply misses_list; [reflexivity|]. apply misses_number; [reflexivity|]. rewrite <- (app_nil_r off). apply misses_number; [reflexivity|exact Logic.I]. }
  destruct (clause_list _ ["WHERE"] [TWord "WHERE"] (TWord "AND") (kw "AND") rc _ _ _ (fun r => eq_refl) eq_refl W4 W2 Mw) as (ow & Ew & Lw).
  fold wh in Ew. rewrite Ew.
  destruct (clause_list _ ["GROUP"; "BY"] [TWord "GROUP"; TWord "BY"] (TOp ",") (op ",") read_col _ _ _ (fun r => eq_refl) eq_refl G4 G2 Mg) as (og & Eg & Lg).
  fold gr in Eg. rewrite Eg.
  destruct (clause_list _ ["ORDER"; "BY"] [TWord "ORDER"; TWord "BY"] (TOp ",") (op ",") read_order _ _ _ (fun r => eq_refl) eq_refl O4 O2 Mr) as (oo & Eo & Lo).
  fold ord in Eo. rewrite Eo.
  unfold li. rewrite (clause_number "LIMIT" (m_limit m) off Ml).
  unfold off. rewrite <- (app_nil_r (number_toks "OFFSET" (m_offset m))), (clause_number "OFFSET" (m_offset m) [] Mo).
  rewrite Lw, Lg, Lo. reflexivity.
Qed.
Theorem read_stmt : forall m phs, named m -> Forall operand phs -> List.length phs = List.length (m_args m) ->
  read_select (tokens false (sql m phs)) = Some (said m (map (tokens false) phs)).
Proof.
  intros m phs N Hp Hl. destruct (conds_ok _ _ (proj1 (proj2 (proj2 (proj2 (proj2 N))))) Hp Hl) as (W1 & W2 & W3 & W4).
  assert (T : tokens false (sql m phs) = concat (clause_toks m (conds_toks (m_conds m) phs))).
  { apply lx_tokens. change (sql m phs) with (str_join " " (clause_texts m (cond_texts (m_conds m) phs))). apply lx_list; [apply clauses_lx; assumption|].
    unfold clause_texts. destruct N as (Hn & _). destruct (m_cols m); [congruence|discriminate]. }
  rewrite T. apply clauses_read; assumption.
Qed.
