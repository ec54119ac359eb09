(** Proofs for Prop_sqlgram.v: which built statements are in the grammar of SQL. *)
From Coq Require Import Strings.String Strings.Ascii NArith ZArith List Bool Lia.
From Verif Require Import GoStr GoNum Syntax Value Util Model Sqlf Sqlb Spec_syntax RefSem Spec_build
  Spec_util Spec_eval Spec_query Spec_sql Spec_nest Spec_interp Sql_proofs Interp_proofs Nest_proofs Sqltok_proofs Read_proofs Read2_proofs Nread_proofs Nread2_proofs
  Ninterp_proofs Nshown_proofs Spec_sqltok Spec_read Spec_nread Spec_sqlgram.
Import ListNotations.
Open Scope string_scope.
Open Scope list_scope.

Lemma share_each : forall A C (args : A -> list value) (f : A -> list (list token) -> C) (P : C -> Prop) (Q : A -> Prop) l,
  (forall a, In a l -> forall phs, List.length phs = List.length (args a) -> P (f a phs) <-> Q a) ->
  forall phs, List.length phs = List.length (flat_map args l) -> each_of P (share_said args f l phs) <-> forall a, In a l -> Q a.
Proof.
  intros A C args f P Q l. induction l as [|a l IH]; intros H phs L.
  - cbn. split; [intros _ a []|auto].
  - cbn [flat_map] in L. rewrite List.app_length in L. cbn [share_said each_of fold_right]. fold (each_of P (share_said args f l (skipn (List.length (args a)) phs))).
    rewrite (H a (or_introl eq_refl)) by (rewrite firstn_length_le; lia). rewrite (IH (fun b Hb => H b (or_intror Hb))) by (rewrite skipn_length; lia). split.
    + intros [Ha Hl] b [<-|Hb]; auto.
    + intros K. split; [apply K; left; reflexivity|intros b Hb; apply K; right; exact Hb].
Qed.
Lemma share_empty : forall A C (args : A -> list value) (f : A -> list (list token) -> C) l phs, share_said args f l phs = [] <-> l = [].
Proof. intros A C args f [|a l] phs; cbn; split; intros H; congruence. Qed.
Lemma number_none : forall z, number_said z = None <-> (z <= 0)%Z.
Proof. intros z. unfold number_said. destruct (Z.ltb_spec 0 z); split; intros; try discriminate; try reflexivity; lia. Qed.
Lemma numbered_none : forall A (f : nat * (col * N) -> A) m, map f (numbered m) = [] <-> m_orders m = [].
Proof. intros A f m. unfold numbered. destruct (m_orders m); cbn; split; intros; congruence. Qed.
Lemma simple_said : forall x phs, List.length phs = List.length (cond_args x) -> simple_fine (cond_said x phs) <-> values_given (Plain x).
Proof.
  intros x phs L. destruct x as [c o v|c l|c l]; cbn [cond_said simple_fine values_given]; [tauto| |];
    (split; intros H K; apply H; destruct phs; destruct (cond_args _); try discriminate; reflexivity || discriminate).
Qed.
Theorem grammatical_said : forall B d id, complete B d id -> forall phs, List.length phs = List.length (args_of B d id) ->
  grammatical (statement_said B d id phs) <-> in_grammar B d id.
Proof.
  intros B d. induction d as [|d IH]; intros id Hc phs L; [destruct Hc|]. cbn [complete] in Hc. cbn [args_of] in L. unfold in_grammar. cbn [statement_said members].
  destruct (nth_error B id) as [x|] eqn:Q; [|destruct Hc]. rewrite !List.app_length in L.
  set (nw := List.length (flat_map (fun w => args_of B d (w_id w)) (emitted x))) in *. set (nc := List.length (flat_map (xcond_args (args_of B d)) (x_conds x))) in *.
  assert (Lw : List.length (firstn nw phs) = nw) by (rewrite firstn_length_le; lia).
  assert (Lc : List.length (firstn nc (skipn nw phs)) = nc) by (rewrite firstn_length_le; [reflexivity|rewrite skipn_length; lia]).
  assert (Lu : List.length (skipn nc (skipn nw phs)) = List.length (flat_map (args_of B d) (x_unions x))) by (rewrite !skipn_length; lia).
  cbn [grammatical]. rewrite share_empty. cbn [said_by r_orders r_limit r_offset]. rewrite numbered_none, !number_none. fold (unions_last x).
  assert (One : forall j, In j (refs x) -> forall ph, List.length ph = List.length (args_of B d j) -> grammatical (statement_said B d j ph) <-> in_grammar B d j) by (intros j Hj; apply IH, Hc, Hj).
  rewrite (share_each _ _ (fun w => args_of B d (w_id w)) _ _ (fun w => in_grammar B d (w_id w))); [| |exact Lw].
  2: { intros w Hw ph Lp. cbn [snd]. apply One; [|exact Lp]. apply in_or_app. left. apply in_map. exact Hw. }
  rewrite (share_each _ _ (xcond_args (args_of B d)) _ _ (fun c => match c with Plain x => values_given (Plain x) | Sub _ _ j => in_grammar B d j end)); [| |exact Lc].
  2: { intros [y|c o j] Hy ph Lp; cbn [xcond_said xcond_args] in *; [apply simple_said, Lp|]. apply One; [|exact Lp]. apply in_or_app. right. apply in_or_app. left.
    apply in_flat_map. exists (Sub c o j). split; [exact Hy|left; reflexivity]. }
  rewrite (share_each _ _ (args_of B d) _ _ (fun j => in_grammar B d j)); [| |exact Lu].
  2: { intros j Hj. apply One. apply in_or_app. right. apply in_or_app. right. exact Hj. }
  split.
  - intros (Hl & Hw & Hx & Hu) j y [<-|Hj] Hy.
    + rewrite Q in Hy. injection Hy as <-. split; [exact Hl|]. apply Forall_forall. intros c Hi. specialize (Hx c Hi). destruct c; [exact Hx|exact Logic.I].
    + apply in_flat_map in Hj. destruct Hj as (i & Hi & Hj). unfold refs in Hi. apply in_app_or in Hi. destruct Hi as [Hi|Hi].
      * apply in_map_iff in Hi. destruct Hi as (w & <- & Hi). exact (Hw w Hi j y Hj Hy).
      * apply in_app_or in Hi. destruct Hi as [Hi|Hi]; [|exact (Hu i Hi j y Hj Hy)]. apply in_flat_map in Hi. destruct Hi as ([c|c o k] & Hi & Hk); [destruct Hk|].
        destruct Hk as [<-|[]]. exact (Hx _ Hi j y Hj Hy).
  - intros H. assert (R : forall i, In i (refs x) -> in_grammar B d i) by (intros i Hi j y Hj Hy; apply (H j y); [right; apply in_flat_map; exists i; split; assumption|exact Hy]).
    destruct (H id x (or_introl eq_refl) Q) as [Hl Hv]. rewrite Forall_forall in Hv. split; [exact Hl|]. split; [|split].
    + intros w Hw. apply R. apply in_or_app. left. apply in_map. exact Hw.
    + intros [y|c o j] Hy; [exact (Hv _ Hy)|]. apply R. apply in_or_app. right. apply in_or_app. left. apply in_flat_map. exists (Sub c o j). split; [exact Hy|left; reflexivity].
    + intros j Hj. apply R. apply in_or_app. right. apply in_or_app. right. exact Hj.
Qed.
Lemma in_sql_said : forall B d id text phs, complete B d id -> List.length phs = List.length (args_of B d id) ->
  read_statement (tokens false text) = Some (statement_said B d id phs) -> in_sql text <-> in_grammar B d id.
Proof.
  intros B d id text phs Hc L R. rewrite <- (grammatical_said B d id Hc phs L). unfold in_sql. split.
  - intros (q & H & G). rewrite R in H. injection H as <-. exact G.
  - intros G. exists (statement_said B d id phs). split; assumption.
Qed.
Theorem grammar_question : forall B oss style d id, style <> style_dollar -> book oss B -> Forall xnamed B -> complete B d id -> used_once B d id ->
  exists qs, made oss qs /\ forall n, size_of B d id <= n -> exists text args,
    fst (build_query n style qs (query id)) = ROk (text, args) /\ (in_sql text <-> in_grammar B d id).
Proof.
  intros B oss style d id Hs Hb Nb Hc Hu. destruct (nread_question B oss style d id Hs Hb Nb Hc Hu) as (qs & M & H). exists qs. split; [exact M|].
  intros n Hn. destruct (H n Hn) as (text & X & R). exists text, (args_of B d id). split; [exact X|]. exact (in_sql_said B d id text _ Hc (map_length _ _) R).
Qed.
Theorem grammar_dollar : forall B oss d id, book oss B -> Forall xnamed B -> complete B d id -> used_once B d id -> forallb hashable (args_of B d id) = true ->
  exists qs, made oss qs /\ forall n, size_of B d id <= n -> exists text args,
    fst (build_query n style_dollar qs (query id)) = ROk (text, args) /\ (in_sql text <-> in_grammar B d id).
Proof.
  intros B oss d id Hb Nb Hc Hu Hh. destruct (nread_dollar B oss d id Hb Nb Hc Hu Hh) as (qs & phs & M & F & H). exists qs. split; [exact M|].
  intros n Hn. destruct (H n Hn) as (text & X & R). exists text, (firsts [] (args_of B d id)). split; [exact X|]. exact (in_sql_said B d id text _ Hc (f2_len _ _ _ F) R).
Qed.
Theorem grammar_shown : forall ft B oss style d id lits, style <> style_dollar -> book oss B -> Forall xnamed B -> Forall plain_names B -> complete B d id -> used_once B d id ->
  Forall2 (literal ft) (args_of B d id) lits -> forallb (readable false ft) (args_of B d id) = true ->
  exists qs, made oss qs /\ forall n, size_of B d id <= n -> exists s args out,
    fst (build_query n style qs (query id)) = ROk (s, args) /\ interpolate ft s args = ROk out /\ (in_sql out <-> in_grammar B d id).
Proof.
  intros ft B oss style d id lits Hs Hb Nb Np Hc Hu F Rd. destruct (nshown_question ft B oss style d id lits Hs Hb Nb Np Hc Hu F Rd) as (qs & vs & M & V & H). exists qs. split; [exact M|].
  intros n Hn. destruct (H n Hn) as (s & args & out & X & I & R). exists s, args, out. split; [exact X|]. split; [exact I|]. exact (in_sql_said B d id out vs Hc (eq_sym (f2_len _ _ _ V)) R).
Qed.
Theorem grammar_shown_dollar : forall ft B oss d id lits, book oss B -> Forall xnamed B -> Forall plain_names B -> complete B d id -> used_once B d id -> forallb hashable (args_of B d id) = true ->
  (Z.of_nat (List.length (args_of B d id)) < 9223372036854775808)%Z -> Forall2 (literal ft) (args_of B d id) lits -> literal_by_value ft (args_of B d id) ->
  forallb (readable false ft) (args_of B d id) = true ->
  exists qs, made oss qs /\ forall n, size_of B d id <= n -> exists s args out,
    fst (build_query n style_dollar qs (query id)) = ROk (s, args) /\ interpolate ft s args = ROk out /\ (in_sql out <-> in_grammar B d id).
Proof.
  intros ft B oss d id lits Hb Nb Np Hc Hu Hh Hz F Hl Rd. destruct (nshown_dollar ft B oss d id lits Hb Nb Np Hc Hu Hh Hz F Hl Rd) as (qs & vs & M & V & H). exists qs. split; [exact M|].
  intros n Hn. destruct (H n Hn) as (s & args & out & X & I & R). exists s, args, out. split; [exact X|]. split; [exact I|]. exact (in_sql_said B d id out vs Hc (eq_sym (f2_len _ _ _ V)) R).
Qed.
