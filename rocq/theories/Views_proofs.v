(** Proofs for the answers of statements made of several queries. *)
From Coq Require Import Strings.String NArith ZArith List Bool Sorting.Permutation Sorting.Sorted.
From Verif Require Import GoStr GoNum Syntax Value Util Model Sqlf Sqlb Spec_syntax RefSem Spec_build Spec_eval Spec_query Spec_sql Spec_nest Nest_proofs Spec_answer Answer_proofs Spec_views.
Import ListNotations.
Open Scope string_scope.

(** ** The text of the lean statement *)
Lemma shown_idem : forall m, m_shown (trimmed m) = m_shown m.
Proof.
  intro m. unfold m_shown, trimmed. cbn [m_joins]. unfold m_shown. induction (m_joins m) as [|j js IH]; [reflexivity|].
  cbn [filter]. destruct (appears j) eqn:A; [cbn [filter]; rewrite A, IH; reflexivity|exact IH].
Qed.
Lemma emitted_idem : forall x, emitted (lean x) = emitted x.
Proof.
  intro x. unfold emitted, lean. cbn [x_withs]. unfold emitted. induction (x_withs x) as [|w ws IH]; [reflexivity|].
  cbn [filter]. destruct (w_emitted w) eqn:A; [cbn [filter]; rewrite A, IH; reflexivity|exact IH].
Qed.
Lemma lean_xtext : forall x ws cs us, xtext (lean x) ws cs us = xtext x ws cs us.
Proof.
  intros x ws cs us. unfold xtext. rewrite emitted_idem. change (x_stmt (lean x)) with (trimmed (x_stmt x)). rewrite shown_idem. reflexivity.
Qed.
Lemma nth_lean : forall B id, nth_error (map lean B) id = option_map lean (nth_error B id).
Proof. intros B id. apply nth_error_map. Qed.
Lemma lean_args : forall B d id, args_of (map lean B) d id = args_of B d id.
Proof.
  intro B. induction d as [|d IH]; intro id; [reflexivity|]. cbn [args_of]. rewrite nth_lean. destruct (nth_error B id) as [x|]; [|reflexivity]. cbn [option_map].
  rewrite emitted_idem. change (x_conds (lean x)) with (x_conds x). change (x_unions (lean x)) with (x_unions x). f_equal; [|f_equal].
  - apply flat_map_ext. intro w. apply IH.
  - apply flat_map_ext. intros [c|c op j]; [reflexivity|apply IH].
  - apply flat_map_ext. exact IH.
Qed.
Lemma share_ext : forall A (a a' : A -> list value) (t t' : A -> list string -> string) l phs,
  (forall x, a x = a' x) -> (forall x p, t x p = t' x p) -> share a t l phs = share a' t' l phs.
Proof.
  intros A a a' t t' l phs Ha Ht. revert phs. induction l as [|x l IH]; intro phs; [reflexivity|]. cbn [share]. rewrite Ha, Ht, IH. reflexivity.
Qed.
Lemma lean_text : forall B d id phs, text_of (map lean B) d id phs = text_of B d id phs.
Proof.
  intro B. induction d as [|d IH]; intros id phs; [reflexivity|]. cbn [text_of]. rewrite nth_lean. destruct (nth_error B id) as [x|]; [|reflexivity]. cbn [option_map].
  rewrite lean_xtext, emitted_idem. change (x_conds (lean x)) with (x_conds x). change (x_unions (lean x)) with (x_unions x).
  assert (Ea : forall w : with_item, args_of (map lean B) d (w_id w) = args_of B d (w_id w)) by (intro; apply lean_args).
  assert (Ec : forall c, xcond_args (args_of (map lean B) d) c = xcond_args (args_of B d) c) by (intros [c|c op j]; [reflexivity|apply lean_args]).
  rewrite (flat_map_ext _ _ Ea), (flat_map_ext _ _ Ec). f_equal; apply share_ext.
  - exact Ea.
  - intros w p. apply IH.
  - exact Ec.
  - intros [c|c op j] p; [reflexivity|]. cbn [xcond_text]. rewrite IH. reflexivity.
  - apply lean_args.
  - exact IH.
Qed.
Lemma lean_with_reads : forall r r' ws b b', (forall id : nat, r id = r' id) -> b = b' -> with_reads r ws b = with_reads r' ws b'.
Proof. intros r r' ws b b' Hr ->. induction ws as [|w ws IH]; [reflexivity|]. cbn [with_reads]. rewrite Hr, IH. reflexivity. Qed.
Lemma lean_reads : forall B d id, reads (map lean B) d id = reads B d id.
Proof.
  intro B. induction d as [|d IH]; intro id; [reflexivity|]. cbn [reads]. rewrite nth_lean. destruct (nth_error B id) as [x|]; [|reflexivity]. cbn [option_map].
  rewrite emitted_idem. apply lean_with_reads; [exact IH|]. f_equal.
  - unfold sources. change (x_stmt (lean x)) with (trimmed (x_stmt x)). rewrite shown_idem. reflexivity.
  - change (inner (lean x)) with (inner x). apply flat_map_ext. exact IH.
Qed.

Section Views.
Variable D : database.
Variable sub_holds : string -> d_val D -> list (list (d_val D)) -> bool.
Notation listing := (list (list (d_val D))).
Notation tables := (string -> list (row_of (d_val D))).
Notation ans := (answer D sub_holds).

(** ** Rows matter only in the tables that are read *)
Definition answers_from (F : list (rows_of (d_val D))) (m : stmt) (ts : list (test D)) (l : list (result_row D)) : Prop :=
  exists s,
    (let res := map (fun g => (map (col_value D g) (m_cols m), map (fun o => col_value D g (fst o)) (m_orders m)))
       (match m_groups m with
        | [] => map (fun e => [e]) (filter (fun e => forallb (fun t => snd t (col_value D [e] (fst t))) ts) F)
        | cs => fold_left (fun gs e => add_to D cs e gs) (filter (fun e => forallb (fun t => snd t (col_value D [e] (fst t))) ts) F) []
        end) in
     if m_distinct m then NoDup s /\ (forall x, In x s <-> In x res) else Permutation s res) /\
    StronglySorted (fun a b => d_before D (map snd (m_orders m)) (snd a) (snd b)) s /\
    l = cut m s.
Lemma answers_from_eq : forall E m ts l, answers_where (with_rows D E) m ts l = answers_from (from_rows (with_rows D E) m) m ts l.
Proof. reflexivity. Qed.
Lemma from_ext : forall (E1 E2 : tables) js l, (forall j, In j js -> E1 (fst (j_table j)) = E2 (fst (j_table j))) ->
  fold_left (join_rows (with_rows D E1)) js l = fold_left (join_rows (with_rows D E2)) js l :> list (rows_of (d_val D)).
Proof.
  intros E1 E2. induction js as [|j js IH]; intros l H; [reflexivity|]. cbn [fold_left].
  assert (E : join_rows (with_rows D E1) l j = join_rows (with_rows D E2) l j :> list (rows_of (d_val D))).
  { assert (Ej := H j (or_introl eq_refl)).
    assert (P : forall e, partners (with_rows D E1) j e = partners (with_rows D E2) j e :> list (row_of (d_val D))).
    { intro e. change (filter (on_holds D j e) (E1 (fst (j_table j))) = filter (on_holds D j e) (E2 (fst (j_table j)))). rewrite Ej. reflexivity. }
    assert (M : matched (with_rows D E1) j l = matched (with_rows D E2) j l :> list (rows_of (d_val D))).
    { apply flat_map_ext. intro e. exact (f_equal (map (fun r => bind D (known_as (j_table j)) r e)) (P e)). }
    assert (N : matched_or_null (with_rows D E1) j l = matched_or_null (with_rows D E2) j l :> list (rows_of (d_val D))).
    { apply flat_map_ext. intro e. exact (f_equal (fun rs => match rs with [] => [bind D (known_as (j_table j)) (no_row D) e] | r0 :: l0 => map (fun r => bind D (known_as (j_table j)) r e) (r0 :: l0) end) (P e)). }
    assert (S : strangers (with_rows D E1) j l = strangers (with_rows D E2) j l :> list (rows_of (d_val D))).
    { exact (f_equal (fun rs => map (fun r => bind D (known_as (j_table j)) r (no_rows D)) (filter (fun r => negb (existsb (fun e => on_holds D j e r) l)) rs)) Ej). }
    unfold join_rows. destruct (j_kind j); [exact M|exact N|exact (f_equal2 (@app _) M S)|exact (f_equal2 (@app _) N S)|exact N]. }
  rewrite E. apply IH. intros i Hi. apply H. right. exact Hi.
Qed.
Lemma rows_ext : forall (E1 E2 : tables) m, (forall t, In t (m_main m :: map j_table (m_joins m)) -> E1 (fst t) = E2 (fst t)) ->
  from_rows (with_rows D E1) m = from_rows (with_rows D E2) m :> list (rows_of (d_val D)).
Proof.
  intros E1 E2 m H. unfold from_rows. transitivity (fold_left (join_rows (with_rows D E2)) (m_joins m) (map (fun r => bind D (known_as (m_main m)) r (no_rows D)) (E1 (fst (m_main m))))).
  - apply from_ext. intros j Hj. apply H. right. apply in_map, Hj.
  - rewrite (H (m_main m) (or_introl eq_refl)). reflexivity.
Qed.
Lemma answers_ext : forall (E1 E2 : tables) m ts l, (forall t, In t (m_main m :: map j_table (m_joins m)) -> E1 (fst t) = E2 (fst t)) ->
  answers_where (with_rows D E1) m ts l <-> answers_where (with_rows D E2) m ts l.
Proof. intros E1 E2 m ts l H. rewrite !answers_from_eq, (rows_ext E1 E2 m H). reflexivity. Qed.

Lemma forall2_mono : forall A C (P Q : A -> C -> Prop) l l', (forall a b, In a l -> P a b -> Q a b) -> Forall2 P l l' -> Forall2 Q l l'.
Proof.
  intros A C P Q l l' H F. induction F as [|a b l l' Hab F IH]; constructor; [apply H; [left; reflexivity|exact Hab]|]. apply IH. intros x y Hx. apply H. right. exact Hx.
Qed.
Lemma inner_cond : forall x c op id, In (Sub c op id) (x_conds x) -> In id (inner x).
Proof. intros x c op id H. unfold inner. apply in_or_app. left. apply in_flat_map. eexists. split; [exact H|left; reflexivity]. Qed.
Lemma inner_union : forall x id, In id (x_unions x) -> In id (inner x).
Proof. intros x id H. unfold inner. apply in_or_app. right. exact H. Qed.
Lemma tests_mono : forall x (P Q : nat -> listing -> Prop) ts, (forall id a, In id (inner x) -> P id a -> Q id a) ->
  Forall2 (test_of D sub_holds P) (x_conds x) ts -> Forall2 (test_of D sub_holds Q) (x_conds x) ts.
Proof.
  intros x P Q ts H. apply forall2_mono. intros [c|c op id] t Hi; [exact (fun e => e)|]. intros (a & Ha & E). exists a. split; [|exact E]. apply H; [exact (inner_cond x c op id Hi)|exact Ha].
Qed.
Lemma tests_cols : forall sub cs ts, Forall2 (test_of D sub_holds sub) cs ts -> map fst ts = map xcond_col cs.
Proof.
  intros sub cs ts F. induction F as [|c t cs ts H F IH]; [reflexivity|]. cbn [map]. rewrite IH. f_equal. destruct c as [c|c op id]; cbn [test_of] in H; [subst t; reflexivity|].
  destruct H as (a & _ & ->). reflexivity.
Qed.

(** In a book where everything appears. *)
Section Coincidence.
Variable B : list xstmt.
Hypothesis Hlean : forall id x, nth_error B id = Some x -> emitted x = x_withs x /\ m_shown (x_stmt x) = m_joins (x_stmt x).
Lemma with_coincide : forall (P : tables -> nat -> listing -> Prop) (r : nat -> list string),
  (forall E1 E2 id l, (forall a, In a (r id) -> E1 a = E2 a) -> P E1 id l -> P E2 id l) ->
  forall ws body E1 E2 E1', (forall a, In a (with_reads r ws body) -> E1 a = E2 a) -> with_tables D B P ws E1 E1' ->
  exists E2', with_tables D B P ws E2 E2' /\ forall a, In a body -> E1' a = E2' a.
Proof.
  intros P r HP. induction ws as [|w ws IH]; intros body E1 E2 E1' H W; cbn [with_tables with_reads] in *.
  - subst E1'. exists E2. split; [reflexivity|exact H].
  - destruct W as (a & Ha & W). destruct (IH body (bind_table D (w_name w) (map (named D (names_of B (w_id w))) a) E1) (bind_table D (w_name w) (map (named D (names_of B (w_id w))) a) E2) E1') with (2 := W) as (E2' & W2 & G).
    + intros y Hy. unfold bind_table. destruct (String.eqb y (w_name w)) eqn:Ey; [reflexivity|]. apply H, in_or_app. right. apply filter_In. split; [exact Hy|]. rewrite Ey. reflexivity.
    + exists E2'. split; [|exact G]. exists a. split; [|exact W2]. apply (HP E1); [|exact Ha]. intros y Hy. apply H, in_or_app. left. exact Hy.
Qed.
Lemma coincide : forall d E1 E2 id l, (forall a, In a (reads B d id) -> E1 a = E2 a) -> ans B d E1 id l -> ans B d E2 id l.
Proof.
  induction d as [|d IH]; intros E1 E2 id l H A; [exact A|]. cbn [answer reads] in *. destruct (nth_error B id) as [x|] eqn:Ex; [|exact A].
  destruct A as (E1' & ts & a & us & W & T & A & U & O). destruct (Hlean id x Ex) as [He Hs]. rewrite He in H.
  destruct (with_coincide (ans B d) (reads B d) IH _ _ E1 E2 E1' H W) as (E2' & W2 & G).
  assert (GI : forall i, In i (inner x) -> forall b, In b (reads B d i) -> E1' b = E2' b).
  { intros i Hi b Hb. apply G, in_or_app. right. apply in_flat_map. exists i. split; assumption. }
  exists E2', ts, a, us. split; [exact W2|]. split; [|split; [|split; [|exact O]]].
  - apply (tests_mono x (ans B d E1')); [|exact T]. intros i b Hi. apply IH, GI, Hi.
  - apply (answers_ext E1' E2'); [|exact A]. intros t Ht. apply G, in_or_app. left. apply in_map. unfold sources. rewrite Hs. exact Ht.
  - apply (forall2_mono _ _ (ans B d E1')) with (2 := U). intros i b Hi. apply IH, GI, inner_union, Hi.
Qed.
End Coincidence.

(** ** Every statement has an answer *)
Lemma insert_sorted : forall A (R : A -> A -> Prop), (forall a b, R a b \/ R b a) -> (forall a b c, R a b -> R b c -> R a c) ->
  forall x l, StronglySorted R l -> exists l', Permutation l' (x :: l) /\ StronglySorted R l'.
Proof.
  intros A R T C x. induction l as [|y l IH]; intro S.
  - exists [x]. split; [apply Permutation_refl|repeat constructor].
  - inversion S as [|? ? S' F]; subst. destruct (T x y) as [K|K].
    + exists (x :: y :: l). split; [apply Permutation_refl|]. constructor; [exact S|]. constructor; [exact K|]. eapply Forall_impl; [|exact F]. intros z Hz. exact (C _ _ _ K Hz).
    + destruct (IH S') as (l' & P & S2). exists (y :: l'). split.
      * eapply Permutation_trans; [apply perm_skip, P|apply perm_swap].
      * constructor; [exact S2|]. rewrite Forall_forall in *. intros z Hz. apply (Permutation_in _ P) in Hz. destruct Hz as [<-|Hz]; [exact K|apply F, Hz].
Qed.
Lemma sorted_exists : forall A (R : A -> A -> Prop), (forall a b, R a b \/ R b a) -> (forall a b c, R a b -> R b c -> R a c) ->
  forall l, exists l', Permutation l' l /\ StronglySorted R l'.
Proof.
  intros A R T C. induction l as [|x l (l1 & P & S)]; [exists []; split; constructor|]. destruct (insert_sorted A R T C x l1 S) as (l2 & P2 & S2).
  exists l2. split; [|exact S2]. eapply Permutation_trans; [exact P2|apply perm_skip, P].
Qed.
Lemma nodup_exists : forall A, (forall a b : A, {a = b} + {a <> b}) -> forall l : list A, exists s, NoDup s /\ forall x, In x s <-> In x l.
Proof. intros A dec l. exists (nodup dec l). split; [apply NoDup_nodup|intro x; apply nodup_In]. Qed.
Lemma val_dec : forall a b : d_val D, {a = b} + {a <> b}.
Proof. intros a b. destruct (d_same D a b) eqn:E; [left; apply (d_same_ok D), E|right]. intro K. apply (d_same_ok D) in K. congruence. Qed.
Hypothesis Horder : orderly D.
Lemma answers_exist : forall E m ts, exists a, answers_where (with_rows D E) m ts a.
Proof.
  intros E m ts. set (res := results_where (with_rows D E) m ts).
  assert (R : exists s, (if m_distinct m then NoDup s /\ (forall x, In x s <-> In x res) else Permutation s res) /\
    StronglySorted (fun a b => d_before D (map snd (m_orders m)) (snd a) (snd b)) s).
  { destruct (Horder (map snd (m_orders m))) as [T C].
    assert (S : forall l : list (result_row D), exists l', Permutation l' l /\ StronglySorted (fun a b => d_before D (map snd (m_orders m)) (snd a) (snd b)) l').
    { apply sorted_exists; [intros a b; apply T|intros a b c; apply C]. }
    destruct (m_distinct m).
    - assert (dec : forall a b : result_row D, {a = b} + {a <> b}) by (intros a b; decide equality; apply (list_eq_dec val_dec)).
      destruct (nodup_exists _ dec res) as (s & N & H). destruct (S s) as (s' & P & S'). exists s'. split; [|exact S']. split.
      + apply (Permutation_NoDup (Permutation_sym P) N).
      + intro x. rewrite <- H. split; intro K; [exact (Permutation_in _ P K)|exact (Permutation_in _ (Permutation_sym P) K)].
    - exact (S res). }
  destruct R as (s & R1 & R2). exists (cut m s), s. split; [exact R1|]. split; [exact R2|reflexivity].
Qed.
Lemma together_exists : forall (l : listing) us, exists r, together D l us r.
Proof.
  intros l us. unfold together. destruct us as [|u us]; [exists l; reflexivity|].
  destruct (nodup_exists _ (list_eq_dec val_dec) (concat (l :: u :: us))) as (s & N & H). exists s. split; [exact N|]. intro v. rewrite H, in_concat. reflexivity.
Qed.
Lemma forall2_exists : forall A C (P : A -> C -> Prop) l, (forall a, In a l -> exists b, P a b) -> exists l', Forall2 P l l'.
Proof.
  intros A C P. induction l as [|a l IH]; intro H; [exists []; constructor|]. destruct (H a (or_introl eq_refl)) as (b & Hb).
  destruct IH as (l' & F); [intros x Hx; apply H; right; exact Hx|]. exists (b :: l'). constructor; assumption.
Qed.
Lemma with_exists : forall B (P : tables -> nat -> listing -> Prop) ws, (forall w E, In w ws -> exists a, P E (w_id w) a) -> forall E, exists E', with_tables D B P ws E E'.
Proof.
  intros B P. induction ws as [|w ws IH]; intros H E; [exists E; reflexivity|]. destruct (H w E (or_introl eq_refl)) as (a & Ha).
  destruct (IH (fun v E Hv => H v E (or_intror Hv)) (bind_table D (w_name w) (map (named D (names_of B (w_id w))) a) E)) as (E' & W). exists E', a. split; assumption.
Qed.
Lemma answer_exists : forall B d E id, whole B d id -> exists l, ans B d E id l.
Proof.
  intro B. induction d as [|d IH]; intros E id H; [destruct H|]. cbn [whole answer] in *. destruct (nth_error B id) as [x|]; [|destruct H].
  assert (Hi : forall E j, In j (inner x) -> exists l, ans B d E j l) by (intros E0 j Hj; apply IH, H, in_or_app; right; exact Hj).
  destruct (with_exists B (ans B d) (x_withs x)) with (E := E) as (E' & W); [intros w E0 Hw; apply IH, H, in_or_app; left; apply in_map; exact Hw|].
  destruct (forall2_exists _ _ (test_of D sub_holds (ans B d E')) (x_conds x)) as (ts & T).
  { intros [c|c op j] Hc; [eexists; reflexivity|]. destruct (Hi E' j (inner_cond x c op j Hc)) as (a & Ha). eexists. exists a. split; [exact Ha|reflexivity]. }
  destruct (answers_exist E' (x_stmt x) ts) as (a & A).
  destruct (forall2_exists _ _ (ans B d E') (x_unions x)) as (us & U); [intros j Hj; apply Hi, inner_union, Hj|].
  destruct (together_exists (map (out_row D (x_stmt x)) a) us) as (l & L). exists l, E', ts, a, us. auto.
Qed.

(** ** Leaving out *)
Section Lean.
Variable B : list xstmt.
Hypothesis Hok : Forall xstmt_ok B.
Hypothesis Hdecl : Forall (declared B) B.
Hypothesis Hsens : Forall (sensible D) B.
Lemma lean_lean : forall id x, nth_error (map lean B) id = Some x -> emitted x = x_withs x /\ m_shown (x_stmt x) = m_joins (x_stmt x).
Proof.
  intros id x H. rewrite nth_lean in H. destruct (nth_error B id) as [y|]; [|discriminate H]. injection H as <-. rewrite emitted_idem. cbn [lean x_stmt]. rewrite shown_idem. split; reflexivity.
Qed.
Lemma lean_names : forall id, names_of (map lean B) id = names_of B id.
Proof. intro id. unfold names_of. rewrite nth_lean. destruct (nth_error B id); reflexivity. Qed.
Definition dropped (x : xstmt) (a : string) : Prop := exists v, In v (x_withs x) /\ w_emitted v = false /\ w_name v = a.
Definition alike (x : xstmt) (E1 E2 : tables) : Prop := forall a, ~ dropped x a -> E1 a = E2 a.
Lemma dropped_wanted : forall x a, withs_ok x -> dropped x a -> ~ wanted x a.
Proof.
  intros x a [_ [[_ H]|[_ H]]] (v & Hv & He & <-) W; destruct (H v Hv) as [H1 H2]; [congruence|]. rewrite H2 in He; [discriminate He|exact W].
Qed.
Lemma with_keeps : forall x d w, withs_ok x -> declared B x -> In w (x_withs x) -> w_emitted w = true -> forall a, In a (reads B d (w_id w)) -> ~ dropped x a.
Proof.
  intros x d w Hw [Hd _] Hi He a Ha Hdr. pose proof (dropped_wanted x a Hw Hdr) as N. destruct Hdr as (v & Hv & Hf & <-).
  destruct Hw as [_ [[_ H]|[_ H]]]; [destruct (H v Hv) as [K _]; congruence|]. apply N. apply (wt_dep x w v); [apply (H w Hi), He|exact Hi|exact Hv|]. exact (Hd d w v Hi Hv Ha).
Qed.
Lemma inner_keeps : forall x d id, withs_ok x -> declared B x -> In id (inner x) -> forall a, In a (reads B d id) -> ~ dropped x a.
Proof.
  intros x d id Hw [_ Hd] Hi a Ha Hdr. apply (dropped_wanted x a Hw Hdr). destruct Hdr as (v & Hv & Hf & <-). exact (Hd d id v Hi Hv Ha).
Qed.
Lemma source_keeps : forall x t, withs_ok x -> In t (sources (x_stmt x)) -> ~ dropped x (fst t).
Proof. intros x t Hw Ht Hdr. apply (dropped_wanted x _ Hw Hdr). destruct Hdr as (v & Hv & Hf & E). rewrite <- E. exact (wt_table x t v Ht Hv E). Qed.

Lemma with_lean : forall x d, withs_ok x -> declared B x -> (forall E id l, In id (map w_id (x_withs x)) -> ans B d E id l -> ans (map lean B) d E id l) ->
  forall ws E1 E2 E1', incl ws (x_withs x) -> alike x E1 E2 -> with_tables D B (ans B d) ws E1 E1' ->
  exists E2', with_tables D (map lean B) (ans (map lean B) d) (filter w_emitted ws) E2 E2' /\ alike x E1' E2'.
Proof.
  intros x d Hw Hd IH. induction ws as [|w ws IHw]; intros E1 E2 E1' Hi A W; cbn [with_tables filter] in *.
  - subst E1'. exists E2. split; [reflexivity|exact A].
  - destruct W as (a & Ha & W). assert (Hin : In w (x_withs x)) by (apply Hi; left; reflexivity). assert (Hi' : incl ws (x_withs x)) by (intros v Hv; apply Hi; right; exact Hv).
    destruct (w_emitted w) eqn:He; cbn [with_tables].
    + destruct (IHw (bind_table D (w_name w) (map (named D (names_of B (w_id w))) a) E1) (bind_table D (w_name w) (map (named D (names_of B (w_id w))) a) E2) E1' Hi') with (2 := W) as (E2' & W2 & G).
      { intros y Hy. unfold bind_table. destruct (String.eqb y (w_name w)); [reflexivity|apply A, Hy]. }
      exists E2'. split; [|exact G]. exists a. rewrite lean_names. split; [|exact W2].
      apply (coincide (map lean B) lean_lean d E1); [|apply IH; [apply in_map, Hin|exact Ha]]. intros y Hy. apply A. rewrite lean_reads in Hy. exact (with_keeps x d w Hw Hd Hin He y Hy).
    + apply (IHw (bind_table D (w_name w) (map (named D (names_of B (w_id w))) a) E1) E2 E1' Hi'); [|exact W].
      intros y Hy. unfold bind_table. destruct (String.eqb_spec y (w_name w)) as [->|N]; [|apply A, Hy]. destruct Hy. exists w. auto.
Qed.
Lemma with_full : forall x d, withs_ok x -> declared B x -> (forall E id l, In id (map w_id (x_withs x)) -> ans (map lean B) d E id l -> ans B d E id l) ->
  (forall E w, In w (x_withs x) -> exists l, ans B d E (w_id w) l) ->
  forall ws E1 E2 E2', incl ws (x_withs x) -> alike x E1 E2 -> with_tables D (map lean B) (ans (map lean B) d) (filter w_emitted ws) E2 E2' ->
  exists E1', with_tables D B (ans B d) ws E1 E1' /\ alike x E1' E2'.
Proof.
  intros x d Hw Hd IH Hex. induction ws as [|w ws IHw]; intros E1 E2 E2' Hi A W; cbn [with_tables filter] in *.
  - subst E2'. exists E1. split; [reflexivity|exact A].
  - assert (Hin : In w (x_withs x)) by (apply Hi; left; reflexivity). assert (Hi' : incl ws (x_withs x)) by (intros v Hv; apply Hi; right; exact Hv).
    destruct (w_emitted w) eqn:He; cbn [with_tables] in W.
    + destruct W as (a & Ha & W). rewrite lean_names in W. destruct (IHw (bind_table D (w_name w) (map (named D (names_of B (w_id w))) a) E1) (bind_table D (w_name w) (map (named D (names_of B (w_id w))) a) E2) E2' Hi') with (2 := W) as (E1' & W1 & G).
      { intros y Hy. unfold bind_table. destruct (String.eqb y (w_name w)); [reflexivity|apply A, Hy]. }
      exists E1'. split; [|exact G]. exists a. split; [|exact W1]. apply IH; [apply in_map, Hin|].
      apply (coincide (map lean B) lean_lean d E2); [|exact Ha]. intros y Hy. symmetry. apply A. rewrite lean_reads in Hy. exact (with_keeps x d w Hw Hd Hin He y Hy).
    + destruct (Hex E1 w Hin) as (a & Ha). destruct (IHw (bind_table D (w_name w) (map (named D (names_of B (w_id w))) a) E1) E2 E2' Hi') with (2 := W) as (E1' & W1 & G).
      { intros y Hy. unfold bind_table. destruct (String.eqb_spec y (w_name w)) as [->|N]; [|apply A, Hy]. destruct Hy. exists w. auto. }
      exists E1'. split; [|exact G]. exists a. split; [exact Ha|exact W1].
Qed.
Lemma out_trimmed : forall m, out_row D (trimmed m) = out_row D m.
Proof. reflexivity. Qed.
Theorem lean_answers : forall d E id, whole B d id -> forall l, ans (map lean B) d E id l <-> ans B d E id l.
Proof.
  induction d as [|d IH]; intros E id Hwh l; [destruct Hwh|]. cbn [whole answer] in *. rewrite nth_lean. destruct (nth_error B id) as [x|] eqn:Ex; [|destruct Hwh]. cbn [option_map].
  assert (Hx : In x B) by (apply nth_error_In in Ex; exact Ex). rewrite Forall_forall in Hok, Hdecl, Hsens.
  destruct (Hok x Hx) as (_ & _ & _ & _ & Hw & Hs). pose proof (Hdecl x Hx) as Hd. destruct (Hsens x Hx) as (Hc & Hg & Hl).
  assert (IW : forall E0 id0 l0, In id0 (map w_id (x_withs x)) -> (ans (map lean B) d E0 id0 l0 <-> ans B d E0 id0 l0)) by (intros E0 j l0 Hj; apply IH, Hwh, in_or_app; left; exact Hj).
  assert (II : forall E0 id0 l0, In id0 (inner x) -> (ans (map lean B) d E0 id0 l0 <-> ans B d E0 id0 l0)) by (intros E0 j l0 Hj; apply IH, Hwh, in_or_app; right; exact Hj).
  assert (CO : forall E1 E2 j a, In j (inner x) -> alike x E1 E2 -> (ans (map lean B) d E1 j a -> ans (map lean B) d E2 j a)).
  { intros E1 E2 j a Hj A. apply (coincide (map lean B) lean_lean). intros y Hy. apply A. rewrite lean_reads in Hy. exact (inner_keeps x d j Hw Hd Hj y Hy). }
  assert (AN : forall E1 E2 ts a, map fst ts = map xcond_col (x_conds x) -> alike x E1 E2 -> (answers_where (with_rows D E1) (x_stmt x) ts a <-> answers_where (with_rows D E2) (trimmed (x_stmt x)) ts a)).
  { intros E1 E2 ts a Ht A. rewrite <- (answers_ext E1 E2 (trimmed (x_stmt x)) ts a).
    - symmetry. apply trimmed_where; [rewrite Ht; exact Hs|exact Hc|exact Hg|]. rewrite Ht. exact Hl.
    - intros t Hi. apply A. exact (source_keeps x t Hw Hi). }
  change (x_conds (lean x)) with (x_conds x). change (x_unions (lean x)) with (x_unions x). change (x_stmt (lean x)) with (trimmed (x_stmt x)). rewrite out_trimmed.
  split; intros (E' & ts & a & us & W & T & A & U & O).
  - destruct (with_full x d Hw Hd) with (ws := x_withs x) (E1 := E) (E2 := E) (E2' := E') as (E1' & W1 & G);
      [intros E0 j l0 Hj; apply IW, Hj|intros E0 w Hi; apply answer_exists, Hwh, in_or_app; left; apply in_map, Hi|apply incl_refl|intros y _; reflexivity|exact W|].
    assert (G' : alike x E' E1') by (intros y Hy; symmetry; apply G, Hy).
    exists E1', ts, a, us. split; [exact W1|]. split; [|split; [|split; [|exact O]]].
    + apply (tests_mono x (ans (map lean B) d E')); [|exact T]. intros j b Hj K. apply II; [exact Hj|]. exact (CO E' E1' j b Hj G' K).
    + apply (AN E1' E' ts a); [apply (tests_cols _ _ _ T)|exact G|exact A].
    + apply (forall2_mono _ _ (ans (map lean B) d E')) with (2 := U). intros j b Hj K. apply II; [apply inner_union, Hj|]. exact (CO E' E1' j b (inner_union x j Hj) G' K).
  - destruct (with_lean x d Hw Hd) with (ws := x_withs x) (E1 := E) (E2 := E) (E1' := E') as (E2' & W2 & G);
      [intros E0 j l0 Hj; apply IW, Hj|apply incl_refl|intros y _; reflexivity|exact W|].
    exists E2', ts, a, us. split; [exact W2|]. split; [|split; [|split; [|exact O]]].
    + apply (tests_mono x (ans B d E')); [|exact T]. intros j b Hj K. apply (CO E' E2' j b Hj G), II; [exact Hj|exact K].
    + apply (AN E' E2' ts a); [apply (tests_cols _ _ _ T)|exact G|exact A].
    + apply (forall2_mono _ _ (ans B d E')) with (2 := U). intros j b Hj K. apply (CO E' E2' j b (inner_union x j Hj) G), II; [apply inner_union, Hj|exact K].
Qed.
End Lean.
End Views.

(** ** What is built *)
Theorem lean_question : forall B oss style d id, style <> style_dollar -> book oss B -> complete B d id -> used_once B d id ->
  exists qs, made oss qs /\ forall n, size_of B d id <= n ->
    fst (build_query n style qs (query id)) =
      ROk (text_of (map lean B) d id (map (fun _ => "?") (args_of (map lean B) d id)), args_of (map lean B) d id).
Proof. intros B oss style d id Hs Hb Hc Hu. rewrite lean_args, lean_text. exact (nest_question B oss style d id Hs Hb Hc Hu). Qed.
Theorem lean_dollar : forall B oss d id, book oss B -> complete B d id -> used_once B d id -> forallb hashable (args_of (map lean B) d id) = true ->
  exists qs phs, made oss qs /\ Forall2 (dollar_denotes (firsts [] (args_of (map lean B) d id))) phs (args_of (map lean B) d id) /\
    forall n, size_of B d id <= n ->
      fst (build_query n style_dollar qs (query id)) = ROk (text_of (map lean B) d id phs, firsts [] (args_of (map lean B) d id)).
Proof.
  intros B oss d id Hb Hc Hu Hh. rewrite lean_args in *. destruct (nest_dollar B oss d id Hb Hc Hu Hh) as (qs & phs & M & F & K).
  exists qs, phs. split; [exact M|]. split; [exact F|]. intros n Hn. rewrite lean_text. exact (K n Hn).
Qed.
