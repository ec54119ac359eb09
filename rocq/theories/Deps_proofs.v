(** Dependencies of a query builder: which tables and which common table
    expressions it needs. *)
From Coq Require Import Strings.String Strings.Ascii NArith ZArith List Bool Lia.
From Verif Require Import GoStr GoNum Syntax Value Util Model Sqlf Sqlb Spec_syntax Spec_eval Spec_query.
Import ListNotations.
Open Scope string_scope.

(* ------------------------------------------------------------------ *)
(** * extractTables *)

Lemma mem_str_iff : forall s l, mem_str s l = true <-> In s l.
Proof.
  intros s l. unfold mem_str. rewrite existsb_exists. split.
  - intros (x & H & E). apply String.eqb_eq in E. subst x. exact H.
  - intros H. exists s. split; [exact H|apply String.eqb_refl].
Qed.
Lemma collect_in : forall t acc x, In x (collect_table t acc) <-> In x acc \/ x = t.
Proof.
  intros t acc x. unfold collect_table. destruct (mem_str t acc) eqn:E.
  - apply mem_str_iff in E. split; [auto|]. intros [H|H]; [exact H|subst x; exact E].
  - rewrite in_app_iff. cbn. intuition.
Qed.
Lemma extract_frag_eq : forall f acc, extract_frag f acc = extract_list (f_frags f) acc.
Proof.
  intros [raw args frags p s] acc. cbn [extract_frag f_frags]. revert acc.
  induction frags as [|b l IH]; intros acc; cbn [extract_list]; [reflexivity|].
  destruct (extract1 b acc); [apply IH|reflexivity].
Qed.

(** What extract1 does, for all builders of a size. *)
Fixpoint bsize (b : builder) : nat :=
  match b with
  | BFrag f | BCol (Some f) _ => S (fsize f)
  | _ => 1
  end
with fsize (f : fragment) : nat :=
  match f with Frag _ _ l _ _ => (fix go l := match l with [] => 1 | b :: l' => bsize b + go l' end) l end.
Lemma fsize_eq : forall f, fsize f = 1 + fold_right (fun b n => bsize b + n) 0 (f_frags f).
Proof.
  intros [raw args frags p s]. cbn [fsize f_frags]. induction frags as [|b l IH]; [reflexivity|].
  rewrite IH. cbn [fold_right]. lia.
Qed.
Lemma bsize_in : forall b l, In b l -> bsize b <= fold_right (fun b n => bsize b + n) 0 l.
Proof. intros b l. induction l as [|x l IH]; intros H; [inversion H|]. cbn [fold_right]. destruct H as [->|H]; [lia|apply IH in H; lia]. Qed.

Definition extracts (l : list builder) (acc : list string) (r : option (list string)) : Prop :=
  match r with
  | Some ts => (forall t, In t ts <-> In t acc \/ exists b, In b l /\ mentions b t) /\ (forall b, In b l -> ~ has_nil b)
  | None => exists b, In b l /\ has_nil b
  end.
Lemma extracts_cons : forall b l acc r,
  (forall acc, extracts [b] acc (extract1 b acc)) -> (forall acc, extracts l acc (extract_list l acc)) ->
  r = extract_list (b :: l) acc -> extracts (b :: l) acc r.
Proof.
  intros b l acc r H1 H2 ->. cbn [extract_list]. specialize (H1 acc). destruct (extract1 b acc) as [a|].
  - specialize (H2 a). destruct H1 as [H1 N1]. destruct (extract_list l a) as [ts|]; cbn [extracts] in *.
    + destruct H2 as [H2 N2]. split.
      * intros t. rewrite H2, H1. split.
        -- intros [[H|(x & [->|[]] & H)]|(x & H & K)]; [auto| |].
           ++ right. exists x. split; [left; reflexivity|exact H].
           ++ right. exists x. split; [right; exact H|exact K].
        -- intros [H|(x & [->|H] & K)]; [auto| |].
           ++ left. right. exists x. split; [left; reflexivity|exact K].
           ++ right. exists x. auto.
      * intros x [->|H]; [apply N1; left; reflexivity|exact (N2 x H)].
    + destruct H2 as (x & H & K). exists x. split; [right; exact H|exact K].
  - destruct H1 as (x & [->|[]] & K). exists x. split; [left; reflexivity|exact K].
Qed.
Lemma extracts_1 : forall b acc r, (forall t, match r with Some ts => In t ts <-> In t acc \/ mentions b t | None => True end) ->
  match r with Some _ => ~ has_nil b | None => has_nil b end -> extracts [b] acc r.
Proof.
  intros b acc [ts|] H N; cbn [extracts].
  - split.
    + intros t. rewrite H. split; [intros [K|K]; [auto|right; exists b; split; [left; reflexivity|exact K]]|].
      intros [K|(x & [->|[]] & K)]; auto.
    + intros x [->|[]]. exact N.
  - exists b. split; [left; reflexivity|exact N].
Qed.
Lemma extract_spec : forall k b acc, bsize b <= k -> extracts [b] acc (extract1 b acc).
Proof.
  induction k as [|k IH]; intros b acc Hk; [destruct b as [| |f| |[f|] t|t|x a|o|p]; cbn [bsize] in Hk; lia|].
  assert (L : forall l acc, fold_right (fun b n => bsize b + n) 0 l <= k -> extracts l acc (extract_list l acc)).
  { induction l as [|x l IHl]; intros acc0 Hl.
    - cbn. split; [|intros b0 []]. intros t. split; [auto|]. intros [H|(x & [] & _)]. exact H.
    - cbn [fold_right] in Hl. eapply extracts_cons; [| |reflexivity].
      + intros a. apply IH. lia.
      + intros a. apply IHl. lia. }
  destruct b as [| |f| |fo t|t|x a|o|p]; cbn [extract1].
  - apply extracts_1; [|intros H; inversion H]. intros t. split; [auto|]. intros [H|H]; [exact H|inversion H].
  - apply extracts_1; [auto|constructor].
  - rewrite extract_frag_eq. cbn [bsize] in Hk. rewrite fsize_eq in Hk. specialize (L (f_frags f) acc ltac:(lia)).
    destruct f as [raw args frags p s]. cbn [f_frags] in *. apply extracts_1.
    + intros t. destruct (extract_list frags acc) as [ts|]; [|exact I]. destruct L as [L _]. rewrite L. split.
      * intros [H|(b & H & K)]; [auto|]. right. econstructor; eassumption.
      * intros [H|H]; [auto|]. inversion H; subst. right. eauto.
    + destruct (extract_list frags acc) as [ts|].
      * destruct L as [_ L]. intros H. inversion H; subst. eapply L; eassumption.
      * destruct L as (b & H & K). econstructor; eassumption.
  - apply extracts_1; [|intros H; inversion H]. intros t. split; [auto|]. intros [H|H]; [exact H|inversion H].
  - destruct t as [|c t]; cbn [is_empty].
    + destruct fo as [f|].
      * rewrite extract_frag_eq. cbn [bsize] in Hk. rewrite fsize_eq in Hk. specialize (L (f_frags f) acc ltac:(lia)).
        destruct f as [raw args frags p s]. cbn [f_frags] in *. apply extracts_1.
        -- intros t. destruct (extract_list frags acc) as [ts|]; [|exact I]. destruct L as [L _]. rewrite L. split.
           ++ intros [H|(b & H & K)]; [auto|]. right. eapply mn_expr; eassumption.
           ++ intros [H|H]; [auto|]. inversion H; subst; [congruence|]. right. eauto.
        -- destruct (extract_list frags acc) as [ts|].
           ++ destruct L as [_ L]. intros H. inversion H; subst. eapply L; eassumption.
           ++ destruct L as (b & H & K). eapply hn_expr; eassumption.
      * apply extracts_1; [auto|constructor].
    + apply extracts_1.
      * intros u. rewrite collect_in. split.
        -- intros [H|H]; [auto|]. subst u. right. constructor. discriminate.
        -- intros [H|H]; [auto|]. inversion H; subst. right. reflexivity.
      * intros H. inversion H.
  - apply extracts_1; [|intros H; inversion H]. intros u. rewrite collect_in. split.
    + intros [H|H]; [auto|]. subst u. right. constructor.
    + intros [H|H]; [auto|]. inversion H; subst. auto.
  - apply extracts_1; [|intros H; inversion H]. intros u. rewrite collect_in. split.
    + intros [H|H]; [auto|]. subst u. right. constructor.
    + intros [H|H]; [auto|]. inversion H; subst. auto.
  - apply extracts_1; [|intros H; inversion H]. intros t. split; [auto|]. intros [H|H]; [exact H|inversion H].
  - apply extracts_1; [|intros H; inversion H]. intros t. split; [auto|]. intros [H|H]; [exact H|inversion H].
Qed.
Lemma extract_list_spec : forall l acc, extracts l acc (extract_list l acc).
Proof.
  induction l as [|b l IH]; intros acc.
  - cbn. split; [|intros b []]. intros t. split; [auto|]. intros [H|(x & [] & _)]. exact H.
  - eapply extracts_cons; [|exact IH|reflexivity]. intros a. apply (extract_spec (bsize b)). lia.
Qed.
Lemma extract_frag_some : forall f ts, extract_frag f [] = Some ts -> forall t, In t ts <-> mentions (BFrag f) t.
Proof.
  intros f ts H t. rewrite extract_frag_eq in H. pose proof (extract_list_spec (f_frags f) []) as E. rewrite H in E.
  destruct E as [E _]. rewrite E. destruct f as [raw args frags p s]. cbn [f_frags]. split.
  - intros [[]|(b & K & M)]. econstructor; eassumption.
  - intros M. inversion M; subst. right. eauto.
Qed.
Lemma extract_frag_none : forall f, extract_frag f [] = None <-> has_nil (BFrag f).
Proof.
  intros f. rewrite extract_frag_eq. pose proof (extract_list_spec (f_frags f) []) as E.
  destruct f as [raw args frags p s]. cbn [f_frags] in *. destruct (extract_list frags []) as [ts|].
  - destruct E as [_ E]. split; [discriminate|]. intros H. inversion H; subst. exfalso. eapply E; eassumption.
  - destruct E as (b & H & K). split; [intros _; econstructor; eassumption|reflexivity].
Qed.

(* ------------------------------------------------------------------ *)
(** * Tables *)

Lemma tname_eqb_iff : forall a b, tname_eqb a b = true <-> a = b.
Proof.
  intros [a b] [c d]. unfold tname_eqb. cbn [fst snd]. rewrite andb_true_iff, !String.eqb_eq. split; [intros [-> ->]; reflexivity|].
  intros H. injection H as -> ->. auto.
Qed.
Lemma dep_mem_iff : forall x d, dep_mem x d = true <-> In x d.
Proof.
  intros x d. unfold dep_mem. rewrite existsb_exists. split.
  - intros (y & H & E). apply tname_eqb_iff in E. subst y. exact H.
  - intros H. exists x. split; [exact H|apply tname_eqb_iff; reflexivity].
Qed.
Lemma dep_mem_not : forall x d, dep_mem x d = false <-> ~ In x d.
Proof. intros x d. rewrite <- dep_mem_iff. destruct (dep_mem x d); split; congruence. Qed.

(** The loop over the tables of a join. *)
Fixpoint deps_go (n : nat) (q : qb) (t : string) (ts : list string) (d : deps) : outcome deps :=
  match ts with
  | [] => ROk d
  | u :: ts' => if String.eqb u t then deps_go n q t ts' d
                else match deps_table n q u d with ROk d2 => deps_go n q t ts' d2 | r => r end
  end.
Lemma deps_table_S : forall n q t d, deps_table (S n) q t d =
  match assoc t (q_tdict q) with
  | None => RErr (EMsg ("from undefined: '" ++ t ++ "'"))
  | Some id =>
    match nth_error (q_tobjs q) id with
    | None => RPanic nil_deref
    | Some ft =>
      if dep_mem (ft_names ft) d then ROk d else
      match ft_frag ft with
      | None => RPanic nil_deref
      | Some f => match extract_frag f [] with None => RPanic nil_deref | Some ts => deps_go n q t ts (ft_names ft :: d) end
      end
    end
  end.
Proof.
  intros n q t d. cbn [deps_table]. destruct (assoc t (q_tdict q)); [|reflexivity].
  destruct (nth_error (q_tobjs q) n0); [|reflexivity]. destruct (dep_mem _ _); [reflexivity|].
  destruct (ft_frag f); [|reflexivity]. destruct (extract_frag _ _) as [ts|]; [|reflexivity].
  generalize (ft_names f :: d). induction ts as [|u ts IH]; intros d'; cbn [deps_go]; [reflexivity|].
  destruct (String.eqb u t); [apply IH|]. destruct (deps_table n q u d'); try reflexivity. apply IH.
Qed.

Section Tables.
Variable q : qb.
Hypothesis Hok : tables_ok q.

Lemma table_defined : forall t id, assoc t (q_tdict q) = Some id ->
  exists ft f, table_of q t = Some ft /\ nth_error (q_tobjs q) id = Some ft /\ applied (ft_names ft) = t /\ ft_frag ft = Some f /\ ~ has_nil (BFrag f).
Proof.
  intros t id H. destruct (proj1 Hok t id H) as (ft & f & E & A & F & N). exists ft, f. unfold table_of. rewrite H. auto.
Qed.
Lemma table_of_inv : forall t ft, table_of q t = Some ft ->
  applied (ft_names ft) = t /\ exists f, ft_frag ft = Some f /\ ~ has_nil (BFrag f).
Proof.
  intros t ft H. unfold table_of in H. destruct (assoc t (q_tdict q)) as [id|] eqn:E; [|discriminate].
  destruct (table_defined t id E) as (ft' & f & T & N & A & F & Hn). unfold table_of in T. rewrite E in T.
  assert (ft' = ft) by congruence. subst ft'. split; [exact A|]. eauto.
Qed.

(** Reached from a table. *)
Inductive reach (base : deps) : string -> string -> Prop :=
| rc_self t : reach base t t
| rc_step t ft f u v : table_of q t = Some ft -> ~ In (ft_names ft) base -> ft_frag ft = Some f -> mentions (BFrag f) u ->
    reach base u v -> reach base t v.

Definition visited (u : string) (d : deps) : Prop := exists ft, table_of q u = Some ft /\ In (ft_names ft) d.
(** New entries are closed. *)
Definition closed (d d' : deps) : Prop :=
  forall t ft f u, table_of q t = Some ft -> In (ft_names ft) d' -> ~ In (ft_names ft) d -> ft_frag ft = Some f ->
    mentions (BFrag f) u -> visited u d'.
Definition sound (base : deps) (T : string -> Prop) (d d' : deps) : Prop :=
  forall x, In x d' -> In x d \/ exists t u ft, T t /\ reach base t u /\ table_of q u = Some ft /\ ft_names ft = x.

Lemma visited_mono : forall u d d', incl d d' -> visited u d -> visited u d'.
Proof. intros u d d' H (ft & T & I). exists ft. split; [exact T|apply H; exact I]. Qed.

Definition post (base : deps) (t : string) (d : deps) (r : outcome deps) : Prop :=
  match r with
  | ROk d' => incl d d' /\ visited t d' /\ closed d d' /\ sound base (eq t) d d'
  | RErr e => exists u, reach base t u /\ undefined q u
  | RPanic e => False
  | RFuel => True
  end.
Lemma deps_table_post : forall n base t d, incl base d -> post base t d (deps_table n q t d).
Proof.
  induction n as [|n IH]; intros base t d Hb; [exact I|]. rewrite deps_table_S.
  destruct (assoc t (q_tdict q)) as [id|] eqn:A.
  2:{ exists t. split; [constructor|]. unfold undefined, table_of. rewrite A. reflexivity. }
  destruct (table_defined t id A) as (ft & f & T & N & Ap & F & Hn). rewrite N.
  destruct (dep_mem (ft_names ft) d) eqn:M.
  { apply dep_mem_iff in M. split; [apply incl_refl|]. split; [exists ft; auto|]. split.
    - intros t' ft' f' u' _ I1 I2. contradiction.
    - intros x Hx. auto. }
  apply dep_mem_not in M. rewrite F. destruct (extract_frag f []) as [ts|] eqn:E.
  2:{ apply extract_frag_none in E. contradiction. }
  pose proof (extract_frag_some f ts E) as Mt.
  assert (G : forall ts d0, incl (ft_names ft :: d) d0 -> (forall u, In u ts -> mentions (BFrag f) u) ->
    match deps_go n q t ts d0 with
    | ROk d' => incl d0 d' /\ (forall u, In u ts -> visited u d') /\ closed d0 d' /\ sound base (eq t) d0 d'
    | RErr e => exists u, reach base t u /\ undefined q u
    | RPanic e => False
    | RFuel => True
    end).
  { clear E Mt ts. induction ts as [|u ts IHs]; intros d0 Hi Hm.
    - cbn [deps_go]. split; [apply incl_refl|]. split; [intros u []|]. split.
      + intros t' ft' f' u' _ I1 I2. contradiction.
      + intros x Hx. auto.
    - cbn [deps_go]. destruct (String.eqb u t) eqn:Eu.
      + apply String.eqb_eq in Eu. subst u. specialize (IHs d0 Hi (fun v H => Hm v (or_intror H))).
        destruct (deps_go n q t ts d0); try exact IHs. destruct IHs as (I1 & V & C & S). split; [exact I1|]. split; [|auto].
        intros v [<-|Hv]; [|exact (V v Hv)]. exists ft. split; [exact T|]. apply I1, Hi. left. reflexivity.
      + assert (Hb0 : incl base d0) by (intros x Hx; apply Hi; right; apply Hb; exact Hx).
        assert (St : forall v, reach base u v -> reach base t v).
        { intros v R. eapply rc_step; [exact T| |exact F| |exact R]; [|apply Hm; left; reflexivity].
          intros K. apply M, Hb. exact K. }
        specialize (IH base u d0 Hb0). destruct (deps_table n q u d0) as [d1|er|er|]; cbn [post] in IH; try exact IH.
        * destruct IH as (I1 & V & C & S).
          assert (Hi1 : incl (ft_names ft :: d) d1) by (intros x Hx; apply I1, Hi; exact Hx).
          specialize (IHs d1 Hi1 (fun v H => Hm v (or_intror H))).
          destruct (deps_go n q t ts d1) as [d2|er|er|]; try exact IHs. destruct IHs as (I2 & V2 & C2 & S2).
          split; [intros x Hx; apply I2, I1; exact Hx|]. split; [|split].
          -- intros v [<-|Hv]; [eapply visited_mono; eassumption|exact (V2 v Hv)].
          -- intros t' ft' f' u' T' J1 J2 F' M'. destruct (dep_mem (ft_names ft') d1) eqn:D1.
             ++ apply dep_mem_iff in D1. eapply visited_mono; [exact I2|]. eapply C; eassumption.
             ++ apply dep_mem_not in D1. eapply C2; eassumption.
          -- intros x Hx. destruct (S2 x Hx) as [K|K]; [|auto]. destruct (S x K) as [K2|(t1 & u1 & ft1 & <- & R & T1 & N1)]; [auto|].
             right. exists t, u1, ft1. auto.
        * destruct IH as (v & R & U). exists v. auto. }
  specialize (G ts (ft_names ft :: d) (incl_refl _) (fun u H => proj1 (Mt u) H)).
  destruct (deps_go n q t ts (ft_names ft :: d)) as [d'|er|er|]; cbn [post]; try exact G.
  destruct G as (I1 & V & C & S). split; [intros x Hx; apply I1; right; exact Hx|]. split; [|split].
  - exists ft. split; [exact T|apply I1; left; reflexivity].
  - intros t' ft' f' u' T' J1 J2 F' M'. destruct (tname_eqb (ft_names ft') (ft_names ft)) eqn:Q.
    + apply tname_eqb_iff in Q. assert (t' = t).
      { destruct (table_of_inv t' ft' T') as [A1 _]. rewrite Q in A1. congruence. }
      subst t'. assert (ft' = ft) by congruence. subst ft'. assert (f' = f) by congruence. subst f'. apply V, Mt. exact M'.
    + eapply C; try eassumption. intros [K|K]; [|contradiction]. rewrite <- K in Q.
      assert (tname_eqb (ft_names ft) (ft_names ft) = true) by (apply tname_eqb_iff; reflexivity). congruence.
  - intros x Hx. destruct (S x Hx) as [[<-|K]|K]; [|auto|auto]. right. exists t, t, ft. split; [reflexivity|]. split; [constructor|auto].
Qed.

Lemma deps_tables_post : forall n base ts d, incl base d ->
  match deps_tables n q ts d with
  | ROk d' => incl d d' /\ (forall t, In t ts -> visited t d') /\ closed d d' /\ sound base (fun t => In t ts) d d'
  | RErr e => exists t u, In t ts /\ reach base t u /\ undefined q u
  | RPanic e => False
  | RFuel => True
  end.
Proof.
  intros n base. induction ts as [|t ts IH]; intros d Hb; cbn [deps_tables].
  - split; [apply incl_refl|]. split; [intros t []|]. split; [intros t' ft' f' u' _ I1 I2; contradiction|]. intros x Hx. auto.
  - pose proof (deps_table_post n base t d Hb) as P. destruct (deps_table n q t d) as [d1|er|er|]; cbn [post] in P; try exact P.
    + destruct P as (I1 & V & C & S). assert (Hb1 : incl base d1) by (intros x Hx; apply I1, Hb; exact Hx).
      specialize (IH d1 Hb1). destruct (deps_tables n q ts d1) as [d2|er|er|]; try exact IH.
      * destruct IH as (I2 & V2 & C2 & S2). split; [intros x Hx; apply I2, I1; exact Hx|]. split; [|split].
        -- intros v [<-|Hv]; [eapply visited_mono; eassumption|exact (V2 v Hv)].
        -- intros t' ft' f' u' T' J1 J2 F' M'. destruct (dep_mem (ft_names ft') d1) eqn:D1.
           ++ apply dep_mem_iff in D1. eapply visited_mono; [exact I2|]. eapply C; eassumption.
           ++ apply dep_mem_not in D1. eapply C2; eassumption.
        -- intros x Hx. destruct (S2 x Hx) as [K|(t1 & u1 & ft1 & Ht & R & T1 & N1)].
           ++ destruct (S x K) as [K2|(t1 & u1 & ft1 & <- & R & T1 & N1)]; [auto|]. right. exists t, u1, ft1. split; [left; reflexivity|auto].
           ++ right. exists t1, u1, ft1. split; [right; exact Ht|auto].
      * destruct IH as (t' & u & Ht & R & U). exists t', u. split; [right; exact Ht|auto].
    + destruct P as (u & R & U). exists t, u. split; [left; reflexivity|auto].
Qed.

(** Fuel: the names of objects not yet visited. *)
Definition todo (d : deps) : nat := List.length (filter (fun ft => negb (dep_mem (ft_names ft) d)) (q_tobjs q)).
Lemma filter_le : forall {A} (p r : A -> bool) l, (forall x, p x = true -> r x = true) ->
  List.length (filter p l) <= List.length (filter r l).
Proof.
  intros A p r l H. induction l as [|x l IH]; [cbn; lia|]. cbn [filter]. destruct (p x) eqn:P.
  - rewrite (H x P). cbn [List.length]. lia.
  - destruct (r x); cbn [List.length]; lia.
Qed.
Lemma filter_lt : forall {A} (p r : A -> bool) l x, (forall x, p x = true -> r x = true) -> In x l -> p x = false -> r x = true ->
  List.length (filter p l) < List.length (filter r l).
Proof.
  intros A p r l x H. induction l as [|y l IH]; intros Hi P R; [inversion Hi|]. cbn [filter]. destruct Hi as [->|Hi].
  - rewrite P, R. cbn [List.length]. pose proof (filter_le p r l H). lia.
  - specialize (IH Hi P R). destruct (p y) eqn:Py; [rewrite (H y Py); cbn [List.length]; lia|].
    destruct (r y); cbn [List.length]; lia.
Qed.
Lemma todo_mono : forall d d', incl d d' -> todo d' <= todo d.
Proof.
  intros d d' H. unfold todo. apply filter_le. intros ft K. apply negb_true_iff in K. apply dep_mem_not in K.
  apply negb_true_iff, dep_mem_not. intros L. apply K, H, L.
Qed.
Lemma deps_table_fuel : forall n t d, todo d < n -> deps_table n q t d <> RFuel.
Proof.
  induction n as [|n IH]; intros t d Hn; [lia|]. rewrite deps_table_S.
  destruct (assoc t (q_tdict q)) as [id|]; [|discriminate]. destruct (nth_error (q_tobjs q) id) as [ft|] eqn:N; [|discriminate].
  destruct (dep_mem (ft_names ft) d) eqn:M; [discriminate|]. destruct (ft_frag ft) as [f|]; [|discriminate].
  destruct (extract_frag f []) as [ts|]; [|discriminate].
  assert (L : todo (ft_names ft :: d) < n).
  { assert (todo (ft_names ft :: d) < todo d); [|lia]. unfold todo. apply filter_lt with ft.
    - intros x K. apply negb_true_iff in K. apply dep_mem_not in K. apply negb_true_iff, dep_mem_not. intros J. apply K. right. exact J.
    - eapply nth_error_In. exact N.
    - apply negb_false_iff, dep_mem_iff. left. reflexivity.
    - rewrite M. reflexivity. }
  revert L. generalize (ft_names ft :: d). induction ts as [|u ts IHs]; intros d0 L; cbn [deps_go]; [discriminate|].
  destruct (String.eqb u t); [apply IHs; exact L|].
  pose proof (IH u d0 L) as K. pose proof (deps_table_post n [] u d0 (incl_nil_l _)) as P.
  destruct (deps_table n q u d0) as [d1|er|er|]; try discriminate; [|congruence].
  destruct P as (I1 & _). apply IHs. pose proof (todo_mono d0 d1 I1). lia.
Qed.
Lemma deps_tables_fuel : forall n ts d, todo d < n -> deps_tables n q ts d <> RFuel.
Proof.
  intros n. induction ts as [|t ts IH]; intros d Hn; cbn [deps_tables]; [discriminate|].
  pose proof (deps_table_fuel n t d Hn) as K. pose proof (deps_table_post n [] t d (incl_nil_l _)) as P.
  destruct (deps_table n q t d) as [d1|er|er|]; try discriminate; [|congruence].
  destruct P as (I1 & _). apply IH. pose proof (todo_mono d d1 I1). lia.
Qed.
End Tables.

(** The tables needed by the clauses. *)
Lemma reach_needed : forall q m t u, main_of q = Some m -> needed q t -> reach q [ft_names m] t u -> needed q u.
Proof.
  intros q m t u Hm Hn R. induction R as [|t ft f u v T N F M R IH]; [exact Hn|]. apply IH.
  eapply nd_join; [exact Hn|exact T| |exact F|exact M]. rewrite Hm. cbn. intros E. injection E as E. apply N. rewrite E. left. reflexivity.
Qed.
Lemma reach_snoc : forall q base t u ft f v, reach q base t u -> table_of q u = Some ft -> ~ In (ft_names ft) base -> ft_frag ft = Some f ->
  mentions (BFrag f) v -> reach q base t v.
Proof.
  intros q base t u ft f v R. induction R as [t|t ft0 f0 u w T N F M R IH]; intros T1 N1 F1 M1.
  - eapply rc_step; try eassumption. constructor.
  - eapply rc_step; [exact T|exact N|exact F|exact M|]. apply IH; assumption.
Qed.
Lemma needed_reach : forall q m u, main_of q = Some m -> needed q u ->
  exists b t, In b (clause_builders q) /\ mentions b t /\ reach q [ft_names m] t u.
Proof.
  intros q m u Hm H. induction H as [b t Hb M|t ft f u H IH T N F M].
  - exists b, t. split; [exact Hb|]. split; [exact M|constructor].
  - destruct IH as (b & t0 & Hb & M0 & R). exists b, t0. split; [exact Hb|]. split; [exact M0|].
    eapply reach_snoc; [exact R|exact T| |exact F|exact M]. intros [E|[]]. apply N. rewrite Hm. cbn. rewrite E. reflexivity.
Qed.

Definition table_deps (q : qb) (m : from_table) (d : deps) : Prop :=
  forall x, In x d <-> x = ft_names m \/ exists t ft, needed q t /\ table_of q t = Some ft /\ ft_names ft = x.
Theorem clause_deps : forall q m ts, tables_ok q -> main_of q = Some m -> extract_tables (clause_builders q) = Some ts ->
  match deps_tables (deps_fuel q) q ts [ft_names m] with
  | ROk d => table_deps q m d /\ forall t, needed q t -> ~ undefined q t
  | RErr e => exists t, needed q t /\ undefined q t
  | _ => False
  end.
Proof.
  intros q m ts Hok Hm Ht. pose proof (extract_list_spec (clause_builders q) []) as E. unfold extract_tables in Ht. rewrite Ht in E.
  destruct E as [E _].
  assert (In_ts : forall t, In t ts <-> exists b, In b (clause_builders q) /\ mentions b t).
  { intros t. rewrite E. split; [intros [[]|H]; exact H|auto]. }
  assert (Nt : forall t, In t ts -> needed q t) by (intros t H; apply In_ts in H; destruct H as (b & Hb & M); eapply nd_clause; eassumption).
  pose proof (deps_tables_post q Hok (deps_fuel q) [ft_names m] ts [ft_names m] (incl_refl _)) as P.
  assert (Fu : todo q [ft_names m] < deps_fuel q).
  { unfold todo, deps_fuel. pose proof (filter_le (fun ft => negb (dep_mem (ft_names ft) [ft_names m])) (fun _ => true) (q_tobjs q) (fun _ _ => eq_refl)) as L.
    assert (A : forall (l : list from_table), filter (fun _ => true) l = l) by (induction l as [|x l IH]; [reflexivity|cbn; rewrite IH; reflexivity]).
    rewrite A in L. lia. }
  pose proof (deps_tables_fuel q Hok (deps_fuel q) ts [ft_names m] Fu) as Nf.
  destruct (deps_tables (deps_fuel q) q ts [ft_names m]) as [d|er|er|]; [|destruct P as (t & u & Hi & R & U); exists u; split; [eapply reach_needed; eauto|exact U]|exact P|congruence].
  destruct P as (I1 & V & C & S).
  assert (Vis : forall t, needed q t -> visited q t d).
  { intros t H. induction H as [b t Hb M|t ft f u H IH T N F M].
    - apply V, In_ts. eauto.
    - destruct IH as (ft' & T' & I'). assert (ft' = ft) by congruence. subst ft'. eapply C; [exact T|exact I'| |exact F|exact M].
      intros [K|[]]. apply N. rewrite Hm. cbn. rewrite K. reflexivity. }
  split.
  - intros x. split.
    + intros Hx. destruct (S x Hx) as [[<-|[]]|(t & u & ft & Hi & R & T & N)]; [auto|]. right. exists u, ft.
      split; [eapply reach_needed; eauto|auto].
    + intros [->|(t & ft & Hn & T & N)]; [apply I1; left; reflexivity|]. destruct (Vis t Hn) as (ft' & T' & I'). congruence.
  - intros t Hn U. destruct (Vis t Hn) as (ft & T & _). unfold undefined in U. congruence.
Qed.

(* ------------------------------------------------------------------ *)
(** * Common table expressions *)

Fixpoint cte_go (n : nat) (q : qb) (l : list string) (d : deps) : outcome deps :=
  match l with
  | [] => ROk d
  | x :: l' =>
    match assoc x (q_cdict q) with
    | Some c' => match deps_cte n q c' d with ROk d' => cte_go n q l' d' | r => r end
    | None => cte_go n q l' d
    end
  end.
Lemma deps_cte_S : forall n q c d, deps_cte (S n) q c d =
  if dep_mem (c_name c, "") d then ROk d else cte_go n q (c_deps c) ((c_name c, "") :: d).
Proof.
  intros n q c d. cbn [deps_cte]. destruct (dep_mem _ _); [reflexivity|].
  generalize ((c_name c, "") :: d). induction (c_deps c) as [|x l IH]; intros d'; cbn [cte_go]; [reflexivity|].
  destruct (assoc x (q_cdict q)); [|apply IH]. destruct (deps_cte n q c0 d'); try reflexivity. apply IH.
Qed.

Section Ctes.
Variable q : qb.
Hypothesis Hc : ctes_ok q.

Inductive creach : string -> string -> Prop :=
| cr_self c : creach c c
| cr_step c d x y : cte_of q c = Some d -> In x (c_deps d) -> cte_of q x <> None -> creach x y -> creach c y.
Definition cclosed (d d' : deps) : Prop :=
  forall c e x, cte_of q c = Some e -> In (c, "") d' -> ~ In (c, "") d -> In x (c_deps e) -> cte_of q x <> None -> In (x, "") d'.
Definition csound (c : string) (d d' : deps) : Prop :=
  forall x, In x d' -> In x d \/ exists y, x = (y, "") /\ creach c y /\ cte_of q y <> None.

Lemma deps_cte_post : forall n nm c d, cte_of q nm = Some c ->
  match deps_cte n q c d with
  | ROk d' => incl d d' /\ In (nm, "") d' /\ cclosed d d' /\ csound nm d d'
  | RFuel => True
  | _ => False
  end.
Proof.
  induction n as [|n IH]; intros nm c d Hn; [exact I|]. rewrite deps_cte_S. rewrite (proj1 Hc nm c Hn).
  destruct (dep_mem (nm, "") d) eqn:M.
  { apply dep_mem_iff in M. split; [apply incl_refl|]. split; [exact M|]. split; [intros c1 e1 x1 _ A B; contradiction|]. intros x Hx. auto. }
  apply dep_mem_not in M.
  assert (G : forall l d0, incl l (c_deps c) -> In (nm, "") d0 ->
    match cte_go n q l d0 with
    | ROk d' => incl d0 d' /\ (forall x, In x l -> cte_of q x <> None -> In (x, "") d') /\ cclosed d0 d' /\ csound nm d0 d'
    | RFuel => True
    | _ => False
    end).
  { induction l as [|x l IHl]; intros d0 Hl Hi.
    - cbn [cte_go]. split; [apply incl_refl|]. split; [intros x []|]. split; [intros c1 e1 x1 _ A B; contradiction|]. intros x Hx. auto.
    - cbn [cte_go]. assert (Hl' : incl l (c_deps c)) by (intros y Hy; apply Hl; right; exact Hy).
      destruct (assoc x (q_cdict q)) as [cx|] eqn:Ex.
      + specialize (IH x cx d0 Ex). destruct (deps_cte n q cx d0) as [d1|er|er|]; try exact IH.
        destruct IH as (I1 & V1 & C1 & S1). specialize (IHl d1 Hl' (I1 _ Hi)).
        destruct (cte_go n q l d1) as [d2|er|er|]; try exact IHl. destruct IHl as (I2 & V2 & C2 & S2).
        split; [intros y Hy; apply I2, I1; exact Hy|]. split; [|split].
        * intros y [<-|Hy] Dy; [apply I2; exact V1|exact (V2 y Hy Dy)].
        * intros c1 e1 y E1 A B Dy Ny. destruct (dep_mem (c1, "") d1) eqn:D1.
          -- apply dep_mem_iff in D1. apply I2. eapply C1; eassumption.
          -- apply dep_mem_not in D1. eapply C2; eassumption.
        * intros y Hy. destruct (S2 y Hy) as [K|K]; [|auto]. destruct (S1 y K) as [K2|(z & -> & R & N)]; [auto|].
          right. exists z. split; [reflexivity|]. split; [|exact N]. eapply cr_step; [exact Hn|apply Hl; left; reflexivity| |exact R].
          unfold cte_of. congruence.
      + specialize (IHl d0 Hl' Hi). destruct (cte_go n q l d0) as [d2|er|er|]; try exact IHl. destruct IHl as (I2 & V2 & C2 & S2).
        split; [exact I2|]. split; [|auto]. intros y [<-|Hy] Dy; [unfold cte_of in Dy; congruence|exact (V2 y Hy Dy)]. }
  specialize (G (c_deps c) ((nm, "") :: d) (incl_refl _) (or_introl eq_refl)).
  destruct (cte_go n q (c_deps c) ((nm, "") :: d)) as [d'|er|er|]; try exact G. destruct G as (I1 & V & C & S).
  split; [intros x Hx; apply I1; right; exact Hx|]. split; [apply I1; left; reflexivity|]. split.
  - intros c1 e1 y E1 A B Dy Ny. destruct (String.eqb c1 nm) eqn:Q.
    + apply String.eqb_eq in Q. subst c1. assert (e1 = c) by congruence. subst e1. exact (V y Dy Ny).
    + eapply C; try eassumption. intros [K|K]; [|contradiction]. injection K as K. subst c1. rewrite String.eqb_refl in Q. discriminate.
  - intros x Hx. destruct (S x Hx) as [[<-|K]|K]; [|auto|auto]. right. exists nm. split; [reflexivity|]. split; [constructor|congruence].
Qed.

Definition ctodo (d : deps) : nat := List.length (filter (fun kc => negb (dep_mem (c_name (snd kc), "") d)) (q_cdict q)).
Lemma ctodo_mono : forall d d', incl d d' -> ctodo d' <= ctodo d.
Proof.
  intros d d' H. unfold ctodo. apply filter_le. intros kc K. apply negb_true_iff in K. apply dep_mem_not in K.
  apply negb_true_iff, dep_mem_not. intros L. apply K, H, L.
Qed.
Lemma assoc_in : forall {A} k (l : list (string * A)) v, assoc k l = Some v -> In (k, v) l.
Proof.
  intros A k l v. induction l as [|[k' v'] l IH]; cbn [assoc]; [discriminate|]. destruct (String.eqb k k') eqn:E.
  - apply String.eqb_eq in E. intros H. injection H as ->. subst k'. left. reflexivity.
  - intros H. right. auto.
Qed.
Lemma deps_cte_fuel : forall n nm c d, cte_of q nm = Some c -> ctodo d < n -> deps_cte n q c d <> RFuel.
Proof.
  induction n as [|n IH]; intros nm c d Hn Hl; [lia|]. rewrite deps_cte_S. destruct (dep_mem (c_name c, "") d) eqn:M; [discriminate|].
  assert (L : ctodo ((c_name c, "") :: d) < n).
  { assert (ctodo ((c_name c, "") :: d) < ctodo d); [|lia]. unfold ctodo. apply filter_lt with (nm, c).
    - intros x K. apply negb_true_iff in K. apply dep_mem_not in K. apply negb_true_iff, dep_mem_not. intros J. apply K. right. exact J.
    - apply assoc_in. exact Hn.
    - apply negb_false_iff, dep_mem_iff. left. reflexivity.
    - cbn [snd]. rewrite M. reflexivity. }
  revert L. generalize ((c_name c, "") :: d). induction (c_deps c) as [|x l IHl]; intros d0 L; cbn [cte_go]; [discriminate|].
  destruct (assoc x (q_cdict q)) as [cx|] eqn:Ex; [|apply IHl; exact L].
  pose proof (IH x cx d0 Ex L) as K. pose proof (deps_cte_post n x cx d0 Ex) as P.
  destruct (deps_cte n q cx d0) as [d1|er|er|]; try discriminate; [|congruence].
  destruct P as (I1 & _). apply IHl. pose proof (ctodo_mono d0 d1 I1). lia.
Qed.

(** kept d ft: not trimmed, given the dependencies d. *)
Definition kept (d : deps) (ft : from_table) : bool := negb (q_distinct q && ft_optional ft && negb (dep_mem (ft_names ft) d)).
Lemma deps_ctes_cons : forall n id ids d ft, nth_error (q_tobjs q) id = Some ft ->
  deps_ctes n q (id :: ids) d =
  if kept d ft then match cte_of q (fst (ft_names ft)) with
                    | Some c => match deps_cte n q c d with ROk d' => deps_ctes n q ids d' | r => r end
                    | None => deps_ctes n q ids d
                    end
  else deps_ctes n q ids d.
Proof.
  intros n id ids d ft H. cbn [deps_ctes]. rewrite H. unfold kept, cte_of. destruct (_ && _ && _); reflexivity.
Qed.

(** What always holds of the loop. *)
Lemma deps_ctes_any : forall n ids d, (forall id, In id ids -> id < List.length (q_tobjs q)) -> ctodo d < n ->
  exists d', deps_ctes n q ids d = ROk d' /\ incl d d' /\
    (forall x, In x d' -> In x d \/ exists c, x = (c, "")) /\
    (forall id ft, In id ids -> nth_error (q_tobjs q) id = Some ft -> kept d' ft = true -> cte_of q (fst (ft_names ft)) <> None ->
       In (fst (ft_names ft), "") d').
Proof.
  intros n. induction ids as [|id ids IH]; intros d Hi Hl.
  - exists d. split; [reflexivity|]. split; [apply incl_refl|]. split; [auto|]. intros id ft [].
  - assert (Hi' : forall id, In id ids -> id < List.length (q_tobjs q)) by (intros x Hx; apply Hi; right; exact Hx).
    destruct (nth_error (q_tobjs q) id) as [ft|] eqn:N.
    2:{ apply nth_error_None in N. specialize (Hi id (or_introl eq_refl)). lia. }
    rewrite (deps_ctes_cons n id ids d ft N).
    assert (Late : forall d', incl d d' -> (forall x, In x d' -> In x d \/ exists c, x = (c, "")) -> kept d ft = false -> kept d' ft = true ->
      In (fst (ft_names ft), "") d').
    { intros d' Hd Hs K K'. unfold kept in K, K'. apply negb_false_iff in K. apply andb_prop in K. destruct K as [K1 K2]. rewrite K1 in K'.
      cbn [andb negb] in K'. rewrite negb_involutive in K'. apply dep_mem_iff in K'. apply negb_true_iff, dep_mem_not in K2.
      destruct (Hs _ K') as [J|(c & J)]; [contradiction|]. rewrite J. cbn [fst]. rewrite <- J. exact K'. }
    destruct (kept d ft) eqn:K.
    + destruct (cte_of q (fst (ft_names ft))) as [c|] eqn:Cc.
      * pose proof (deps_cte_fuel n _ c d Cc Hl) as Nf. pose proof (deps_cte_post n _ c d Cc) as P.
        destruct (deps_cte n q c d) as [d1|er|er|]; try contradiction. destruct P as (I1 & V & C & S).
        destruct (IH d1 Hi' ltac:(pose proof (ctodo_mono d d1 I1); lia)) as (d' & E & I2 & S2 & V2).
        exists d'. split; [exact E|]. split; [intros x Hx; apply I2, I1; exact Hx|]. split.
        -- intros x Hx. destruct (S2 x Hx) as [J|J]; [|auto]. destruct (S x J) as [J2|(y & -> & _)]; eauto.
        -- intros id' ft' [<-|Hid] N' K' C'; [|eapply V2; eassumption]. assert (ft' = ft) by congruence. subst ft'. apply I2, V.
      * destruct (IH d Hi' Hl) as (d' & E & I2 & S2 & V2). exists d'. split; [exact E|]. split; [exact I2|]. split; [exact S2|].
        intros id' ft' [<-|Hid] N' K' C'; [|eapply V2; eassumption]. assert (ft' = ft) by congruence. subst ft'. congruence.
    + destruct (IH d Hi' Hl) as (d' & E & I2 & S2 & V2). exists d'. split; [exact E|]. split; [exact I2|]. split; [exact S2|].
      intros id' ft' [<-|Hid] N' K' C'; [|eapply V2; eassumption]. assert (ft' = ft) by congruence. subst ft'. exact (Late d' I2 S2 eq_refl K').
Qed.

(** The exact result when the tables of common table expressions are aliased. *)
Lemma deps_ctes_exact : forall n m d0, main_of q = Some m -> table_deps q m d0 -> ctes_aliased q ->
  forall ids d, incl ids (q_tables q) -> incl d0 d -> (forall x, In x d -> In x d0 \/ exists c, x = (c, "") /\ cte_needed q c) ->
  cclosed d0 d ->
  forall d', deps_ctes n q ids d = ROk d' ->
  incl d d' /\ (forall x, In x d' -> In x d0 \/ exists c, x = (c, "") /\ cte_needed q c) /\ cclosed d0 d' /\
  (forall id ft, In id ids -> nth_error (q_tobjs q) id = Some ft -> belongs q ft -> cte_of q (fst (ft_names ft)) <> None ->
     In (fst (ft_names ft), "") d').
Proof.
  intros n m d0 Hm Hd Ha. 
  assert (Cdef : forall c, cte_needed q c -> cte_of q c <> None) by (intros c H; inversion H; subst; assumption).
  assert (Same : forall d id ft, incl d0 d -> (forall x, In x d -> In x d0 \/ exists c, x = (c, "") /\ cte_needed q c) ->
    nth_error (q_tobjs q) id = Some ft -> (kept d ft = true <-> belongs q ft)).
  { intros d id ft Hi Hs N. unfold kept, belongs. rewrite negb_true_iff.
    assert (In (ft_names ft) d <-> option_map ft_names (main_of q) = Some (ft_names ft) \/
      exists t ft', needed q t /\ table_of q t = Some ft' /\ ft_names ft' = ft_names ft) as E.
    { rewrite Hm. cbn [option_map]. split.
      - intros H. destruct (Hs _ H) as [K|(c & K & Nc)].
        + apply Hd in K. destruct K as [K|K]; [left; congruence|auto].
        + exfalso. exact (Ha c id ft (Cdef c Nc) N K).
      - intros H. apply Hi, Hd. destruct H as [H|H]; [left; congruence|auto]. }
    rewrite <- E. rewrite <- dep_mem_iff. destruct (q_distinct q), (ft_optional ft), (dep_mem (ft_names ft) d); cbn; split; try tauto; try discriminate.
    intros [K|[K|K]]; discriminate. }
  induction ids as [|id ids IH]; intros d Hs Hi Hx Hcl d' E.
  - cbn [deps_ctes] in E. injection E as <-. split; [apply incl_refl|]. split; [exact Hx|]. split; [exact Hcl|]. intros id ft [].
  - assert (Hs' : incl ids (q_tables q)) by (intros y Hy; apply Hs; right; exact Hy).
    destruct (nth_error (q_tobjs q) id) as [ft|] eqn:N; [|cbn [deps_ctes] in E; rewrite N in E; discriminate].
    rewrite (deps_ctes_cons n id ids d ft N) in E. pose proof (Same d id ft Hi Hx N) as Kb.
    destruct (kept d ft) eqn:K.
    + destruct (cte_of q (fst (ft_names ft))) as [c|] eqn:Cc.
      * pose proof (deps_cte_post n _ c d Cc) as P. destruct (deps_cte n q c d) as [d1|er|er|] eqn:Ed; try discriminate.
        destruct P as (I1 & V & C & S).
        assert (Nd : cte_needed q (fst (ft_names ft))).
        { eapply cn_table; [apply Hs; left; reflexivity|exact N|apply Kb; reflexivity|congruence]. }
        assert (Rn : forall c y, creach c y -> cte_needed q c -> cte_needed q y).
        { intros c0 y R. induction R as [c0|c0 e0 x y E0 I0 N0 R IHR]; intros Nc; [exact Nc|]. apply IHR. eapply cn_dep; eassumption. }
        destruct (IH d1 Hs') with (d' := d') as (J1 & J2 & J3 & J4); [| | |exact E|].
        -- intros y Hy. apply I1, Hi. exact Hy.
        -- intros y Hy. destruct (S y Hy) as [L|(z & -> & R & _)]; [auto|]. right. exists z. split; [reflexivity|]. eapply Rn; eassumption.
        -- intros c1 e1 y E1 A B Dy Ny. destruct (dep_mem (c1, "") d) eqn:D1.
           ++ apply dep_mem_iff in D1. apply I1. eapply Hcl; eassumption.
           ++ apply dep_mem_not in D1. eapply C; eassumption.
        -- split; [intros y Hy; apply J1, I1; exact Hy|]. split; [exact J2|]. split; [exact J3|].
           intros id' ft' [<-|Hid] N' B' C'; [|eapply J4; eassumption]. assert (ft' = ft) by congruence. subst ft'. apply J1, V.
      * destruct (IH d Hs' Hi Hx Hcl d' E) as (J1 & J2 & J3 & J4). split; [exact J1|]. split; [exact J2|]. split; [exact J3|].
        intros id' ft' [<-|Hid] N' B' C'; [|eapply J4; eassumption]. assert (ft' = ft) by congruence. subst ft'. congruence.
    + destruct (IH d Hs' Hi Hx Hcl d' E) as (J1 & J2 & J3 & J4). split; [exact J1|]. split; [exact J2|]. split; [exact J3|].
      intros id' ft' [<-|Hid] N' B' C'; [|eapply J4; eassumption]. assert (ft' = ft) by congruence. subst ft'. apply Kb in B'. discriminate.
Qed.
End Ctes.

(* ------------------------------------------------------------------ *)
(** * collectDependencies *)

Lemma collect_unfold : forall q, collect_deps q =
  match extract_tables (clause_builders q) with
  | None => RPanic nil_deref
  | Some ts =>
    match q_tables q with
    | [] => RPanic index_range
    | id :: _ =>
      match nth_error (q_tobjs q) id with
      | None => RPanic nil_deref
      | Some ft =>
        match deps_tables (deps_fuel q) q ts [ft_names ft] with
        | ROk d => deps_ctes (deps_fuel q) q (q_tables q) d
        | r => r
        end
      end
    end
  end.
Proof. reflexivity. Qed.
Lemma ctodo_fuel : forall q d, ctodo q d < deps_fuel q.
Proof.
  intros q d. unfold ctodo, deps_fuel.
  pose proof (filter_le (fun kc => negb (dep_mem (c_name (snd kc), "") d)) (fun _ => true) (q_cdict q) (fun _ _ => eq_refl)) as L.
  assert (A : forall (l : list (string * cte)), filter (fun _ => true) l = l) by (induction l as [|x l IH]; [reflexivity|cbn; rewrite IH; reflexivity]).
  rewrite A in L. lia.
Qed.
(** The outcome, for a builder with tables and without nil fragments. *)
Theorem collect_outcome : forall q m, tables_ok q -> ctes_ok q -> main_of q = Some m -> (forall b, In b (clause_builders q) -> ~ has_nil b) ->
  match collect_deps q with
  | ROk d => (forall t, needed q t -> ~ undefined q t) /\
      (forall x, x = ft_names m \/ (exists t ft, needed q t /\ table_of q t = Some ft /\ ft_names ft = x) -> In x d) /\
      (forall id ft, In id (q_tables q) -> nth_error (q_tobjs q) id = Some ft -> kept q d ft = true -> cte_of q (fst (ft_names ft)) <> None ->
         In (fst (ft_names ft), "") d) /\
      (ctes_aliased q -> (forall id ft, In id (q_tables q) -> nth_error (q_tobjs q) id = Some ft -> (kept q d ft = true <-> belongs q ft)) /\
         (forall c, cte_of q c <> None -> (In (c, "") d <-> cte_needed q c)))
  | RErr e => exists t, needed q t /\ undefined q t
  | _ => False
  end.
Proof.
  intros q m Hok Hcok Hm Hn. rewrite collect_unfold.
  pose proof (extract_list_spec (clause_builders q) []) as Ex. unfold extract_tables.
  destruct (extract_list (clause_builders q) []) as [ts|] eqn:Et.
  2:{ destruct Ex as (b & Hb & K). exact (Hn b Hb K). }
  pose proof Hm as Hm'. unfold main_of in Hm'. destruct (q_tables q) as [|id0 l0] eqn:Eq; [discriminate|]. rewrite Hm'.
  pose proof (clause_deps q m ts Hok Hm Et) as P. destruct (deps_tables (deps_fuel q) q ts [ft_names m]) as [d0|er|er|]; try exact P.
  destruct P as [Td Un]. rewrite <- Eq.
  destruct (deps_ctes_any q Hcok (deps_fuel q) (q_tables q) d0 (proj2 Hok) (ctodo_fuel q d0)) as (d & E & I1 & S1 & V1).
  rewrite E. split; [exact Un|]. split; [intros x Hx; apply I1, Td; exact Hx|]. split; [exact V1|].
  intros Ha. 
  destruct (deps_ctes_exact q Hcok (deps_fuel q) m d0 Hm Td Ha (q_tables q) d0 (incl_refl _) (incl_refl _) (fun x Hx => or_introl Hx)
    ltac:(intros c1 e1 x1 _ A B; contradiction) d E) as (J1 & J2 & J3 & J4).
  assert (Cdef : forall c, cte_needed q c -> cte_of q c <> None) by (intros c H; inversion H; subst; assumption).
  assert (Not0 : forall c, cte_of q c <> None -> ~ In (c, "") d0).
  { intros c Dc Hi. apply Td in Hi. destruct Hi as [Hi|(t & ft & _ & T & N)].
    - apply (Ha c id0 m Dc Hm'). congruence.
    - unfold table_of in T. destruct (assoc t (q_tdict q)) as [id|]; [|discriminate]. exact (Ha c id ft Dc T N). }
  split.
  - intros id ft Hid N. unfold kept, belongs. rewrite negb_true_iff, Hm. cbn [option_map].
    assert (In (ft_names ft) d <-> Some (ft_names m) = Some (ft_names ft) \/
      exists t ft', needed q t /\ table_of q t = Some ft' /\ ft_names ft' = ft_names ft) as E2.
    { split.
      - intros H. destruct (J2 _ H) as [K|(c & K & Nc)].
        + apply Td in K. destruct K as [K|K]; [left; congruence|auto].
        + exfalso. exact (Ha c id ft (Cdef c Nc) N K).
      - intros H. apply I1, Td. destruct H as [H|H]; [left; congruence|auto]. }
    rewrite <- E2, <- dep_mem_iff. destruct (q_distinct q), (ft_optional ft), (dep_mem (ft_names ft) d); cbn; split; try tauto; try discriminate.
    intros [K|[K|K]]; discriminate.
  - intros c Dc. split.
    + intros Hi. destruct (J2 _ Hi) as [K|(c' & K & Nc)]; [exfalso; exact (Not0 c Dc K)|]. injection K as <-. exact Nc.
    + intros Nc. clear Dc. induction Nc as [id ft Hid N B D|c e x Nc IH E1 I2 D].
      * eapply J4; eassumption.
      * eapply J3; try eassumption. apply Not0. congruence.
Qed.
Theorem collect_nil : forall q b, In b (clause_builders q) -> has_nil b -> collect_deps q = RPanic nil_deref.
Proof.
  intros q b Hb Hn. rewrite collect_unfold. pose proof (extract_list_spec (clause_builders q) []) as Ex. unfold extract_tables.
  destruct (extract_list (clause_builders q) []) as [ts|]; [|reflexivity]. destruct Ex as [_ Ex]. exfalso. exact (Ex b Hb Hn).
Qed.
Theorem collect_no_tables : forall q, q_tables q = [] -> (forall b, In b (clause_builders q) -> ~ has_nil b) -> collect_deps q = RPanic index_range.
Proof.
  intros q Ht Hn. rewrite collect_unfold, Ht. pose proof (extract_list_spec (clause_builders q) []) as Ex. unfold extract_tables.
  destruct (extract_list (clause_builders q) []) as [ts|]; [reflexivity|]. destruct Ex as (b & Hb & K). exfalso. exact (Hn b Hb K).
Qed.
