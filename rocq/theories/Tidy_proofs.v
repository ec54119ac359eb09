(** Texts built from tidy builders can be interpolated. *)
From Coq Require Import Strings.String Strings.Ascii NArith ZArith List Bool Lia.
From Verif Require Import GoStr GoNum Syntax Value Util Model Sqlf Sqlb Spec_syntax RefSem Spec_base Spec_eval Spec_util Spec_query Spec_mean Spec_interp Spec_tidy
  Lex_proofs Num_proofs Grammar_proofs Eval_proofs Text_proofs Base_proofs Util_proofs Interp_proofs.
Import ListNotations.
Open Scope string_scope.

(* ------------------------------------------------------------------ *)
(** * White space around inert text *)

Lemma quote_special : forall q x, is_quote q && x = true -> special q = false -> False.
Proof. intros q x H S. unfold special in S. apply andb_prop in H as [H _]. rewrite H, !orb_true_r in S. discriminate. Qed.
Lemma passive_tail : forall a s, special a = false -> passive (String a s) -> passive s.
Proof.
  intros a s Ha (l & I & W & E). revert s E. induction l as [|p l IH]; intros s E; [discriminate|].
  cbn [forallb print] in *. apply andb_prop in I as [I1 I2], W as [W1 W2].
  destruct p as [t|d|q b| |n|nm la|nm n|nm]; try discriminate I1.
  - destruct t as [|c t].
    + apply IH; assumption.
    + cbn [print1 append] in E. injection E as -> E. exists (Text t :: l). cbn [forallb is_inert print print1]. rewrite I2, W2, E.
      cbn [wf1] in *. unfold plain_text in *. cbn [all] in W1. apply andb_prop in W1 as [_ ->]. auto.
  - destruct d; cbn in E; injection E as <- E; discriminate Ha.
  - cbn [print1 append] in E. injection E as <- E. cbn [wf1] in W1. exfalso. exact (quote_special _ _ W1 Ha).
Qed.
Lemma passive_drop : forall w s, plain_text w = true -> passive (w ++ s) -> passive s.
Proof.
  unfold plain_text. induction w as [|a w IH]; intros s H P; [exact P|]. cbn [all append] in *. apply andb_prop in H as [H1 H2].
  apply IH; [exact H2|]. apply (passive_tail a); [destruct (special a); [discriminate|reflexivity]|exact P].
Qed.
Lemma snoc_cases : forall x, x = "" \/ exists u c, x = u ++ String c "".
Proof.
  induction x as [|a x [->|(u & c & ->)]]; [left; reflexivity| |]; right.
  - exists "", a. reflexivity.
  - exists (String a u), c. reflexivity.
Qed.
Lemma snoc_inj : forall u v a b, u ++ String a "" = v ++ String b "" -> u = v /\ a = b.
Proof.
  induction u as [|x u IH]; intros [|y v] a b H; cbn [append] in H.
  - injection H as ->. auto.
  - injection H as -> H. destruct v; discriminate H.
  - injection H as -> H. destruct u; discriminate H.
  - injection H as -> H. destruct (IH v a b H) as [-> ->]. auto.
Qed.
Lemma passive_init : forall a s, special a = false -> passive (s ++ String a "") -> passive s.
Proof.
  intros a s Ha (l & I & W & E). revert s E. induction l as [|p l IH]; intros s E; [destruct s; discriminate|].
  cbn [forallb print] in *. apply andb_prop in I as [I1 I2], W as [W1 W2].
  destruct (snoc_cases (print l)) as [Z|(u & c & Z)]; rewrite Z in E.
  - rewrite append_nil_r in E. destruct p as [t|d|q b| |n|nm la|nm n|nm]; try discriminate I1.
    + cbn [print1] in E. subst t. apply passive_plain. cbn [wf1] in W1. clear -W1. unfold plain_text in *.
      induction s as [|c s IH]; [reflexivity|]. cbn [all append] in *. apply andb_prop in W1 as [-> W1]. apply IH. exact W1.
    + exfalso. destruct d; cbn in E; [apply (snoc_inj "$" s "$"%char a) in E|apply (snoc_inj "?" s "?"%char a) in E]; destruct E as [_ <-]; discriminate Ha.
    + exfalso. cbn [print1] in E. change (String q (b ++ String q "")) with (String q b ++ String q "") in E. apply snoc_inj in E as [_ ->].
      cbn [wf1] in W1. exact (quote_special _ _ W1 Ha).
  - rewrite <- append_assoc in E. apply snoc_inj in E as [<- ->]. apply passive_app; [|apply IH; assumption].
    exists [p]. cbn [forallb print]. rewrite I1, W1, append_nil_r. auto.
Qed.
Lemma passive_cut : forall w s, plain_text w = true -> passive (s ++ w) -> passive s.
Proof.
  unfold plain_text. induction w as [|a w IH]; intros s H P; [rewrite append_nil_r in P; exact P|]. cbn [all] in *. apply andb_prop in H as [H1 H2].
  apply (passive_init a); [destruct (special a); [discriminate|reflexivity]|]. apply IH; [exact H2|]. rewrite append_assoc. exact P.
Qed.
Lemma blank_plain : forall w, blank w -> plain_text w = true.
Proof.
  intros w H. induction H as [|w s Hw H IH]; [reflexivity|]. rewrite plain_app, IH, andb_true_r.
  assert (K : forallb plain_text whites = true) by (vm_compute; reflexivity). rewrite forallb_forall in K. apply K. exact Hw.
Qed.
Lemma left_plain : forall s, exists w, s = w ++ trim_left s /\ plain_text w = true.
Proof.
  intros s. destruct (left_trimmed (String.length s) s (Nat.le_refl _)) as [(a & Ea & Ba) _]. exists a. split; [exact Ea|apply blank_plain; exact Ba].
Qed.
Lemma right_plain : forall s, exists w, s = trim_right s ++ w /\ plain_text w = true.
Proof.
  intros s. unfold trim_right. destruct (right_trimmed (String.length s) (str_rev s)) as [(b & Eb & Bb) _]; [rewrite length_rev; apply Nat.le_refl|].
  exists b. split; [|apply blank_plain; exact Bb]. rewrite <- (rev_rev b), <- rev_app, <- Eb, rev_rev. reflexivity.
Qed.
Lemma passive_left : forall s, passive s -> passive (trim_left s).
Proof. intros s H. destruct (left_plain s) as (w & E & Hw). rewrite E in H. exact (passive_drop w _ Hw H). Qed.
Lemma passive_right : forall s, passive s -> passive (trim_right s).
Proof. intros s H. destruct (right_plain s) as (w & E & Hw). rewrite E in H. exact (passive_cut w _ Hw H). Qed.
Lemma starts_prefix : forall p s x, starts p (s ++ x) = false -> starts p s = false.
Proof. intros p [|a s] x H; [reflexivity|exact H]. Qed.
Lemma apart_trim : forall l, apart l -> apart (trim_last l).
Proof.
  induction l as [|[j s] l IH]; intros H; [exact H|]. destruct H as (P & St & En & H). destruct l as [|x l].
  - cbn [trim_last apart]. split; [apply passive_right; exact P|]. split; [|auto]. destruct (right_plain s) as (w & E & _). rewrite E in St. exact (starts_prefix _ _ _ St).
  - change (trim_last ((j, s) :: x :: l)) with ((j, s) :: trim_last (x :: l)). cbn [apart]. split; [exact P|]. split; [exact St|]. split; [|apply IH; exact H].
    intros E. specialize (En E). discriminate.
Qed.
Lemma clean_trim : forall t, clean_text t -> clean_text (ttrim t).
Proof.
  intros [s l] [P A]. unfold ttrim. cbn [fst snd] in *. destruct l as [|x l].
  - split; [|exact Logic.I]. cbn [fst]. apply passive_right, passive_left, P.
  - split; [apply passive_left; exact P|apply apart_trim; exact A].
Qed.

(* ------------------------------------------------------------------ *)
(** * Expansions *)

Lemma passive_nil : passive "".
Proof. exists []. auto. Qed.
Lemma clean_nil : clean_text (tlit "").
Proof. apply clean_lit, passive_nil. Qed.
Lemma clean_more : forall t s y, clean_text t -> passive s -> solid s -> clean_text y -> clean_text (tapp t (tapp (tlit s) y)).
Proof.
  intros t s y Ct Ps Ss Cy. apply clean_app; [exact Ct| |right].
  - apply clean_app; [apply clean_lit; exact Ps|exact Cy|left; reflexivity].
  - unfold tapp. cbn [tlit fst snd tcat]. apply solid_app. exact Ss.
Qed.
Lemma clean_end : forall t s, clean_text t -> passive s -> s = "" \/ solid s -> clean_text (tapp t (tlit s)).
Proof.
  intros t s Ct Ps [->|Ss]; [|apply clean_app; [exact Ct|apply clean_lit; exact Ps|right; exact Ss]].
  replace (tapp t (tlit "")) with t; [exact Ct|]. symmetry. destruct t as [a l]. unfold tapp. cbn [fst snd].
  clear Ct Ps. revert a. induction l as [|[j s] l IH]; intros a; cbn [tcat tlit fst snd]; [rewrite append_nil_r; reflexivity|]. cbn [tlit] in IH. rewrite IH. reflexivity.
Qed.

Scheme means_mut := Minimality for means Sort Prop
  with means_all_mut := Minimality for means_all Sort Prop
  with means_clause_mut := Minimality for means_clause Sort Prop
  with means_expr_mut := Minimality for means_expr Sort Prop
  with means_items_mut := Minimality for means_items Sort Prop.
Combined Scheme means_both from means_mut, means_all_mut, means_clause_mut, means_expr_mut, means_items_mut.

Lemma at_tidy : forall i x, tidy_expr x -> tidy_expr (at_index i x).
Proof. intros i x H. destruct x; try exact H. cbn [at_index]. constructor; intros; discriminate. Qed.
Lemma at_spread : forall i es, spread es -> spread (map (at_index i) es).
Proof.
  intros i. induction es as [|x es IH]; intros H; [exact Logic.I|].
  assert (K : forall l, follows l -> follows (map (at_index i) l)).
  { intros [|[] l] Hl; try exact Hl; try contradiction. cbn [map at_index follows] in *. destruct Hl as [Hl|[Hl ->]]; [left; exact Hl|right; auto]. }
  destruct x; cbn [map at_index spread] in *; try (destruct H as [H1 H2]; split; [apply K; exact H1|apply IH; exact H2]). apply IH. exact H.
Qed.
(** What follows the text of a clause. *)
Definition opening (es : list expr) (t : text) : Prop :=
  match es with [] => t = tlit "" | EPlain s _ :: es' => exists u, t = tapp (tlit s) u /\ (es' = [] -> u = tlit "") | _ => True end.

Lemma tidy_frag_inv : forall f, tidy (BFrag f) -> (forall es, parse (f_raw f) = POk es -> Forall tidy_expr es /\ spread es) /\ passive (f_prefix f) /\ passive (f_suffix f) /\ Forall tidy (f_frags f).
Proof. intros f H. inversion H; subst. auto. Qed.
Lemma tidy_col_inv : forall f x, tidy (BCol (Some f) x) -> (forall es, parse (f_raw f) = POk es -> Forall tidy_expr es /\ spread es) /\ passive (f_prefix f) /\ passive (f_suffix f) /\ Forall tidy (f_frags f).
Proof. intros f x H. inversion H; subst. auto. Qed.
Lemma clean_spaced : forall f t, passive (f_prefix f) -> passive (f_suffix f) -> clean_text t -> clean_text (spaced f t).
Proof.
  intros f t Pp Ps Ct. unfold spaced. destruct (tempty (ttrim t)); [apply clean_nil|].
  assert (Sp : passive " ") by (apply passive_plain; reflexivity).
  apply clean_app; [| |left; reflexivity].
  - apply clean_lit. destruct (is_empty (f_prefix f)); [apply passive_nil|]. apply passive_app; [exact Pp|exact Sp].
  - apply clean_end; [apply clean_trim; exact Ct| |].
    + destruct (is_empty (f_suffix f)); [apply passive_nil|]. apply (passive_app " "); [exact Sp|exact Ps].
    + destruct (is_empty (f_suffix f)); [left; reflexivity|right]. split; [discriminate|reflexivity].
Qed.
Lemma tidy_more : forall f l, tidy (BFrag (more_frags f l)) -> forall k, tidy (BFrag (more_frags f (copies k l))).
Proof.
  intros f l H k. destruct (tidy_frag_inv _ H) as (H1 & H2 & H3 & H4). cbn [more_frags f_raw f_prefix f_suffix f_frags] in *. apply Forall_app in H4 as [H4 H5].
  constructor; cbn [more_frags f_raw f_prefix f_suffix f_frags]; try assumption. apply Forall_app. split; [exact H4|].
  induction k as [|k IH]; [constructor|]. cbn [copies]. apply Forall_app. auto.
Qed.
Lemma Forall_filter' : forall A (Q : A -> Prop) p l, Forall Q l -> Forall Q (filter p l).
Proof. intros A Q p l H. rewrite Forall_forall in *. intros x Hx. apply filter_In in Hx as [Hx _]. auto. Qed.

Lemma clean_layout : forall ctes s hidden from w g o limit offset us,
  Forall (fun nt => passive (fst nt) /\ clean_text (snd nt)) ctes -> clean_text s -> clean_text hidden -> Forall clean_text from ->
  clean_text w -> clean_text g -> clean_text o -> match us with Some l => Forall clean_text l | None => True end ->
  clean_text (tlayout ctes s hidden from w g o limit offset us).
Proof.
  intros ctes s hidden from w g o limit offset us Hc Hs Hh Hf Hw Hg Ho Hu.
  assert (Pl : forall x, plain_text x = true -> passive x) by (intros x; apply passive_plain).
  assert (So : forall a x, Ascii.eqb a "?" || is_digit a = false -> solid (String a x)) by (intros a x E; split; [discriminate|exact E]).
  assert (Any : forall t, clean_text t -> Forall clean_text (tany t)) by (intros t Ht; unfold tany; destruct (tempty t); auto).
  assert (Num : forall name z, plain_text name = true -> Forall clean_text (map tlit (number_clause name z))).
  { intros name z Hn. unfold number_clause. destruct (0 <? z)%Z; [|constructor]. constructor; [|constructor]. apply clean_lit. apply passive_app; [apply Pl; exact Hn|]. apply Pl, itoa_plain. }
  assert (Main : clean_text (ttrim (tjoin " " (twith ctes ++ [if tempty hidden then s else tapp s (tapp (tlit ", ") hidden)] ++ [tapp (tlit "FROM ") (tjoin " " from)] ++
     tany w ++ tany g ++ tany o ++ map tlit (number_clause "LIMIT " limit) ++ map tlit (number_clause "OFFSET " offset))))).
  { apply clean_trim. apply clean_join; [apply Pl; reflexivity|apply So; reflexivity|].
    repeat (apply Forall_app; split); try (apply Any; assumption); try (apply Num; reflexivity).
    - unfold twith. pose proof (Forall_filter' _ _ (fun nt => negb (tempty (snd nt))) _ Hc) as F. destruct (filter _ ctes) as [|x l]; [constructor|].
      constructor; [|constructor]. apply clean_app; [apply clean_lit, Pl; reflexivity| |left; reflexivity].
      apply clean_join; [apply Pl; reflexivity|apply So; reflexivity|]. revert F. generalize (x :: l). clear. intros l F. induction F as [|y l [H1 H2] F IH]; [constructor|].
      cbn [map]. constructor; [|exact IH]. apply clean_app; [| |left; reflexivity].
      + apply clean_lit. apply passive_app; [exact H1|]. apply passive_plain. reflexivity.
      + apply clean_app; [exact H2|apply clean_lit, passive_plain; reflexivity|right; split; [discriminate|reflexivity]].
    - constructor; [|constructor]. destruct (tempty hidden); [exact Hs|]. apply clean_more; [exact Hs|apply Pl; reflexivity|apply So; reflexivity|exact Hh].
    - constructor; [|constructor]. apply clean_app; [apply clean_lit, Pl; reflexivity| |left; reflexivity]. apply clean_join; [apply Pl; reflexivity|apply So; reflexivity|exact Hf]. }
  unfold tlayout. destruct us as [us|]; [|exact Main]. apply clean_trim. apply clean_more; [exact Main|apply Pl; reflexivity|apply So; reflexivity|].
  apply clean_app; [apply clean_lit, Pl; reflexivity| |left; reflexivity]. apply clean_end; [|apply Pl; reflexivity|right; apply So; reflexivity].
  apply clean_join; [apply Pl; reflexivity|apply So; reflexivity|]. apply Forall_filter'. exact Hu.
Qed.

(** The templates of a new builder. *)
Lemma tidy_new : tidy_qb new_qb.
Proof.
  assert (Pl : forall x, plain_text x = true -> passive x) by (intros x; apply passive_plain).
  assert (So : forall a x, Ascii.eqb a "?" || is_digit a = false -> firm (String a x)) by (intros a x E; split; [discriminate|exact E]).
  unfold tidy_qb. repeat apply conj; try constructor.
  all: try (intros es E; vm_compute in E; injection E as <-; split; [|vm_compute; tauto]).
  all: try (apply Pl; reflexivity).
  all: try constructor.
  all: try (constructor; fail).
  all: try (constructor; intros tm se idx; intros; match goal with K : [_; _] = _ |- _ => injection K as <- <- <- end).
  all: try (split; [apply Pl; reflexivity|apply So; reflexivity]).
  all: match goal with K2 : parse _ = _ |- _ => vm_compute in K2; injection K2 as <- end.
  all: try (split; [right|]; repeat constructor; fail). all: repeat constructor. all: apply Pl; reflexivity.
Qed.

Section Tidy.
Variable e : env.
Variable h : list qb.
Variable log : list value.
Hypothesis Hh : Forall tidy_qb h.

Lemma clean_all :
  (forall b t, means e h log b t -> tidy b -> clean_text t) /\
  (forall bs ts, means_all e h log bs ts -> Forall tidy bs -> Forall clean_text ts) /\
  (forall a fs es t, means_clause e h log a fs es t -> Forall tidy fs -> Forall tidy_expr es -> spread es -> clean_text t /\ opening es t) /\
  (forall a fs x t, means_expr e h log a fs x t -> Forall tidy fs -> tidy_expr x -> clean_text t /\ forall s p, x = EPlain s p -> t = tlit s) /\
  (forall a fs es i ts, means_items e h log a fs es i ts -> Forall tidy fs -> Forall tidy_expr es -> spread es -> Forall clean_text ts).
Proof.
  apply (means_both e h log).
  - intros _. apply clean_nil.
  - intros f es t E _ IH T. destruct (tidy_frag_inv _ T) as (T1 & T2 & T3 & T4). destruct (T1 es E) as [T5 T6].
    apply clean_spaced; try assumption. apply IH; assumption.
  - intros f x es t E _ IH T. destruct (tidy_col_inv _ _ T) as (T1 & T2 & T3 & T4). destruct (T1 es E) as [T5 T6].
    apply clean_spaced; try assumption. apply IH; assumption.
  - intros x _. apply clean_nil.
  - intros s T. inversion T; subst. apply clean_lit. assumption.
  - intros s a T. inversion T; subst. apply clean_lit. assumption.
  - intros _. apply clean_nil.
  - intros id q k kc kt ctes from w g o s hidden us Eq Mc Ic Mf If _ Iw _ Ig _ Io _ Is _ _ Ih Mu Iu _.
    assert (Tq : tidy_qb q \/ q = new_qb).
    { subst q. destruct (nth_in_or_default id h new_qb) as [K|K]; [left|right; exact K]. rewrite Forall_forall in Hh. apply Hh. exact K. }
    assert (T : tidy_qb q).
    { destruct Tq as [Tq| ->]; [exact Tq|]. exact tidy_new. }
    destruct T as (T1 & T2 & T3 & T4 & T5 & T6 & T7 & T8).
    apply clean_layout; auto.
    + assert (Fc : Forall clean_text ctes).
      { apply Ic. clear -T1. apply (Forall_filter' _ _ kc) in T1. induction T1 as [|c l [_ H] T1 IH]; constructor; assumption. }
      apply (Forall_filter' _ _ kc) in T1. clear -T1 Fc. revert ctes Fc. induction T1 as [|c l [H _] T1 IH]; intros ctes Fc; [constructor|].
      destruct Fc as [|t ts Ht Fc]; [constructor|]. cbn [map combine]. constructor; [split; assumption|]. apply IH. exact Fc.
    + apply Ih. apply tidy_more. exact T7.
    + apply If. clear -T2. apply (Forall_filter' _ _ kt) in T2. induction T2; constructor; assumption.
    + destruct (q_unions q) as [|u l]; [exact Logic.I|]. apply Iu. exact T8.
  - intros _. constructor.
  - intros b bs t ts _ IH1 _ IH2 F. inversion F; subst. constructor; auto.
  - intros a fs _ _ _. split; [apply clean_nil|reflexivity].
  - intros a fs x es t u _ IH1 _ IH2 Ff Fe Sp. inversion Fe as [|? ? T1 T2]; subst. destruct (IH1 Ff T1) as [C1 P1].
    assert (Sp2 : spread es) by (destruct x; cbn [spread] in Sp; tauto). destruct (IH2 Ff T2 Sp2) as [C2 O2]. split.
    + assert (Pl : (exists s p, x = EPlain s p) \/ follows es).
      { destruct x; cbn [spread] in Sp; [left; eauto|right; tauto..]. }
      destruct Pl as [(s & p & ->)|Pl].
      * rewrite (P1 s p eq_refl). apply clean_app; [apply clean_lit; inversion T1; subst; assumption|exact C2|left; reflexivity].
      * destruct es as [|y es].
        -- cbn [opening] in O2. subst u. apply clean_end; [exact C1|apply passive_nil|left; reflexivity].
        -- destruct y; try contradiction. cbn [opening follows] in *. destruct O2 as (v & -> & O3). destruct Pl as [Pl|[-> ->]].
           2: { rewrite (O3 eq_refl). apply clean_end; [exact C1|apply passive_nil|left; reflexivity]. }
           apply clean_app; [exact C1|exact C2|right].
           unfold tapp. cbn [tlit fst snd tcat]. apply solid_app. exact Pl.
    + destruct x; cbn [opening]; try exact Logic.I. rewrite (P1 _ _ eq_refl). exists u. split; [reflexivity|]. intros ->. exact O2.
  - intros a fs s p _ T. split; [apply clean_lit; inversion T; subst; assumption|]. intros s' p' E. injection E as <- _. reflexivity.
  - intros. split; [apply clean_ph|discriminate].
  - intros. split; [apply clean_ph|discriminate].
  - intros a fs name x p b t _ [_ Ib] _ IH Ff _. split; [|discriminate]. apply IH. rewrite Forall_forall in Ff. apply Ff. eapply nth_error_In. exact Ib.
  - intros a fs name tmpl sep idx p es ts _ E _ IH Ff T. split; [|discriminate]. inversion T as [| |? ? ? T1 T2 T3|]; subst.
    destruct (T1 tmpl sep idx eq_refl) as [P1 P2]. apply clean_join; [exact P1|exact P2|]. apply Forall_filter'.
    apply IH; [exact Ff|exact (T3 _ _ _ _ eq_refl E)|exact (T2 _ _ _ _ eq_refl E)].
  - intros. constructor.
  - intros a fs es i t ts _ IH1 _ IH2 Ff Fe Sp. constructor; [|apply IH2; assumption]. apply IH1; [exact Ff| |apply at_spread; exact Sp].
    rewrite Forall_forall in *. intros x Hx. apply in_map_iff in Hx as (y & <- & Hy). apply at_tidy. auto.
Qed.
Theorem tidy_clean : forall b t, means e h log b t -> tidy b -> clean_text t.
Proof. exact (proj1 clean_all). Qed.
End Tidy.
