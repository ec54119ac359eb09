(** Debug mode: when the text can be interpolated. *)
From Coq Require Import Strings.String Strings.Ascii NArith ZArith List Bool Lia.
From Verif Require Import GoStr GoNum Syntax Value Util Model Sqlf Sqlb RefSem Spec_build Spec_eval Spec_util Spec_query Spec_mean Spec_syntax Spec_interp Spec_debug Spec_tidy
  Base_proofs Lex_proofs Text_proofs Sim_proofs Grammar_proofs Mean_proofs Fresh_proofs Store_proofs Build_proofs Util_proofs Sql_proofs Interp_proofs Debug_proofs Tidy_proofs.
Import ListNotations.
Open Scope string_scope.

Section Text.
Variable ft : gotime -> string.
Variable args : list value.
Hypothesis Hm : forall v e, In v args -> ~ method_panics v e.

Lemma safe_parts : forall ps e, wf ps = true -> style_ok false ps = true ->
  (forall sty i, In (ABind sty i) (denote 0 ps) -> (1 <= i <= Z.of_nat (List.length args))%Z) ->
  interpolate ft (print ps) args <> RPanic e.
Proof.
  intros ps e W St Hb H. apply (same_panic _ _ e (interpolate_parsed ft (print ps) args (norm (denote 0 ps)) (parsed_roundtrip ps W St))) in H.
  rewrite ie_norm in H. apply ie_panic_only in H. destruct H as (pre & outs & x & post & E & _ & Hx).
  destruct Hx as [sty k Ho|sty k v e N1 N2 Hp].
  - specialize (Hb sty k). rewrite E in Hb. specialize (Hb (in_elt _ _ _)). unfold outside in Ho. lia.
  - apply (Hm v e); [eapply nth_error_In; exact N2|exact Hp].
Qed.
Lemma denote_inert : forall ls ps k sty i, forallb is_inert ls = true -> In (ABind sty i) (denote k (ls ++ ps)) -> In (ABind sty i) (denote k ps).
Proof.
  induction ls as [|p ls IH]; intros ps k sty i H K; [exact K|]. cbn [forallb app] in *. apply andb_prop in H as [H1 H2].
  destruct p; cbn [is_inert] in H1; try discriminate H1; cbn [denote] in K; (destruct K as [K|K]; [discriminate K|]); apply IH; assumption.
Qed.
Lemma question_safe : forall l k b, apart l ->
  exists ps, print ps = tail qmark l /\ wf ps = true /\ style_ok b ps = true /\
    forall sty i, In (ABind sty i) (denote (Z.of_nat k) ps) -> (Z.of_nat k < i <= Z.of_nat (k + List.length l))%Z.
Proof.
  induction l as [|[j s] l IH]; intros k b Ha.
  - exists []. repeat split; contradiction.
  - destruct Ha as ((ls & I & W & P) & St & En & Ha). destruct (IH (S k) true Ha) as (ps & P2 & W2 & S2 & F2).
    exists (Quest :: ls ++ ps)%list. cbn [print print1 tail fold_right fst snd style_ok]. rewrite print_parts_app, P, P2.
    split; [reflexivity|]. split; [|split].
    + unfold wf. cbn [wf_at wf1 follow]. rewrite (wf_inert_app ls ps "" I W W2), print_parts_app, P, P2, append_nil_r.
      destruct (starts_q s (tail qmark l) St) as [-> _]; [|reflexivity]. intros E. apply tail_empty, En, E.
    + rewrite style_inert_app by exact I. exact S2.
    + intros sty i H. cbn [denote List.length] in *. destruct H as [H|H]; [injection H as <- <-; lia|].
      apply denote_inert in H; [|exact I]. replace (Z.of_nat k + 1)%Z with (Z.of_nat (S k)) in H by lia. specialize (F2 sty i H). lia.
Qed.
Lemma dollar_safe : forall p l k, (Z.of_nat (List.length args) < 9223372036854775808)%Z -> apart l ->
  (forall j, In j (map fst l) -> exists i, p j = "$" ++ dec (N.of_nat i) /\ 1 <= i <= List.length args) ->
  exists ps, print ps = tail p l /\ wf ps = true /\ style_ok false ps = true /\
    forall sty i, In (ABind sty i) (denote k ps) -> (1 <= i <= Z.of_nat (List.length args))%Z.
Proof.
  intros p l k Hb. revert k. induction l as [|[j s] l IH]; intros k Ha Hv.
  - exists []. repeat split; contradiction.
  - destruct Ha as ((ls & I & W & P) & St & En & Ha).
    destruct (IH (k + 1)%Z Ha) as (ps & P2 & W2 & S2 & F2). { intros j' Hj. apply Hv. right. exact Hj. }
    destruct (Hv j) as (i & Ep & Hi); [left; reflexivity|].
    exists (Dollar (N.of_nat i) :: ls ++ ps)%list. cbn [print print1 tail fold_right fst snd style_ok negb andb]. rewrite print_parts_app, P, P2, Ep.
    split; [reflexivity|]. split; [|split].
    + unfold wf. cbn [wf_at wf1 follow]. rewrite (wf_inert_app ls ps "" I W W2), print_parts_app, P, P2, append_nil_r.
      destruct (starts_q s (tail p l) St) as [_ ->]; [intros E; apply tail_empty, En, E|].
      replace (1 <=? N.of_nat i)%N with true by (symmetry; apply N.leb_le; lia).
      replace (N.of_nat i <? 9223372036854775808)%N with true by (symmetry; apply N.ltb_lt; lia). reflexivity.
    + rewrite style_inert_app by exact I. exact S2.
    + intros sty i' H. cbn [denote] in H. destruct H as [H|H]; [injection H as <- <-; lia|].
      apply denote_inert in H; [|exact I]. exact (F2 sty i' H).
Qed.

(** A clean text can be interpolated. *)
Lemma clean_safe : forall (dollar : bool) t ph log er, clean_text t -> (dollar = false -> List.length (placeholders t) <= List.length args) ->
  (dollar = true -> (Z.of_nat (List.length args) < 9223372036854775808)%Z) ->
  (forall j, In j (placeholders t) -> exists v, nth_error log j = Some v /\ denotes dollar args (ph j) v) ->
  interpolate ft (render ph t) args <> RPanic er.
Proof.
  intros dollar [s l] ph log er [(ls & I & W & P) Ha] Hl Hb Hv. unfold placeholders in *. cbn [fst snd] in *. rewrite map_length in Hl.
  assert (K : exists ps, print ps = tail ph l /\ wf ps = true /\ style_ok false ps = true /\
    forall sty i, In (ABind sty i) (denote 0 ps) -> (1 <= i <= Z.of_nat (List.length args))%Z).
  { destruct dollar; cbn [denotes] in Hv.
    - apply dollar_safe; [auto|exact Ha|]. intros j Hj. destruct (Hv j Hj) as (v & _ & k & w & E & Hk & _). eauto.
    - destruct (question_safe l 0 false Ha) as (ps & P2 & W2 & S2 & F2). exists ps. split; [|split; [exact W2|split; [exact S2|]]].
      + rewrite P2. clear -Hv. induction l as [|[j s] l IH]; [reflexivity|]. unfold tail in *. cbn [fold_right fst snd map] in *.
        rewrite IH by (intros; apply Hv; right; assumption). destruct (Hv j (or_introl eq_refl)) as (v & _ & ->). reflexivity.
      + intros sty i H. specialize (F2 sty i H). specialize (Hl eq_refl). lia. }
  destruct K as (ps & P2 & W2 & S2 & F2). rewrite render_eq. cbn [fst snd]. rewrite <- P, <- P2, <- print_parts_app. apply safe_parts.
  - apply wf_inert_app; assumption.
  - rewrite style_inert_app by exact I. exact S2.
  - intros sty i H. apply denote_inert in H; [|exact I]. exact (F2 sty i H).
Qed.
End Text.

(* ------------------------------------------------------------------ *)
(** * What the text is that cannot be shown *)

Lemma replay_all : forall P log st, forallb P log = true -> forallb P (st_args st) = true -> forallb P (st_args (replay st log)) = true.
Proof.
  intros P. induction log as [|v log IH]; intros st H K; [exact K|]. cbn [forallb replay] in *. apply andb_prop in H as [H1 H2].
  apply IH; [exact H2|]. unfold commit. destruct (st_dollar st); cbn [snd st_args].
  - destruct (hashable v); [|exact K]. destruct (dict_find _ _); cbn [snd st_args]; [exact K|]. rewrite forallb_app, K. cbn [forallb]. rewrite H1. reflexivity.
  - rewrite forallb_app, K. cbn [forallb]. rewrite H1. reflexivity.
Qed.
Lemma bad_shown : forall P h fl dl m, (dl = true -> forall v, P v = true -> hashable v = true) -> bad P [builtins] h fl dl m ->
  exists id, nth id fl false = true /\ unshowable P dl h id m.
Proof.
  intros P h fl dl m HP (n & id & st & q & st' & er & C & Hf & Hb & Hi & Hm).
  destruct C as (C1 & C2 & (C3 & C4) & C5). exists id. split; [exact Hf|].
  destruct (build_general P n [builtins] (BQuery (Some id)) st eq_refl eq_refl C1) as [E [G C]]. { rewrite C3. exact HP. }
  rewrite E in Hb. clear E.
  pose proof (den_build [builtins] eq_refl P false h n (BQuery (Some id)) (mkG [] (st_heap st)) (fun K => False_ind _ (diff_false_true K)) (fun j => C5 j)) as [_ [X D]].
  pose proof (fr_build n [builtins] (BQuery (Some id)) (mkG [] (st_heap st))) as [_ Fr]. cbn [g_log] in *.
  set (r := gbuild n [builtins] (BQuery (Some id)) (mkG [] (st_heap st))) in *. set (log := g_log (snd r)) in *.
  destruct (fst r) as [t|e|e|]; cbn [omap okT] in *; try discriminate Hb. injection Hb as <- <-. cbn [set_heap st_args] in Hi, Hm. unfold len in Hm. cbn [st_args] in Hm.
  assert (HG : st_dollar st = true -> forallb hashable log = true).
  { rewrite C3. intros Hd. apply forallb_forall. intros v Hv. apply HP; [exact Hd|]. rewrite forallb_forall in G. auto. }
  exists log, t, (shown st log), (st_args (replay st log)), er. destruct D as [_ D2]. split; [apply D2; apply ext_refl|].
  pose proof (proj1 Fr) as Nd. apply fresh_count in Fr.
  split; [|split; [exact Nd|split; [exact Hm|split; [|split; [|exact Hi]]]]].
  - apply replay_all; assumption.
  - intros Hd. rewrite (proj1 (replay_question log st (eq_trans C3 Hd))), List.app_length. unfold at_ in Fr. fold log in Fr. lia.
  - intros j Hj. destruct (nth_error log j) as [v|] eqn:En.
    + exists v. split; [reflexivity|]. rewrite <- C3. apply shown_denotes; assumption.
    + apply nth_error_None in En. specialize (C j Hj). lia.
Qed.

(* ------------------------------------------------------------------ *)
(** * Debug mode *)

Theorem debug_only : forall P n style h b, (forall v e, P v = true -> method_panics v e -> is_invalid_index e = false) ->
  (style = style_dollar -> forall v, P v = true -> hashable v = true) -> lib P b = true -> forallb (lib_qb P) (map quiet h) = true ->
  let d := build_query n style h b in let r := build_query n style (map quiet h) b in
  (fst d = fst r /\ map quiet (snd d) = snd r /\ map q_debug (snd d) = map q_debug h) \/
  ((exists er, fst d = RErr er \/ fst d = RPanic er) /\
   exists id m, nth id (map q_debug h) false = true /\ unshowable P (Z.eqb style style_dollar) (map quiet h) id m /\
     forall s args, fst r = ROk (s, args) -> m <= List.length args).
Proof.
  intros P n style h b Hp Hd Hb Hh d r. subst d r. unfold build_query.
  pose proof (dq_build P [builtins] eq_refl (map quiet h) (map q_debug h) (Z.eqb style style_dollar) Hp n b (new_store style h) (new_store style (map quiet h)) Hb) as K.
  destruct K as [[K1 K2]|[K1 K2]].
  - unfold twin, calm. cbn [new_store st_dollar st_args st_dict st_heap]. repeat (split; [reflexivity|]). split; [exact Hh|]. split; [reflexivity|].
    split; [split; [reflexivity|intros _ w k Hk; discriminate Hk]|]. intros id. apply rebuilt_refl.
  - right. apply bad_shown in K2; [|intros E; apply Hd; apply Z.eqb_eq; exact E]. destruct K2 as (id & H1 & H2).
    destruct (build n [builtins] b (new_store style h)) as [o s]. destruct (build n [builtins] b (new_store style (map quiet h))) as [o' t].
    cbn [fst snd] in *. split; [destruct o; try contradiction; eauto|]. exists id, (len t). split; [exact H1|]. split; [exact H2|].
    intros q args E. destruct o'; try discriminate E. injection E as _ <-. unfold len. lia.
  - left. destruct (build n [builtins] b (new_store style h)) as [o s]. destruct (build n [builtins] b (new_store style (map quiet h))) as [o' t].
    cbn [fst snd] in *. destruct K2 as (_ & Ha & _ & Hq & Hf & _). rewrite K1, Ha. auto.
Qed.

Theorem debug_clean : forall P n style h b, (forall v e, P v = true -> ~ method_panics v e) ->
  (style = style_dollar -> forall v, P v = true -> hashable v = true) -> lib P b = true -> forallb (lib_qb P) (map quiet h) = true ->
  let d := build_query n style h b in let r := build_query n style (map quiet h) b in
  (style = style_dollar -> exists s args, fst r = ROk (s, args) /\ (Z.of_nat (List.length args) < 9223372036854775808)%Z) ->
  (forall id log t, nth id (map q_debug h) false = true -> means [builtins] (map quiet h) log (BQuery (Some id)) t -> clean_text t) ->
  fst d = fst r /\ map quiet (snd d) = snd r /\ map q_debug (snd d) = map q_debug h.
Proof.
  intros P n style h b Hp Hd Hb Hh d r Hs Hc. destruct (debug_only P n style h b) as [K|[_ (id & m & Hf & U & Hm)]]; try assumption.
  { intros v e Hv K. exfalso. exact (Hp v e Hv K). }
  exfalso. destruct U as (log & t & ph & args & er & M & Pa & _ & La & Lq & V & E). revert E.
  apply (clean_safe (fun _ => "") args) with (dollar := Z.eqb style style_dollar) (log := log); try assumption.
  - intros v e Hv. apply Hp. rewrite forallb_forall in Pa. auto.
  - exact (Hc id log t Hf M).
  - intros Ed. apply Z.eqb_eq in Ed. destruct (Hs Ed) as (s & args' & Er & Hlt). specialize (Hm s args' Er). lia.
Qed.

Lemma quiet_tidy : forall q, tidy_qb q -> tidy_qb (quiet q).
Proof. intros q H. exact H. Qed.
Theorem debug_tidy : forall P n style h b, (forall v e, P v = true -> ~ method_panics v e) ->
  (style = style_dollar -> forall v, P v = true -> hashable v = true) -> lib P b = true -> forallb (lib_qb P) (map quiet h) = true ->
  let d := build_query n style h b in let r := build_query n style (map quiet h) b in
  (style = style_dollar -> exists s args, fst r = ROk (s, args) /\ (Z.of_nat (List.length args) < 9223372036854775808)%Z) ->
  Forall tidy_qb h ->
  fst d = fst r /\ map quiet (snd d) = snd r /\ map q_debug (snd d) = map q_debug h.
Proof.
  intros P n style h b Hp Hd Hb Hh d r Hs Ht. apply (debug_clean P); try assumption.
  intros id log t _ M. apply (tidy_clean [builtins] (map quiet h) log) with (b := BQuery (Some id)); [|exact M|constructor].
  apply Forall_forall. intros q Hq. apply in_map_iff in Hq as (q' & <- & Hq). rewrite Forall_forall in Ht. exact (Ht q' Hq).
Qed.

Theorem tidy_shown : forall ft n h b sq aq, lib hashable b = true -> forallb (lib_qb hashable) h = true -> tidy b -> Forall tidy_qb h ->
  fst (build_query n style_question h b) = ROk (sq, aq) ->
  exists t sd ad, means [builtins] h aq b t /\ sq = render qmark t /\ fst (build_query n style_dollar h b) = ROk (sd, ad) /\
    forall lit,
      (placeholders t = seq 0 (List.length aq) -> (forall j v, nth_error aq j = Some v -> literal ft v (lit j)) ->
        interpolate ft sq aq = ROk (render lit t)) /\
      ((Z.of_nat (List.length ad) < 9223372036854775808)%Z ->
        (forall j v w, In j (placeholders t) -> nth_error aq j = Some v -> In w ad -> same_value v w -> literal ft w (lit j)) ->
        interpolate ft sd ad = ROk (render lit t)).
Proof.
  intros ft n h b sq aq H1 H2 Tb Th H. destruct (both_shown ft n h b sq aq H1 H2 H) as (t & sd & ad & M & E & D & K).
  exists t, sd, ad. split; [exact M|]. split; [exact E|]. split; [exact D|]. intros lit. apply K.
  apply (tidy_clean [builtins] h aq) with (b := b); assumption.
Qed.
