(** Replacing argument values in Dollar style. *)
From Coq Require Import Strings.String Strings.Ascii NArith ZArith List Bool Lia.
From Verif Require Import GoStr GoNum Syntax Value Util Model Sqlf Sqlb Spec_syntax RefSem Spec_build
  Text_proofs Sim_proofs Map_proofs Build_proofs.
Import ListNotations.
Open Scope string_scope.

Section Lib.
Variable m : value -> value.
Variables P P' : value -> bool.
Hypothesis HP : forall v, P v = true -> P' (m v) = true.

Lemma map_lib2 : forall b, lib P b = true -> lib P' (map_b m b) = true.
Proof.
  fix IH 1. intros b.
  assert (G : forall f, (forall c, In c (f_frags f) -> lib P c = true -> lib P' (map_b m c) = true) ->
    lib_frag P f = true -> lib_frag P' (map_frag m f) = true).
  { intros f Hc H. rewrite map_frag_eq. destruct f as [raw args frags p s].
    cbn [f_raw f_args f_frags f_prefix f_suffix] in *.
    change (forallb P args && forallb (lib P) frags = true) in H.
    change (forallb P' (map m args) && forallb (lib P') (map (map_b m) frags) = true).
    apply andb_prop in H as [A H]. apply andb_true_intro. split.
    - rewrite forallb_forall in A |- *. intros c Hi. apply in_map_iff in Hi as [d [<- Hd]]. apply HP, A, Hd.
    - rewrite forallb_forall in H |- *. intros c Hi. apply in_map_iff in Hi as [d [<- Hd]]. apply Hc; auto. }
  destruct b as [| |f| |[f|] t|t|x a|[id|]|p]; try reflexivity; try discriminate.
  - change (lib_frag P f = true -> lib_frag P' (map_frag m f) = true). apply G.
    destruct f as [raw args frags pre suf]. cbn [f_frags].
    induction frags as [|c l IHl]; [intros c []|]. intros d [<-|Hd]; [apply IH|apply IHl; exact Hd].
  - change (lib_frag P f = true -> lib_frag P' (map_frag m f) = true). apply G.
    destruct f as [raw args frags pre suf]. cbn [f_frags].
    induction frags as [|c l IHl]; [intros c []|]. intros d [<-|Hd]; [apply IH|apply IHl; exact Hd].
Qed.
Lemma map_lib_frag2 : forall f, lib_frag P f = true -> lib_frag P' (map_frag m f) = true.
Proof. intros f H. exact (map_lib2 (BFrag f) H). Qed.
Lemma map_lib_qb2 : forall q, lib_qb P q = true -> lib_qb P' (map_qb m q) = true.
Proof.
  intros q. unfold lib_qb, map_qb. cbn [q_ctes q_tobjs q_selects q_touches q_conds q_groups q_orders q_unions q_debug].
  rewrite !andb_true_iff. rewrite !forallb_forall.
  intros ((((((((H1 & H2) & H3) & H4) & H5) & H6) & H7) & H8) & H9).
  repeat apply conj; try (apply map_lib_frag2; assumption); try exact H9.
  - intros c Hc. apply in_map_iff in Hc as [c' [<- Hc']]. apply map_lib2. apply (H1 c' Hc').
  - intros c Hc. apply in_map_iff in Hc as [c' [<- Hc']]. specialize (H2 c' Hc').
    unfold map_ft. cbn [ft_frag]. destruct (ft_frag c'); [apply map_lib_frag2; exact H2|reflexivity].
  - intros c Hc. apply in_map_iff in Hc as [c' [<- Hc']]. apply map_lib2. apply (H7 c' Hc').
  - intros c Hc. apply in_map_iff in Hc as [c' [<- Hc']]. apply map_lib2. apply (H8 c' Hc').
Qed.
End Lib.

Section Dollar.
Variable m : value -> value.
Variable P : value -> bool.
Hypothesis HH : forall v, P v = true -> hashable v = true /\ hashable (m v) = true.
Hypothesis HE : forall v w, P v = true -> P w = true -> go_eq (m v) (m w) = go_eq v w.

Definition mst (st : store) : store := mkStore (st_dollar st) (map m (st_args st)) (map (fun x => (m (fst x), snd x)) (st_dict st)) (map (map_qb m) (st_heap st)).
Definition okd (st : store) : Prop := st_dollar st = true /\ Forall (fun x => P (fst x) = true) (st_dict st).

Lemma find_map : forall v d, P v = true -> Forall (fun x : value * nat => P (fst x) = true) d ->
  dict_find (m v) (map (fun x => (m (fst x), snd x)) d) = dict_find v d.
Proof.
  intros v d Hv H. induction H as [|[w i] d Hw H IH]; [reflexivity|]. cbn [map dict_find fst snd] in *.
  rewrite (HE v w Hv Hw), IH. reflexivity.
Qed.
Lemma commit_map : forall v st, P v = true -> okd st ->
  commit (m v) (mst st) = (fst (commit v st), mst (snd (commit v st))) /\ okd (snd (commit v st)).
Proof.
  intros v st Hv [Hd Hok]. destruct (HH v Hv) as [H1 H2]. unfold commit, mst. cbn [st_dollar st_args st_dict st_heap].
  rewrite Hd, H1, H2, (find_map v _ Hv Hok), map_length. destruct (dict_find v (st_dict st)) as [i|] eqn:E.
  - split; [|split; assumption]. cbn [fst snd]. rewrite Hd. reflexivity.
  - cbn [fst snd st_dollar st_args st_dict st_heap]. split; [rewrite map_app; reflexivity|].
    split; [reflexivity|]. constructor; [exact Hv|exact Hok].
Qed.
Lemma replay_map : forall log st, forallb P log = true -> okd st ->
  replay (mst st) (map m log) = mst (replay st log) /\ okd (replay st log).
Proof.
  induction log as [|v log IH]; intros st Hl Hs; [split; [reflexivity|exact Hs]|]. cbn [map replay forallb] in *.
  apply andb_prop in Hl as [Hv Hl]. destruct (commit_map v st Hv Hs) as [E K]. rewrite E. cbn [snd]. apply IH; assumption.
Qed.
Lemma firstn_ok : forall j log, forallb P log = true -> forallb P (firstn j log) = true.
Proof. induction j as [|j IH]; intros [|v log] H; try reflexivity. cbn [firstn forallb] in *. apply andb_prop in H as [-> H]. apply IH, H. Qed.
Lemma shown_map : forall st log j, forallb P log = true -> okd st -> shown (mst st) (map m log) j = shown st log j.
Proof.
  intros st log j Hl Hs. unfold shown. rewrite nth_error_map. destruct (nth_error log j) as [v|] eqn:E; [|reflexivity]. cbn [option_map].
  assert (Hv : P v = true) by (eapply forallb_nth; eassumption).
  rewrite firstn_map. destruct (replay_map (firstn j log) st (firstn_ok j log Hl) Hs) as [-> K].
  destruct (commit_map v _ Hv K) as [-> _]. reflexivity.
Qed.

Theorem values_pattern : forall n h b, lib P b = true -> forallb (lib_qb P) h = true ->
  build_query n style_dollar (map (map_qb m) h) (map_b m b) =
  (match fst (build_query n style_dollar h b) with
   | ROk (s, args) => ROk (s, map m args)
   | RErr er => RErr er | RPanic er => RPanic er | RFuel => RFuel
   end, map (map_qb m) (snd (build_query n style_dollar h b))).
Proof.
  intros n h b Hb Hh. unfold build_query.
  destruct (build_general P n [builtins] b (new_store style_dollar h) eq_refl Hb Hh) as [E1 [L1 C1]].
  { intros _ v Hv. apply (HH v Hv). }
  destruct (build_general hashable n [builtins] (map_b m b) (new_store style_dollar (map (map_qb m) h)) eq_refl) as [E2 [_ C2]].
  { apply (map_lib2 m P); [intros v Hv; apply (HH v Hv)|exact Hb]. }
  { cbn [new_store st_heap]. rewrite forallb_forall in Hh |- *. intros q Hq. apply in_map_iff in Hq as [q' [<- Hq']].
    apply (map_lib_qb2 m P); [intros v Hv; apply (HH v Hv)|apply Hh; exact Hq']. }
  { intros _ v Hv. exact Hv. }
  cbn [new_store st_heap] in *. rewrite E1, E2. clear E1 E2.
  change (mkG [] (map (map_qb m) h)) with (mapg m (mkG [] h)) in *. rewrite map_gbuild in *.
  unfold mr in *. cbn [fst snd] in *.
  set (r := gbuild n [builtins] b (mkG [] h)) in *. cbn [mapg g_log g_heap] in *.
  set (log := g_log (snd r)) in *.
  assert (Hs : okd (new_store style_dollar h)) by (split; [reflexivity|constructor]).
  change (new_store style_dollar (map (map_qb m) h)) with (mst (new_store style_dollar h)).
  destruct (replay_map log _ L1 Hs) as [-> K]. cbn [set_heap st_heap st_args mst]. f_equal.
  destruct (fst r) as [t|er|er|]; cbn [omap]; try reflexivity. f_equal. f_equal.
  apply render_ext. intros j Hj. apply shown_map; [exact L1|exact Hs].
Qed.
End Dollar.
