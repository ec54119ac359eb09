(** The errors of the parts of a template. *)
From Coq Require Import Strings.String Strings.Ascii NArith ZArith List Bool Lia Wf_nat.
From Verif Require Import GoStr GoNum Syntax Spec_syntax ByteLex Lex_proofs Parse_proofs Num_proofs Grammar_proofs Lossless_proofs
  Spec_base Base_proofs Spec_grammar Grammar2_proofs Fault_proofs Fault2_proofs Spec_fault.
Import ListNotations.
Open Scope string_scope.

Lemma npe_empty : forall q, npe q "" = None.
Proof. reflexivity. Qed.
Lemma ae_plain : forall q t r X, ae ETop q (t ++ r) (a_plain t ++ X)%list = ae ETop q r X.
Proof. intros q t r X. destruct t as [|a t]; [reflexivity|]. unfold a_plain. cbn [is_empty app ae a_typ a_lit in_args skip]. rewrite drop_append. reflexivity. Qed.
Lemma npe_inert : forall p q s, inert p -> npe q (p ++ s) = npe q s.
Proof.
  intros p q s Hp. unfold npe. rewrite (tk_plain (p ++ s)), (tk_plain s). rewrite Hp. cbn [fst snd].
  destruct (bplain s) as [t r] eqn:Eb. apply bplain_split in Eb. cbn [fst snd]. rewrite Eb. unfold tk_rest. destruct r as [|c r].
  - rewrite <- append_assoc, !ae_plain. reflexivity.
  - destruct (Ascii.eqb c "#"); [rewrite <- append_assoc, !ae_plain; reflexivity|].
    destruct (is_mark c); [rewrite <- append_assoc, !ae_plain; reflexivity|].
    destruct (bquote c r) as [[b r1] cl] eqn:Eq. apply bquote_split in Eq. cbn [ae a_typ a_lit in_args skip]. rewrite Eq.
    replace (p ++ t ++ String c (b ++ r1)) with (((p ++ t) ++ String c b) ++ r1) by (rewrite !append_assoc; reflexivity).
    replace (t ++ String c (b ++ r1)) with ((t ++ String c b) ++ r1) by (rewrite !append_assoc; reflexivity).
    rewrite !drop_append. reflexivity.
Qed.
Lemma npe_quote : forall c r q, is_quote c = true -> npe q (String c r) = npe q (snd (fst (bquote c r))).
Proof.
  intros c r q H. destruct (quote_not c H) as [H1 H2]. unfold npe at 1. rewrite tk_plain.
  assert (B : bplain (String c r) = ("", String c r)) by (simpl; rewrite H1, H2, H; reflexivity).
  rewrite B. cbn [fst snd]. unfold tk_rest. rewrite H2, H1.
  destruct (bquote c r) as [[b r1] cl] eqn:Eq. apply bquote_split in Eq. cbn [fst snd ae a_typ a_lit append in_args skip]. rewrite Eq.
  change (String c (b ++ r1)) with (String c b ++ r1). rewrite drop_append. reflexivity.
Qed.
Lemma npe_quoted : forall c b s q, is_quote c = true -> body_ok c b = true -> npe q (String c (b ++ String c s)) = npe q s.
Proof.
  intros c b s q Hq Hb. rewrite npe_quote by exact Hq. rewrite bquote_body by exact Hb. cbn [fst snd].
  destruct (Ascii.eqb c "'" && starts (fun a => Ascii.eqb a "'") s) eqn:E.
  - apply andb_true_iff in E. destruct E as [E1 E2]. apply Ascii.eqb_eq in E1. subst c.
    destruct s as [|a s]; [discriminate|]. simpl in E2. apply Ascii.eqb_eq in E2. subst a.
    cbn [bquote]. change (Ascii.eqb "'" "'") with true. cbn [andb].
    rewrite (npe_quote "'" s) by reflexivity. destruct (bquote "'" s) as [[t r] c]. reflexivity.
  - assert (B : bquote c (String c s) = (String c "", s, true)).
    { cbn [bquote]. rewrite Ascii.eqb_refl. destruct s as [|a s]; [reflexivity|]. simpl in E. rewrite E. reflexivity. }
    rewrite B. reflexivity.
Qed.
Lemma npe_dollar_digits : forall ds s, starts is_digit19 ds = true -> all is_digit ds = true -> starts is_digit s = false ->
  npe false (String "$" (ds ++ s)) = match parse_uint64 ds with Some n => npe false s | None => Some (ds ++ s, too_large "ParseUint" ds) end.
Proof.
  intros ds s H1 H2 H3. unfold npe at 1. rewrite (tk_dollar ds s H1 H2 H3). unfold a_num.
  cbn [ae a_typ a_lit a_kind in_args skip String.length str_drop]. change ("$" =? "?")%string with false. cbv iota. rewrite drop_append.
  destruct (parse_uint64 ds); reflexivity.
Qed.
(** The token a text starts with. *)
Lemma tk_kind : forall s, exists t ts, tk MPlain s = t :: ts /\ tok_text (a_typ t) = kind s.
Proof.
  intro s. rewrite tk_plain. destruct s as [|a s]; [do 2 eexists; split; reflexivity|]. unfold kind. cbn [bplain plain_start].
  destruct (is_mark a) eqn:Em.
  - assert (Ea : Ascii.eqb a "#" = false) by (unfold is_mark in Em; apply orb_true_iff in Em as [E|E]; apply Ascii.eqb_eq in E; subst a; reflexivity).
    rewrite Ea. destruct s as [|b s]; cbn [starts].
    + cbn [fst snd tk_rest]. rewrite Ea, Em. cbn [a_plain is_empty app]. do 2 eexists. split; reflexivity.
    + destruct (Ascii.eqb b a) eqn:Eb.
      * destruct (bplain s) as [t r]. cbn [fst snd tk_rest]. unfold tk_rest, a_plain. cbn [is_empty app].
        destruct r as [|c r]; [do 2 eexists; split; reflexivity|]. destruct (Ascii.eqb c "#"); [do 2 eexists; split; reflexivity|].
        destruct (is_mark c); [do 2 eexists; split; reflexivity|]. destruct (bquote c r) as [[? ?] ?]. do 2 eexists; split; reflexivity.
      * cbn [fst snd tk_rest]. rewrite Ea, Em. cbn [a_plain is_empty app]. do 2 eexists. split; reflexivity.
  - destruct (Ascii.eqb a "#") eqn:Ea; cbn [orb negb].
    + cbn [fst snd tk_rest]. rewrite Ea. cbn [a_plain is_empty app]. do 2 eexists. split; reflexivity.
    + destruct (is_quote a) eqn:Q.
      * cbn [fst snd tk_rest]. rewrite Ea, Em. destruct (bquote a s) as [[? ?] ?]. do 2 eexists; split; reflexivity.
      * destruct (bplain s) as [t r]. cbn [fst snd tk_rest]. unfold tk_rest, a_plain. cbn [is_empty app].
        destruct r as [|c r]; [do 2 eexists; split; reflexivity|]. destruct (Ascii.eqb c "#"); [do 2 eexists; split; reflexivity|].
        destruct (is_mark c); [do 2 eexists; split; reflexivity|]. destruct (bquote c r) as [[? ?] ?]. do 2 eexists; split; reflexivity.
Qed.
Lemma starts_or : forall f g s, starts (fun a => f a || g a) s = false -> starts f s = false /\ starts g s = false.
Proof. intros f g [|a s] H; [auto|]. cbn in H |- *. apply orb_false_iff in H. exact H. Qed.
Lemma or_starts : forall f g s, starts f s = false -> starts g s = false -> starts (fun a => f a || g a) s = false.
Proof. intros f g [|a s] H1 H2; [auto|]. cbn in H1, H2 |- *. rewrite H1, H2. reflexivity. Qed.
Lemma no_digit19 : forall s (X : list atok), starts is_digit19 s = false ->
  match s with
  | String d _ => if is_digit19 d then let (ds, r1) := span is_digit s in a_num ds :: tk MPlain r1 else tk MPlain s
  | "" => tk MPlain s
  end = tk MPlain s.
Proof. intros [|d s] X H; [reflexivity|]. cbn in H. rewrite H. reflexivity. Qed.
Lemma with_digit19 : forall s, starts is_digit19 s = true -> exists ds X,
  match s with
  | String d _ => if is_digit19 d then let (ds, r1) := span is_digit s in a_num ds :: tk MPlain r1 else tk MPlain s
  | "" => tk MPlain s
  end = a_num ds :: X.
Proof. intros [|d s] H; [discriminate H|]. cbn [starts] in H. rewrite H. destruct (span is_digit (String d s)) as [ds r]. eauto. Qed.
Lemma digit19_unmarked : forall c s, is_mark c = true -> starts is_digit19 s = true -> starts (fun a => Ascii.eqb a c) s = false.
Proof.
  intros c [|d s] Hc H; [discriminate H|]. cbn in H |- *. destruct (digit19_not_mark d H) as [E1 E2].
  unfold is_mark in Hc. apply orb_true_iff in Hc as [E|E]; apply Ascii.eqb_eq in E; subst c; assumption.
Qed.
Lemma npe_mixed : forall s, starts (fun a => Ascii.eqb a "$") s = false -> npe true (String "$" s) = Some (String "$" s, "mixed bindvar styles").
Proof. intros s H. unfold npe. rewrite (tk_mark "$" s eq_refl H). reflexivity. Qed.
Lemma npe_bare_dollar : forall s, starts (fun a => Ascii.eqb a "$" || is_digit19 a) s = false ->
  npe false (String "$" s) = Some (s, "syntax error: unexpected " ++ kind s ++ ", want literal").
Proof.
  intros s H. apply starts_or in H as [H1 H2]. unfold npe. rewrite (tk_mark "$" s eq_refl H1), (no_digit19 s [] H2).
  cbn [ae a_typ a_lit in_args skip String.length str_drop]. change ("$" =? "?")%string with false. cbv iota.
  destruct (tk_kind s) as (t & ts & E & K). destruct (tk_plain_first s) as (t' & ts' & E' & L & N). rewrite E in E' |- *. injection E' as <- <-.
  cbn [ae in_args skip]. rewrite <- K. destruct (a_typ t); try reflexivity. congruence.
Qed.
Lemma npe_quest : forall q s, starts (fun a => Ascii.eqb a "?" || is_digit19 a) s = false -> npe q (String "?" s) = npe true s.
Proof.
  intros q s H. apply starts_or in H as [H1 H2]. unfold npe. rewrite (tk_mark "?" s eq_refl H1), (no_digit19 s [] H2). 
  cbn [ae a_typ a_lit in_args skip String.length str_drop]. reflexivity.
Qed.
Lemma npe_quest_digit : forall q s, starts is_digit19 s = true -> npe q (String "?" s) = Some (s, "unexpected token literal").
Proof.
  intros q s H. unfold npe. rewrite (tk_mark "?" s eq_refl (digit19_unmarked "?" s eq_refl H)).
  destruct (with_digit19 s H) as (ds & X & E). rewrite E. reflexivity.
Qed.
Lemma npe_bare_hash : forall q s, starts is_letter s = false -> npe q (String "#" s) = Some (s, "syntax error: unexpected " ++ kind s ++ ", want name").
Proof.
  intros q s H. unfold npe. rewrite tk_plain. cbn [bplain]. change (is_mark "#") with false.
  change (Ascii.eqb "#" "#") with true. cbn [orb]. cbn [fst snd tk_rest]. change (Ascii.eqb "#" "#") with true. cbv iota. cbn [a_plain is_empty app].
  rewrite (span_stop is_letter "" s eq_refl H : span is_letter s = ("", s)). cbn [is_empty ae a_typ a_lit in_args skip String.length str_drop].
  destruct (tk_kind s) as (t & ts & E & K). destruct (tk_plain_first s) as (t' & ts' & E' & L & N). rewrite E in E' |- *. injection E' as <- <-.
  cbn [ae in_args skip]. rewrite <- K. destruct (a_typ t); try reflexivity. congruence.
Qed.
Lemma npe_indexed : forall q nm ds s, wf_name nm = true -> ds <> "" -> all is_digit ds = true -> starts is_digit s = false ->
  npe q (String "#" (nm ++ ds ++ s)) = match parse_float ds with Some _ => npe q s | None => Some (ds ++ s, too_large "ParseFloat" ds) end.
Proof.
  intros q nm ds s H1 H2 H3 H5. unfold npe at 1. rewrite tk_hash by (try exact H1; apply starts_app_digits; assumption).
  rewrite (span_stop is_digit ds s H3 H5). destruct ds as [|d ds]; [congruence|]. cbn [is_empty].
  unfold a_num. cbn [ae a_typ a_lit a_kind in_args skip]. change (str_drop (String.length "#") (String "#" (nm ++ String d ds ++ s))) with (nm ++ String d ds ++ s).
  rewrite !drop_append. destruct (parse_float (String d ds)); reflexivity.
Qed.
Lemma npe_name : forall q nm s, wf_name nm = true -> starts (fun a => is_letter a || is_digit a || Ascii.eqb a "(") s = false ->
  npe q (String "#" (nm ++ s)) = ae EName q s (tk MPlain s).
Proof.
  intros q nm s H1 H2. unfold npe. rewrite (tk_name nm s H1 H2). cbn [ae a_typ a_lit a_kind in_args skip].
  change (str_drop (String.length "#") (String "#" (nm ++ s))) with (nm ++ s). rewrite drop_append. reflexivity.
Qed.
Lemma npe_func : forall q nm s, wf_name nm = true -> starts (fun a => is_letter a || is_digit a || Ascii.eqb a "(") s = false -> plain_start s = true ->
  npe q (String "#" (nm ++ s)) = npe q s.
Proof.
  intros q nm s H1 H2 H3. rewrite npe_name by assumption. unfold npe.
  destruct (tk_kind s) as (t & ts & E & K). rewrite E. cbn [ae in_args skip]. unfold kind in K. rewrite H3 in K.
  destruct (a_typ t); try reflexivity; destruct s as [|a s]; try discriminate K; destruct (Ascii.eqb a "#") eqn:Ea; try discriminate K.
  cbn [plain_start] in H3. rewrite Ea in H3. destruct (is_mark a) eqn:Em; [|discriminate H3].
  apply Ascii.eqb_eq in Ea. subst a. discriminate Em.
Qed.
Lemma npe_func_mark : forall q nm c s, wf_name nm = true -> is_mark c = true -> starts (fun a => Ascii.eqb a c) s = false ->
  npe q (String "#" (nm ++ String c s)) = if starts is_digit19 s then Some (s, "unexpected token literal") else npe q s.
Proof.
  intros q nm c s H1 H2 H3.
  assert (K : is_letter c || is_digit c || Ascii.eqb c "(" = false) by (unfold is_mark in H2; apply orb_true_iff in H2 as [E|E]; apply Ascii.eqb_eq in E; subst c; reflexivity).
  rewrite (npe_name q nm (String c s) H1 K), (tk_mark c s H2 H3). destruct (starts is_digit19 s) eqn:H19.
  - destruct (with_digit19 s H19) as (ds & X & E). rewrite E. reflexivity.
  - rewrite (no_digit19 s [] H19). reflexivity.
Qed.
Lemma npe_func_hash : forall q nm s, wf_name nm = true ->
  npe q (String "#" (nm ++ String "#" s)) = if starts is_letter s then Some (s, "unexpected token name") else npe q s.
Proof.
  intros q nm s H1. rewrite (npe_name q nm (String "#" s) H1 eq_refl). rewrite tk_plain. cbn [bplain].
  change (is_mark "#") with false. change (Ascii.eqb "#" "#") with true. cbn [orb fst snd tk_rest]. change (Ascii.eqb "#" "#") with true. cbv iota. cbn [a_plain is_empty app].
  destruct s as [|d s]; cbn [starts]; [reflexivity|]. cbn [span]. destruct (is_letter d); [|reflexivity].
  destruct (span is_letter s) as [w r1]. reflexivity.
Qed.
Definition arge (q : bool) (s : string) : option (string * string) := ae EArg q s (tk MArgs s).
Lemma npe_open : forall q nm s, wf_name nm = true -> npe q (String "#" (nm ++ String "(" s)) = arge q s.
Proof.
  intros q nm s H1. unfold npe. rewrite tk_hash by (try exact H1; reflexivity). cbn [span]. change (is_digit "(") with false. cbv iota. cbn [is_empty].
  change (Ascii.eqb "(" "(") with true. cbv iota. cbn [ae a_typ a_lit a_kind in_args skip].
  change (str_drop (String.length "#") (String "#" (nm ++ String "(" s))) with (nm ++ String "(" s). rewrite drop_append. reflexivity.
Qed.
