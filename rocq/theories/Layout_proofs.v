(** Reading layouts. *)
From Coq Require Import Strings.String Strings.Ascii NArith ZArith List Bool Lia Arith.
From Verif Require Import GoStr GoNum Syntax Value Util Time Spec_syntax Spec_base Spec_time Time_proofs Time2_proofs Time3_proofs Spec_layout.
From Verif Require Term_proofs Base_proofs.
Import ListNotations.
Open Scope string_scope.

Definition rows : list (string * string * std) :=
  [("2006", "", StdLongYear); ("_2006", "_", StdLongYear); ("06", "", StdYear); ("January", "", StdLongMonth); ("Jan", "", StdMonth);
   ("1", "", StdNumMonth); ("01", "", StdZeroMonth); ("Monday", "", StdLongWeekDay); ("Mon", "", StdWeekDay);
   ("2", "", StdDay); ("_2", "", StdUnderDay); ("02", "", StdZeroDay); ("__2", "", StdUnderYearDay); ("002", "", StdZeroYearDay);
   ("15", "", StdHour); ("3", "", StdHour12); ("03", "", StdZeroHour12); ("PM", "", StdPM); ("pm", "", Stdpm);
   ("4", "", StdMinute); ("04", "", StdZeroMinute); ("5", "", StdSecond); ("05", "", StdZeroSecond); ("MST", "", StdTZ);
   ("-07", "", StdOffset false OffShort); ("-0700", "", StdOffset false OffPlain); ("-07:00", "", StdOffset false OffColon);
   ("-070000", "", StdOffset false OffSeconds); ("-07:00:00", "", StdOffset false OffColonSeconds);
   ("Z07", "", StdOffset true OffShort); ("Z0700", "", StdOffset true OffPlain); ("Z07:00", "", StdOffset true OffColon);
   ("Z070000", "", StdOffset true OffSeconds); ("Z07:00:00", "", StdOffset true OffColonSeconds)].
Definition run_digits (run : string) : nat := N.to_nat (N.modulo (N.of_nat (String.length run)) 4096).
Inductive row : string -> string -> std -> Prop :=
| row_fixed t p x : In (t, p, x) rows -> row t p x
| row_fraction sep d run t : fraction sep d run t -> row t "" (StdFrac sep (Ascii.eqb d "9") (run_digits run)).
Definition row_name (x : string * string * std) : string := fst (fst x).
Lemma row_names : map row_name rows = map fst elements.
Proof. reflexivity. Qed.
Lemma row_names_once : NoDup (map row_name rows).
Proof. cbn [map row_name rows fst]. repeat constructor; cbn [In]; intros H; repeat (destruct H as [H|H]; [discriminate H|]); destruct H. Qed.

Lemma fixed_stands : forall t p x r, In (t, p, x) rows -> ~ In t ["Jan"; "Mon"] -> stands t r.
Proof.
  intros t p x r H N. assert (K : In t (map fst elements)) by (rewrite <- row_names; apply in_map_iff; exists (t, p, x); split; [reflexivity|exact H]).
  apply in_map_iff in K as ([t' f] & E & K). cbn [fst] in E. subst t'. exact (st_fixed t r f K N).
Qed.
Lemma lower_starts : forall r, lower_start r = starts (fun a => in_range (code a) 97 122) r.
Proof. intros [|a r]; reflexivity. Qed.
Lemma digit_starts : forall r, digit_start r = starts is_digit r.
Proof. intros [|a r]; reflexivity. Qed.
Lemma skip_char_run : forall a s n r, skip_char a s = (n, r) -> exists e, s = e ++ r /\ String.length e = n /\ all (fun b => Ascii.eqb b a) e = true.
Proof.
  induction s as [|b s IH]; intros n r H; cbn [skip_char] in H.
  - injection H as <- <-. exists "". auto.
  - destruct (Ascii.eqb b a) eqn:B; [|injection H as <- <-; exists ""; auto]. destruct (skip_char a s) as [m r'] eqn:E. injection H as <- <-. destruct (IH _ _ eq_refl) as (e & -> & L & A).
    exists (String b e). cbn [append String.length all]. rewrite L, B, A. auto.
Qed.
Lemma skip_char_all : forall a e r, is_digit a = true -> starts is_digit r = false -> all (fun b => Ascii.eqb b a) e = true -> skip_char a (e ++ r) = (String.length e, r).
Proof.
  intros a e r D N A. induction e as [|b e IH]; cbn [append].
  - destruct r as [|c r]; [reflexivity|]. cbn [skip_char]. destruct (Ascii.eqb_spec c a) as [->|_]; [|reflexivity]. cbn [starts] in N. rewrite D in N. discriminate N.
  - cbn [all] in A. apply andb_prop in A as [B A]. cbn [skip_char]. rewrite B, (IH A). reflexivity.
Qed.

Ltac in_list := repeat (first [left; reflexivity|right]).
Ltac not_names := cbn [In]; let H := fresh in intros H; repeat (destruct H as [H|H]; [discriminate H|]); destruct H.
Ltac this t := exists t; subst; split; [reflexivity|]; split; [apply row_fixed; unfold rows; in_list|eapply fixed_stands; [unfold rows; in_list|not_names]].
Ltac named t := exists t; subst; split; [reflexivity|]; split; [apply row_fixed; unfold rows; in_list|apply st_name; [in_list|rewrite <- lower_starts; assumption]].
Lemma chunk_row : forall s p x r, chunk_at s = Some (p, x, r) -> exists t, s = t ++ r /\ row t p x /\ stands t r.
Proof.
  intros s p x r H. unfold chunk_at in H. cbv zeta in H. destruct s as [|c s]; [discriminate H|].
  destruct (Ascii.eqb_spec c "J") as [->|_].
  { stripped; injection H as <- <- <-; [this "January"|named "Jan"]. }
  destruct (Ascii.eqb_spec c "M") as [->|_].
  { stripped; injection H as <- <- <-; [this "Monday"|named "Mon"|this "MST"]. }
  destruct (Ascii.eqb_spec c "0") as [->|_].
  { destruct s as [|d s]; [discriminate H|].
    destruct (Ascii.eqb_spec d "1") as [->|_]; [injection H as <- <- <-; this "01"|].
    destruct (Ascii.eqb_spec d "2") as [->|_]; [injection H as <- <- <-; this "02"|].
    destruct (Ascii.eqb_spec d "3") as [->|_]; [injection H as <- <- <-; this "03"|].
    destruct (Ascii.eqb_spec d "4") as [->|_]; [injection H as <- <- <-; this "04"|].
    destruct (Ascii.eqb_spec d "5") as [->|_]; [injection H as <- <- <-; this "05"|].
    destruct (Ascii.eqb_spec d "6") as [->|_]; [injection H as <- <- <-; this "06"|].
    destruct (strip_prefix "02" (String d s)) as [q|] eqn:E; [|discriminate H]. apply strip_prefix_app in E. rewrite E. injection H as <- <- <-. this "002". }
  destruct (Ascii.eqb_spec c "1") as [->|_]; [stripped; injection H as <- <- <-; [this "15"|this "1"]|].
  destruct (Ascii.eqb_spec c "2") as [->|_]; [stripped; injection H as <- <- <-; [this "2006"|this "2"]|].
  destruct (Ascii.eqb_spec c "_") as [->|_].
  { destruct (strip_prefix "2" s) as [q|] eqn:E.
    - destruct (strip_prefix "2006" s) as [q'|] eqn:E'; injection H as <- <- <-.
      + apply strip_prefix_app in E'. clear E. this "_2006".
      + apply strip_prefix_app in E. clear E'. this "_2".
    - stripped; injection H as <- <- <-. clear E. this "__2". }
  destruct (Ascii.eqb_spec c "3") as [->|_]; [injection H as <- <- <-; this "3"|].
  destruct (Ascii.eqb_spec c "4") as [->|_]; [injection H as <- <- <-; this "4"|].
  destruct (Ascii.eqb_spec c "5") as [->|_]; [injection H as <- <- <-; this "5"|].
  destruct (Ascii.eqb_spec c "P") as [->|_]; [stripped; injection H as <- <- <-; this "PM"|].
  destruct (Ascii.eqb_spec c "p") as [->|_]; [stripped; injection H as <- <- <-; this "pm"|].
  destruct (Ascii.eqb_spec c "-") as [->|_].
  { destruct (offset_chunk false s) as [[y q]|] eqn:O; [|discriminate H]. injection H as <- <- <-. unfold offset_chunk in O. stripped; injection O as <- <-;
      [this "-070000"|this "-07:00:00"|this "-0700"|this "-07:00"|this "-07"]. }
  destruct (Ascii.eqb_spec c "Z") as [->|_].
  { destruct (offset_chunk true s) as [[y q]|] eqn:O; [|discriminate H]. injection H as <- <- <-. unfold offset_chunk in O. stripped; injection O as <- <-;
      [this "Z070000"|this "Z07:00:00"|this "Z0700"|this "Z07:00"|this "Z07"]. }
  destruct (Ascii.eqb c "." || Ascii.eqb c ",") eqn:C; [|discriminate H]. destruct s as [|d s]; [discriminate H|]. destruct (Ascii.eqb d "0" || Ascii.eqb d "9") eqn:D; [|discriminate H].
  destruct (skip_char d (String d s)) as [n q] eqn:K. destruct (digit_start q) eqn:Q; [discriminate H|]. injection H as <- <- <-.
  assert (NE : n <> 0) by (cbn [skip_char] in K; rewrite Ascii.eqb_refl in K; destruct (skip_char d s); injection K as <- _; discriminate).
  destruct (skip_char_run _ _ _ _ K) as (e & E & L & A).
  assert (F : fraction c d e (String c e)).
  { split; [apply orb_prop in C; cbn [In]; destruct C as [C|C]; apply Ascii.eqb_eq in C; auto|]. split; [apply orb_prop in D; cbn [In]; destruct D as [D|D]; apply Ascii.eqb_eq in D; auto|].
    split; [intros ->; apply NE; symmetry; exact L|]. split; [exact A|reflexivity]. }
  exists (String c e). split; [rewrite E; reflexivity|]. subst n. split; [exact (row_fraction _ _ _ _ F)|]. apply (st_fraction _ _ _ _ _ F). rewrite <- digit_starts. exact Q.
Qed.

Arguments strip_prefix !p !s.
Ltac lengths := repeat match goal with E : strip_prefix _ _ = Some _ |- _ => apply strip_prefix_app in E; subst end; cbn [append String.length]; lia.
Ltac longest := cbn; unfold offset_chunk; cbn; repeat match goal with
  | |- context [strip_prefix "" ?r] => change (strip_prefix "" r) with (Some r); cbn -[lower_start]
  | |- context [strip_prefix ?p ?r] => let E := fresh "E" in destruct (strip_prefix p r) eqn:E
  end; eexists; eexists; eexists; (split; [reflexivity|lengths]).
Lemma chunk_longest : forall t r, stands t r -> exists p x r', chunk_at (t ++ r) = Some (p, x, r') /\ String.length r' <= String.length r.
Proof.
  intros t r [t' r' H L|t' r' f H N|sep d run t' r' F D].
  - rewrite <- lower_starts in L. cbn [In] in H. destruct H as [<-|[<-|[]]]; cbn -[lower_start]; change (strip_prefix "" r') with (Some r'); cbv iota beta.
    + destruct (strip_prefix "uary" r') as [q|] eqn:E; [|rewrite L]; eexists; eexists; eexists; (split; [reflexivity|lengths]).
    + destruct (strip_prefix "day" r') as [q|] eqn:E; [|rewrite L]; eexists; eexists; eexists; (split; [reflexivity|lengths]).
  - unfold elements in H. cbn [In] in N, H.
    repeat (destruct H as [H|H]; [injection H as <- _; first [exfalso; apply N; auto; fail|clear N; longest]|]). destruct H.
  - destruct F as (S & Dd & NE & A & ->). destruct run as [|a run]; [contradiction|]. pose proof A as A'. cbn [all] in A'. apply andb_prop in A' as [Ea _]. apply Ascii.eqb_eq in Ea. subst a.
    assert (K : skip_char d (String d run ++ r') = (String.length (String d run), r')).
    { apply skip_char_all; [|exact D|exact A]. cbn [In] in Dd. destruct Dd as [<-|[<-|[]]]; reflexivity. }
    exists "", (StdFrac sep (Ascii.eqb d "9") (run_digits (String d run))), r'. split; [|apply le_n].
    cbn [append] in K |- *. unfold chunk_at. rewrite K, digit_starts, D. cbn [In] in S, Dd. destruct S as [<-|[<-|[]]]; destruct Dd as [<-|[<-|[]]]; reflexivity.
Qed.
(** What is read is the longest element that stands there. *)
Lemma app_split : forall t r t' r' : string, t ++ r = t' ++ r' -> String.length r = String.length r' -> t = t' /\ r = r'.
Proof.
  induction t as [|a t IH]; intros r [|a' t'] r' E L; cbn [append] in E.
  - auto.
  - subst r. cbn [String.length] in L. rewrite Term_proofs.length_app in L. lia.
  - subst r'. cbn [String.length] in L. rewrite Term_proofs.length_app in L. lia.
  - injection E as <- E. destruct (IH _ _ _ E L) as [-> ->]. auto.
Qed.
Lemma app_len : forall t r t' r' : string, t ++ r = t' ++ r' -> String.length t + String.length r = String.length t' + String.length r'.
Proof. intros t r t' r' E. apply (f_equal String.length) in E. rewrite !Term_proofs.length_app in E. exact E. Qed.
Theorem chunk_none : forall s, chunk_at s = None <-> forall t r, s = t ++ r -> ~ stands t r.
Proof.
  intros s. split.
  - intros H t r -> K. destruct (chunk_longest _ _ K) as (p & x & r' & E & _). rewrite H in E. discriminate E.
  - intros H. destruct (chunk_at s) as [[[p x] r]|] eqn:E; [|reflexivity]. destruct (chunk_row _ _ _ _ E) as (t & E' & _ & K). destruct (H t r E' K).
Qed.
Theorem chunk_some : forall s p x r, chunk_at s = Some (p, x, r) ->
  exists t, s = t ++ r /\ row t p x /\ stands t r /\ forall t' r', t ++ r = t' ++ r' -> stands t' r' -> String.length t' <= String.length t.
Proof.
  intros s p x r H. destruct (chunk_row _ _ _ _ H) as (t & E & R & K). exists t. split; [exact E|]. split; [exact R|]. split; [exact K|].
  intros t' r' E' K'. destruct (chunk_longest _ _ K') as (p' & x' & q & H' & L). rewrite <- E', <- E, H in H'. injection H' as _ _ <-. pose proof (app_len _ _ _ _ E'). lia.
Qed.
Theorem chunk_chosen : forall t r, stands t r -> (forall t' r', t ++ r = t' ++ r' -> stands t' r' -> String.length t' <= String.length t) ->
  exists p x, chunk_at (t ++ r) = Some (p, x, r) /\ row t p x.
Proof.
  intros t r K M. destruct (chunk_longest _ _ K) as (p & x & q & H & L). exists p, x. destruct (chunk_row _ _ _ _ H) as (t' & E & R & K').
  pose proof (M _ _ E K') as L'. pose proof (app_len _ _ _ _ E) as L2. destruct (app_split _ _ _ _ E ltac:(lia)) as [<- <-]. auto.
Qed.
Lemma format_none : forall zs a l t, chunk_at (String a l) = None -> format zs (String a l) t = String a (format zs l t).
Proof.
  intros zs a l t H. rewrite !format_step. cbn [next_chunk]. rewrite H. destruct (next_chunk l) as [p [[x r]|]]; reflexivity.
Qed.
Lemma format_some : forall zs l t p x r, chunk_at l = Some (p, x, r) -> format zs l t = (p ++ append_std zs t x) ++ format zs r t.
Proof.
  intros zs l t p x r H. rewrite format_step. destruct l as [|a l]; [discriminate H|]. cbn [next_chunk]. rewrite H, str_app_assoc. reflexivity.
Qed.
Theorem formats_iff : forall zs tm M, (forall t p x y, row t p x -> (shows M t y <-> y = p ++ append_std zs tm x)) ->
  forall l s, formats M l s <-> s = format zs l tm.
Proof.
  intros zs tm M SH l s. split.
  - induction 1 as [|a l s N H IH|t r x s K L X H IH].
    + reflexivity.
    + rewrite (format_none zs a l tm) by (apply chunk_none; exact N). rewrite IH. reflexivity.
    + destruct (chunk_chosen t r K L) as (p & y & E & R). rewrite (format_some _ _ _ _ _ _ E). apply (SH _ _ _ _ R) in X. rewrite X, IH. reflexivity.
  - intros ->. remember (String.length l) as n eqn:E. assert (B : String.length l <= n) by lia. clear E. revert l B. induction n as [|n IH]; intros l B.
    + destruct l as [|a l]; [exact (fo_end M)|cbn in B; lia].
    + destruct l as [|a l]; [exact (fo_end M)|]. destruct (chunk_at (String a l)) as [[[p x] r]|] eqn:E.
      * rewrite (format_some _ _ _ _ _ _ E). destruct (chunk_some _ _ _ _ E) as (t & E' & R & K & L). rewrite E'. apply fo_element; [exact K|exact L|apply (SH _ _ _ _ R); reflexivity|].
        apply IH. assert (N : t <> "") by (intros ->; inversion R as [? ? ? I0|? ? ? ? F]; subst; [unfold rows in I0; cbn [In] in I0; repeat (destruct I0 as [I0|I0]; [discriminate I0|]); destruct I0|destruct F as (_ & _ & _ & _ & F); discriminate F]).
        apply (f_equal String.length) in E'. rewrite Term_proofs.length_app in E'. destruct t; [contradiction|]. cbn [String.length] in E', B. lia.
      * rewrite (format_none _ _ _ _ E). apply fo_self; [apply chunk_none; exact E|]. apply IH. cbn [String.length] in B. lia.
Qed.
