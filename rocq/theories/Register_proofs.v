(** Registering functions. *)
From Coq Require Import Strings.String Strings.Ascii NArith List Bool Permutation.
From Verif Require Quote_proofs.
From Verif Require Import GoStr GoNum Syntax Value Util Model Sqlf Sqlb Register Spec_syntax Spec_eval Spec_base Spec_utf8 Spec_blame Spec_register Lex_proofs Use_proofs Base_proofs Rune_proofs.
Import ListNotations.
Open Scope string_scope.

Lemma has_key_in : forall nm out, has_key nm out = true <-> In nm (map fst out).
Proof.
  intros nm out. unfold has_key. rewrite existsb_exists, in_map_iff. split.
  - intros (x & H & E). apply String.eqb_eq in E. exists x. auto.
  - intros (x & E & H). exists x. split; [exact H|]. apply String.eqb_eq. auto.
Qed.
Definition good_entry (x : string * mapval) : bool :=
  good_name (fst x) && match snd x with MFunc f => good_sig (sig_of f) | MOther => false end.
Definition entry_fn (x : string * mapval) : list (string * func) := match snd x with MFunc f => [(fst x, f)] | MOther => [] end.

(** The loop stops at the first bad entry. *)
Lemma add_stops : forall m out, NoDup (map fst m) -> (forall nm, In nm (map fst m) -> ~ In nm (map fst out)) ->
  (forallb good_entry m = true /\ add_value_funcs m out = (None, rev (flat_map entry_fn m) ++ out)%list) \/
  exists m1 x m2 er, m = (m1 ++ x :: m2)%list /\ forallb good_entry m1 = true /\ good_entry x = false /\
    add_value_funcs m out = (Some er, rev (flat_map entry_fn m1) ++ out)%list.
Proof.
  induction m as [|[nm v] m IH]; intros out N D; [left; split; reflexivity|].
  cbn [map] in N. inversion N as [|y l Nx N']; subst. cbn [add_value_funcs].
  destruct (good_name nm) eqn:G; cbn [negb].
  2:{ right. exists [], (nm, v), m. eexists. repeat apply conj; try reflexivity. unfold good_entry. cbn [fst snd]. rewrite G. reflexivity. }
  destruct v as [f|].
  2:{ right. exists [], (nm, MOther), m. eexists. repeat apply conj; try reflexivity. unfold good_entry. cbn [fst snd]. rewrite G. reflexivity. }
  destruct (has_key nm out) eqn:K.
  { exfalso. apply has_key_in in K. apply (D nm); [left; reflexivity|exact K]. }
  destruct (good_sig (sig_of f)) eqn:S.
  2:{ right. exists [], (nm, MFunc f), m. eexists. repeat apply conj; try reflexivity. unfold good_entry. cbn [fst snd]. rewrite G, S. reflexivity. }
  assert (GE : good_entry (nm, MFunc f) = true) by (unfold good_entry; cbn [fst snd]; rewrite G, S; reflexivity).
  destruct (IH ((nm, f) :: out) N') as [[A B] | (m1 & x & m2 & er & A & B & C & E)].
  - intros n Hn [E | Hi]; [cbn [fst] in E; subst; contradiction|]. apply (D n); [right; exact Hn|exact Hi].
  - left. cbn [forallb]. rewrite GE, A. split; [reflexivity|]. rewrite B. unfold entry_fn at 2. cbn [flat_map snd fst app rev]. rewrite <- app_assoc. reflexivity.
  - right. exists ((nm, MFunc f) :: m1), x, m2, er. subst m. apply conj; [reflexivity|]. cbn [forallb]. rewrite GE, B.
    apply conj; [reflexivity|]. apply conj; [exact C|]. rewrite E. unfold entry_fn at 2. cbn [flat_map snd fst app rev]. rewrite <- app_assoc. reflexivity.
Qed.
Lemma good_entry_ok : forall x, ascii_only (fst x) = true -> (good_entry x = true <-> registrable_value x).
Proof.
  intros [nm v] A. unfold good_entry, registrable_value. cbn [fst snd] in *. destruct v as [f|].
  - rewrite andb_true_iff, good_sig_ok, (good_name_ascii nm A), wf_name_chars. unfold registrable. cbn [fst snd]. tauto.
  - rewrite andb_false_r. split; [discriminate|contradiction].
Qed.
Lemma all_good : forall m, Forall (fun x => ascii_only (fst x) = true) m -> (forallb good_entry m = true <-> Forall registrable_value m).
Proof.
  intros m F. induction F as [|x m A F IH]; cbn [forallb]; [split; [constructor|reflexivity]|].
  rewrite andb_true_iff, (good_entry_ok x A), IH. split; [intros [X Y]; constructor; assumption|intros H; inversion H; auto].
Qed.
Definition names_fit (m : list (string * mapval)) : Prop := NoDup (map fst m) /\ Forall (fun x => ascii_only (fst x) = true) m.
Theorem accepted_iff : forall m, NoDup (map fst m) -> Forall (fun x => ascii_only (fst x) = true) m ->
  (fst (add_value_funcs m []) = None <-> Forall registrable_value m).
Proof.
  intros m N A. rewrite <- (all_good m A). destruct (add_stops m [] N) as [[G ->] | (m1 & x & m2 & er & -> & B & C & ->)].
  - intros n _ [].
  - rewrite G. split; reflexivity.
  - cbn [fst]. rewrite forallb_app, B. cbn [forallb andb]. rewrite C. split; discriminate.
Qed.
Lemma in_entries : forall m nm f, In (nm, f) (flat_map entry_fn m) <-> holds m nm f.
Proof.
  intros m nm f. unfold holds. rewrite in_flat_map. split.
  - intros ([n v] & H & E). unfold entry_fn in E. cbn [snd fst] in E. destruct v as [g|]; [|destruct E]. destruct E as [E|[]]. inversion E; subst. exact H.
  - intros H. exists (nm, MFunc f). split; [exact H|]. left. reflexivity.
Qed.
Lemma assoc_first : forall A (l : list (string * A)) nm f, NoDup (map fst l) -> (assoc nm l = Some f <-> In (nm, f) l).
Proof.
  intros A l nm f. induction l as [|[n g] l IH]; intros N; cbn [assoc]; [split; [discriminate|intros []]|].
  inversion N as [|y z Nx N']; subst. destruct (String.eqb nm n) eqn:E.
  - apply String.eqb_eq in E. subst n. split; [intros H; inversion H; left; reflexivity|]. intros [H|H]; [inversion H; reflexivity|].
    exfalso. apply Nx. apply in_map_iff. exists (nm, f). auto.
  - rewrite (IH N'). split; [intros H; right; exact H|]. intros [H|H]; [|exact H]. inversion H; subst. rewrite String.eqb_refl in E. discriminate.
Qed.
Lemma nodup_entries : forall m, NoDup (map fst m) -> NoDup (map fst (flat_map entry_fn m)).
Proof.
  induction m as [|[n v] m IH]; intros N; [constructor|]. inversion N as [|y z Nx N']; subst. cbn [flat_map].
  destruct v as [f|]; unfold entry_fn at 1; cbn [snd fst app map]; [|apply IH; exact N']. constructor; [|apply IH; exact N'].
  intros H. apply Nx. apply in_map_iff in H as ([n' g] & E & H). cbn [fst] in E. subst n'. apply in_entries in H. apply in_map_iff. exists (n, MFunc g). auto.
Qed.
Lemma app_nodup_l : forall A (a b : list A), NoDup (a ++ b)%list -> NoDup a.
Proof. intros A a b. induction a as [|x a IH]; intros N; [constructor|]. inversion N; subst. constructor; [|apply IH; assumption]. intros H. match goal with K : ~ In x _ |- _ => apply K end. apply in_or_app. left. exact H. Qed.
Lemma assoc_rev_entries : forall m nm f, NoDup (map fst m) -> (assoc nm (rev (flat_map entry_fn m)) = Some f <-> holds m nm f).
Proof.
  intros m nm f N. rewrite assoc_first.
  - rewrite <- in_rev. apply in_entries.
  - rewrite map_rev. apply NoDup_rev. apply nodup_entries. exact N.
Qed.
(** What is registered is what the map holds. *)
Theorem registered : forall m e nm f, NoDup (map fst m) -> snd (context_with_funcs e m) = None ->
  (holds m nm f -> lookup_fn (fst (context_with_funcs e m)) nm = Some f) /\
  ((forall g, ~ holds m nm g) -> lookup_fn (fst (context_with_funcs e m)) nm = lookup_fn e nm).
Proof.
  intros m e nm f N. unfold context_with_funcs. destruct (add_stops m [] N) as [[G ->] | (m1 & x & m2 & er & -> & B & C & ->)]; [intros n _ []| |intros H; discriminate].
  intros _. cbn [fst lookup_fn]. rewrite app_nil_r. split.
  - intros H. apply (assoc_rev_entries m nm f N) in H. rewrite H. reflexivity.
  - intros H. destruct (assoc nm (rev (flat_map entry_fn m))) as [g|] eqn:E; [|reflexivity]. apply (assoc_rev_entries m nm g N) in E. exfalso. exact (H g E).
Qed.
(** The order of the map does not matter. *)
Theorem order_free : forall m m' e, NoDup (map fst m) -> Permutation m m' ->
  (snd (context_with_funcs e m) = None <-> snd (context_with_funcs e m') = None) /\
  (snd (context_with_funcs e m) = None -> forall nm, lookup_fn (fst (context_with_funcs e m)) nm = lookup_fn (fst (context_with_funcs e m')) nm).
Proof.
  intros m m' e N P.
  assert (N' : NoDup (map fst m')) by (eapply Permutation_NoDup; [apply Permutation_map; exact P|exact N]).
  assert (X : forall m, NoDup (map fst m) -> (snd (context_with_funcs e m) = None <-> forallb good_entry m = true)).
  { intros k Nk. unfold context_with_funcs. destruct (add_stops k [] Nk) as [[G ->] | (m1 & x & m2 & er & -> & B & C & ->)]; [intros n _ []| |].
    - cbn [snd]. rewrite G. split; reflexivity.
    - cbn [snd]. rewrite forallb_app, B. cbn [forallb andb]. rewrite C. split; discriminate. }
  assert (Y : snd (context_with_funcs e m) = None <-> snd (context_with_funcs e m') = None).
  { rewrite (X m N), (X m' N'), !forallb_forall. split; intros H x Hx; apply H; [apply Permutation_sym in P|]; eapply Permutation_in; eassumption. }
  split; [exact Y|]. intros H nm.
  destruct (assoc nm (rev (flat_map entry_fn m))) as [f|] eqn:E.
  - apply (assoc_rev_entries m nm f N) in E. destruct (registered m e nm f N H) as [R _]. rewrite (R E).
    destruct (registered m' e nm f N' (proj1 Y H)) as [R' _]. rewrite R'; [reflexivity|]. eapply Permutation_in; eassumption.
  - assert (Z : forall g, ~ holds m nm g) by (intros g K; apply (assoc_rev_entries m nm g N) in K; congruence).
    destruct (registered m e nm FnArg N H) as [_ R]. rewrite (R Z).
    destruct (registered m' e nm FnArg N' (proj1 Y H)) as [_ R']. rewrite R'; [reflexivity|]. intros g K. apply (Z g). eapply Permutation_in; [apply Permutation_sym; exact P|exact K].
Qed.
(** After an error the context holds the functions visited before it. *)
Theorem partly_filled : forall m e er, NoDup (map fst m) -> snd (context_with_funcs e m) = Some er ->
  exists m1 x m2, m = (m1 ++ x :: m2)%list /\ snd (context_with_funcs e m1) = None /\ snd (context_with_funcs e (m1 ++ [x])) <> None /\
    forall nm, lookup_fn (fst (context_with_funcs e m)) nm = lookup_fn (fst (context_with_funcs e m1)) nm.
Proof.
  intros m e er N. unfold context_with_funcs. destruct (add_stops m [] N) as [[G ->] | (m1 & x & m2 & er' & -> & B & C & ->)]; [intros n _ []|discriminate|].
  intros _. exists m1, x, m2.
  rewrite map_app in N. pose proof (app_nodup_l _ _ _ N) as N1.
  apply conj; [reflexivity|].
  destruct (add_stops m1 [] N1) as [[G1 E1] | (k1 & y & k2 & er2 & -> & B1 & C1 & E1)]; [intros n _ []| |].
  2:{ exfalso. rewrite forallb_app, B1 in B. cbn [forallb andb] in B. rewrite C1 in B. discriminate. }
  rewrite E1. apply conj; [reflexivity|]. apply conj; [|reflexivity].
  assert (N2 : NoDup (map fst (m1 ++ [x]))).
  { rewrite map_app. cbn [map] in *. replace (map fst m1 ++ fst x :: map fst m2)%list with ((map fst m1 ++ [fst x]) ++ map fst m2)%list in N by (rewrite <- app_assoc; reflexivity).
    eapply app_nodup_l. exact N. }
  destruct (add_stops (m1 ++ [x]) [] N2) as [[G2 E2] | (k1 & y & k2 & er2 & -> & B1 & C1 & E2)]; [intros n _ []| |].
  - exfalso. rewrite forallb_app, B in G2. cbn [forallb andb] in G2. rewrite C in G2. discriminate.
  - rewrite E2. discriminate.
Qed.
(** Maps of functions only are what [check_funcs] decides. *)
Lemma add_check : forall fs out, NoDup (map fst fs) -> (forall nm, In nm (map fst fs) -> ~ In nm (map fst out)) ->
  fst (add_value_funcs (map (fun nf => (fst nf, MFunc (snd nf))) fs) out) = check_funcs fs.
Proof.
  induction fs as [|[nm f] fs IH]; intros out N D; [reflexivity|]. cbn [map fst snd] in *. inversion N as [|y l Nx N']; subst.
  cbn [add_value_funcs check_funcs]. destruct (good_name nm); cbn [negb]; [|reflexivity].
  destruct (has_key nm out) eqn:K; [exfalso; apply has_key_in in K; apply (D nm); [left; reflexivity|exact K]|].
  destruct (good_sig (sig_of f)); [|reflexivity]. apply IH; [exact N'|].
  intros n Hn [E | Hi]; [cbn [fst] in E; subst; contradiction|]. apply (D n); [right; exact Hn|exact Hi].
Qed.
Theorem functions_only : forall fs e, NoDup (map fst fs) ->
  snd (context_with_funcs e (map (fun nf => (fst nf, MFunc (snd nf))) fs)) = check_funcs fs /\
  (check_funcs fs = None -> forall nm, lookup_fn (fst (context_with_funcs e (map (fun nf => (fst nf, MFunc (snd nf))) fs))) nm = lookup_fn (fs :: e) nm).
Proof.
  intros fs e N. assert (Y : snd (context_with_funcs e (map (fun nf => (fst nf, MFunc (snd nf))) fs)) = check_funcs fs).
  { rewrite <- (add_check fs [] N) by (intros nm _ K; exact K). unfold context_with_funcs. destruct (add_value_funcs _ []). reflexivity. }
  split; [exact Y|]. set (m := map (fun nf => (fst nf, MFunc (snd nf))) fs) in *.
  assert (Nm : NoDup (map fst m)) by (unfold m; rewrite map_map; exact N).
  assert (H : forall nm f, holds m nm f <-> In (nm, f) fs).
  { intros nm f. unfold holds, m. rewrite in_map_iff. split.
    - intros ([n g] & E & H). inversion E; subst. exact H.
    - intros H. exists (nm, f). auto. }
  intros C nm. rewrite <- Y in C. cbn [lookup_fn]. destruct (assoc nm fs) as [f|] eqn:E.
  - apply (assoc_first _ fs nm f N) in E. apply H in E. destruct (registered m e nm f Nm C) as [R _]. exact (R E).
  - destruct (registered m e nm FnArg Nm C) as [_ R]. apply R. intros g K. apply H in K. apply (assoc_first _ fs nm g N) in K. congruence.
Qed.

(* ------------------------------------------------------------------ *)
(** * What errors say *)

Lemma good_type_plain : forall t, good_arg_type t = true <-> plain_param t.
Proof.
  intros t. unfold plain_param. split.
  - destruct t; cbn; intro H; try discriminate H; eauto.
  - intros [-> | [[d ->] | [d ->]]]; reflexivity.
Qed.
Lemma find_first : forall A (p : A -> bool) l t, find p l = Some t -> exists a b, l = (a ++ t :: b)%list /\ forallb (fun x => negb (p x)) a = true /\ p t = true.
Proof.
  intros A p. induction l as [|x l IH]; intros t H; [discriminate H|]. cbn [find] in H. destruct (p x) eqn:E.
  - injection H as <-. exists [], l. auto.
  - destruct (IH t H) as (a & b & -> & F & P). exists (x :: a), b. cbn [forallb app]. rewrite E. auto.
Qed.
Lemma bad_sig_says : forall nm f, good_sig (sig_of f) = false -> mistake (nm, MFunc f) (err_text (EWrap ("function #" ++ nm) (bad_sig (sig_of f)))).
Proof.
  intros nm f H. unfold good_sig in H. unfold bad_sig. cbn [err_text]. destruct (good_outs (fs_outs (sig_of f))) eqn:Eo.
  - destruct (find (fun t => negb (good_arg_type t)) (user_ins (sig_of f))) as [t|] eqn:Ef.
    + apply find_first in Ef as (a & b & Ea & Fa & Ft). rewrite user_ins_params in Ea.
      replace (type_text t) with (type_label t) by (destruct t; reflexivity). cbn [err_text].
      replace (("function #" ++ nm) ++ ": " ++ "unsupported argument type '" ++ type_label t ++ "', allowed: number(int*, uint*, float*), string, bool, *sqlf.Context(as the first argument only)")
        with ("function #" ++ nm ++ ": unsupported argument type '" ++ type_label t ++ "', allowed: number(int*, uint*, float*), string, bool, *sqlf.Context(as the first argument only)") by (rewrite append_assoc; reflexivity).
      eapply mk_param; [exact Ea| |].
      * apply Forall_forall. intros x Hx. apply good_type_plain. rewrite forallb_forall in Fa. specialize (Fa x Hx). rewrite negb_involutive in Fa. exact Fa.
      * intro K. apply good_type_plain in K. rewrite K in Ft. discriminate Ft.
    + exfalso. assert (K : forallb good_arg_type (user_ins (sig_of f)) = true).
      { apply forallb_forall. intros x Hx. pose proof (find_none _ _ Ef x Hx) as Z. cbn beta in Z. destruct (good_arg_type x); [reflexivity|discriminate Z]. }
      rewrite K in H. discriminate H.
  - cbn [err_text]. replace (("function #" ++ nm) ++ ": " ++ "invalid signature, expected func(...) (string, error); func(...) string; func(...);")
      with ("function #" ++ nm ++ ": invalid signature, expected func(...) (string, error); func(...) string; func(...);") by (rewrite append_assoc; reflexivity).
    apply mk_results. intro K. assert (Z : good_outs (fs_outs (sig_of f)) = true); [|congruence].
    destruct f as [| | |sg body]; try reflexivity. cbn [results_ok sig_of] in *. destruct K as [-> | [-> | ->]]; reflexivity.
Qed.
Lemma add_says : forall m out er out', NoDup (map fst m) ->
  (forall nm, In nm (map fst m) -> ~ In nm (map fst out)) -> add_value_funcs m out = (Some er, out') ->
  exists m1 x m2, m = (m1 ++ x :: m2)%list /\ Forall registrable_any_value m1 /\ mistake x (err_text er).
Proof.
  induction m as [|[nm v] m IH]; intros out er out' N D H; [discriminate H|].
  cbn [map] in N. inversion N as [|y l Nx N']; subst. cbn [add_value_funcs] in H.
  assert (Z : forall P : Prop, P -> forall x, mistake (nm, v) x -> exists m1 x0 m2, (nm, v) :: m = (m1 ++ x0 :: m2)%list /\ Forall registrable_any_value m1 /\ mistake x0 x).
  { intros P _ x Hx. exists [], (nm, v), m. auto. }
  destruct (good_name nm) eqn:G; cbn [negb] in H.
  2:{ injection H as <- _. apply (Z True Logic.I). apply mk_name; [|apply Quote_proofs.quote_quoted; reflexivity]. intro K. apply names_exactly in K. congruence. }
  destruct v as [f|]; [|injection H as <- _; apply (Z True Logic.I); apply mk_value].
  destruct (has_key nm out) eqn:K.
  { exfalso. apply has_key_in in K. apply (D nm); [left; reflexivity|exact K]. }
  destruct (good_sig (sig_of f)) eqn:S; [|injection H as <- _; apply (Z True Logic.I); apply bad_sig_says; exact S].
  destruct (IH ((nm, f) :: out) er out' N') as (m1 & x & m2 & -> & R & M); [|exact H|].
  - intros n Hn [E | Hi]; [cbn [fst] in E; subst; contradiction|]. apply (D n); [right; exact Hn|exact Hi].
  - exists ((nm, MFunc f) :: m1), x, m2. apply conj; [reflexivity|]. apply conj; [|exact M]. constructor; [|exact R].
    unfold registrable_any_value, registrable_any. cbn [fst snd]. split; [apply names_exactly; exact G|apply good_sig_ok; exact S].
Qed.
Theorem register_says : forall m e er, NoDup (map fst m) -> snd (context_with_funcs e m) = Some er ->
  exists m1 x m2, m = (m1 ++ x :: m2)%list /\ Forall registrable_any_value m1 /\ mistake x (err_text er).
Proof.
  intros m e er N H. unfold context_with_funcs in H. destruct (add_value_funcs m []) as [o fs] eqn:E. cbn [snd] in H. subst o.
  apply (add_says m [] er fs N); [intros nm Hn Hi; exact Hi|exact E].
Qed.
Theorem created : forall m, NoDup (map fst m) ->
  fst (create_value_funcs m) = fst (add_value_funcs m []) /\
  (fst (create_value_funcs m) = None -> forall nm f, assoc nm (snd (create_value_funcs m)) = Some f <-> holds m nm f) /\
  (fst (create_value_funcs m) <> None -> snd (create_value_funcs m) = []).
Proof.
  intros m N. unfold create_value_funcs. destruct (add_stops m [] N) as [[G E] | (m1 & x & m2 & er & Em & B & C & E)]; [intros n _ []| |]; rewrite E; cbn [fst snd].
  - apply conj; [reflexivity|]. apply conj; [|contradiction]. intros _ nm f. rewrite app_nil_r. apply assoc_rev_entries. exact N.
  - apply conj; [reflexivity|]. apply conj; [discriminate|reflexivity].
Qed.
