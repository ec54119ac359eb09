(** Facts about evaluating templates. *)
From Coq Require Import Strings.String Strings.Ascii NArith ZArith List Bool Lia.
From Verif Require Import GoStr GoNum Syntax Value Util Model Sqlf Sqlb Spec_syntax ByteLex Lex_proofs Grammar_proofs
  Lossless_proofs Num_proofs RefSem Spec_build Spec_eval Text_proofs Sim_proofs Fuel_proofs Order_proofs Store_proofs.
Import ListNotations.
Open Scope string_scope.

(* ------------------------------------------------------------------ *)
(** * Templates only matter up to merging texts *)

Definition pos0 : pos := mkPos 0 0.
Definition unstrip (a : aexpr) : expr :=
  match a with
  | APlain t => EPlain t pos0 | ABind s i => EBind s i pos0
  | ACall n l => ECall n l pos0 | AFunc n => EFunc n pos0
  end.

Section Clause.
Variable rb : env -> builder -> store -> outcome string * store.
Variable rc : env -> frame -> list expr -> fstate -> outcome string * fstate.
Variable jf : nat.

(** Sequencing of outcomes. *)
Definition andthen (r : outcome string * fstate) (k : fstate -> outcome string * fstate) : outcome string * fstate :=
  match r with
  | (ROk s, S') => match k S' with (ROk t, S2) => (ROk (s ++ t), S2) | o => o end
  | o => o
  end.

Lemma clause_cons : forall e fc x es S, clause rb rc jf e fc (x :: es) S =
  andthen (eval_expr rb rc jf e fc x S) (clause rb rc jf e fc es).
Proof.
  intros. cbn [clause andthen]. destruct (eval_expr rb rc jf e fc x S) as [[s|er|er|] S1]; cbn [andthen]; try reflexivity.
Qed.

Lemma andthen_assoc : forall r k l, andthen (andthen r k) l = andthen r (fun S => andthen (k S) l).
Proof.
  intros [[s|er|er|] S] k l; cbn [andthen]; try reflexivity.
  destruct (k S) as [[t|er|er|] S2]; try reflexivity. cbn [andthen].
  destruct (l S2) as [[u|er|er|] S3]; try reflexivity. rewrite append_assoc. reflexivity.
Qed.
Lemma andthen_ext : forall r k l, (forall S, k S = l S) -> andthen r k = andthen r l.
Proof. intros [[s|er|er|] S] k l H; cbn [andthen]; try reflexivity. rewrite H. reflexivity. Qed.
Lemma andthen_nil : forall r, andthen r (fun S => (ROk "", S)) = r.
Proof. intros [[s|er|er|] S]; cbn [andthen]; rewrite ?append_nil_r; reflexivity. Qed.

Lemma clause_app : forall e fc es fs S, clause rb rc jf e fc (es ++ fs) S =
  andthen (clause rb rc jf e fc es S) (clause rb rc jf e fc fs).
Proof.
  intros e fc. induction es as [|x es IH]; intros fs S.
  - cbn [app clause andthen]. destruct (clause rb rc jf e fc fs S) as [[]]; reflexivity.
  - cbn [app]. rewrite !clause_cons, andthen_assoc. apply andthen_ext. intros. apply IH.
Qed.

Lemma clause_plain : forall e fc t p es S, clause rb rc jf e fc (EPlain t p :: es) S =
  match clause rb rc jf e fc es S with (ROk r, S') => (ROk (t ++ r), S') | o => o end.
Proof. intros. rewrite clause_cons. cbn [eval_expr andthen]. destruct (clause rb rc jf e fc es S) as [[]]; reflexivity. Qed.

Lemma clause_strip : forall e fc es S, clause rb rc jf e fc (map unstrip (map strip es)) S = clause rb rc jf e fc es S.
Proof.
  intros e fc. induction es as [|x es IH]; intros S; [reflexivity|]. cbn [map]. rewrite !clause_cons.
  assert (E : eval_expr rb rc jf e fc (unstrip (strip x)) S = eval_expr rb rc jf e fc x S) by (destruct x; reflexivity).
  rewrite E. apply andthen_ext. exact IH.
Qed.

Lemma clause_cons_text : forall e fc t l S, clause rb rc jf e fc (map unstrip (cons_text t l)) S =
  clause rb rc jf e fc (map unstrip (APlain t :: l)) S.
Proof.
  intros e fc t l S.
  assert (G : clause rb rc jf e fc (map unstrip (if is_empty t then l else APlain t :: l)) S
              = clause rb rc jf e fc (map unstrip (APlain t :: l)) S).
  { destruct t as [|a t]; [|reflexivity]. cbn [is_empty map unstrip]. rewrite clause_plain.
    destruct (clause rb rc jf e fc (map unstrip l) S) as [[]]; reflexivity. }
  unfold cons_text. destruct l as [|[u| | |] l]; try exact G.
  cbn [map unstrip]. rewrite !clause_plain.
  destruct (clause rb rc jf e fc (map unstrip l) S) as [[]]; try reflexivity. rewrite <- append_assoc. reflexivity.
Qed.

Lemma clause_norm : forall e fc l S, clause rb rc jf e fc (map unstrip (norm l)) S = clause rb rc jf e fc (map unstrip l) S.
Proof.
  intros e fc. induction l as [|x l IH]; intros S; [reflexivity|].
  destruct x as [t|s i|n a|n]; cbn [norm].
  - rewrite clause_cons_text. cbn [map]. rewrite !clause_cons. apply andthen_ext. exact IH.
  - cbn [map]. rewrite !clause_cons. apply andthen_ext. exact IH.
  - cbn [map]. rewrite !clause_cons. apply andthen_ext. exact IH.
  - cbn [map]. rewrite !clause_cons. apply andthen_ext. exact IH.
Qed.

(** A template and its abstract parse evaluate alike. *)
Lemma clause_parsed : forall e fc es S, clause rb rc jf e fc (map unstrip (norm (map strip es))) S = clause rb rc jf e fc es S.
Proof. intros. rewrite clause_norm. apply clause_strip. Qed.

(** Success of a clause is success of all its expressions. *)
Lemma clause_ok_all : forall e fc es S s S', clause rb rc jf e fc es S = (ROk s, S') ->
  forall x, In x es -> exists S1 t S2, eval_expr rb rc jf e fc x S1 = (ROk t, S2).
Proof.
  intros e fc. induction es as [|y es IH]; intros S s S' H x Hx; [destruct Hx|].
  rewrite clause_cons in H. destruct (eval_expr rb rc jf e fc y S) as [[t|er|er|] S1] eqn:Ey; try discriminate.
  cbn [andthen] in H. destruct (clause rb rc jf e fc es S1) as [[u|er|er|] S2] eqn:Ec; try discriminate.
  destruct Hx as [<-|Hx]; [eauto|]. exact (IH _ _ _ Ec x Hx).
Qed.
End Clause.

Lemma clause_n_S : forall n rb e fc es S, clause_n (Datatypes.S n) rb e fc es S = clause rb (clause_n n rb) n e fc es S.
Proof. reflexivity. Qed.

Lemma clause_n_parsed : forall n rb e fc es S, clause_n n rb e fc (map unstrip (norm (map strip es))) S = clause_n n rb e fc es S.
Proof. intros [|n] rb e fc es S; [reflexivity|]. rewrite !clause_n_S. apply clause_parsed. Qed.

Lemma parsed_ok : forall s l, parsed s = Some l -> exists es, parse s = POk es /\ norm (map strip es) = l.
Proof. intros s l H. unfold parsed in H. destruct (parse s) as [es| | |]; try discriminate. exists es. split; congruence. Qed.

(** Building a fragment from the abstract parse of its template. *)
Lemma build_parsed : forall n rb e f st l, parsed (f_raw f) = Some l ->
  build_frag n rb e f st =
  match clause_n n rb e (mkFrame (f_args f) (f_frags f)) (map unstrip l)
          (mkFS st (map (fun _ => false) (f_args f)) (map (fun _ => false) (f_frags f))) with
  | (ROk body, S') =>
      if all_used (fs_ua S') && all_used (fs_uf S') then
        let body := trim_space body in
        if is_empty body then (ROk "", fs_st S')
        else (ROk ((if is_empty (f_prefix f) then "" else f_prefix f ++ " ")
                   ++ body ++ (if is_empty (f_suffix f) then "" else " " ++ f_suffix f)),
              fs_st S')
      else (RErr (in_frag f (unused (fs_ua S') (fs_uf S'))), fs_st S')
  | (RErr er, S') => (RErr (in_frag f er), fs_st S')
  | (RPanic er, S') => (RPanic er, fs_st S')
  | (RFuel, S') => (RFuel, fs_st S')
  end.
Proof.
  intros n rb e f st l H. apply parsed_ok in H as [es [H <-]]. unfold build_frag. rewrite H.
  rewrite clause_n_parsed. reflexivity.
Qed.

(* ------------------------------------------------------------------ *)
(** * Inert templates *)

Theorem inert_verbatim : forall n e l p s st, forallb is_inert l = true -> forallb wf1 l = true ->
  build (S (S n)) e (BFrag (Frag (print l) [] [] p s)) st =
  (ROk (let t := trim_space (print l) in
        if is_empty t then "" else
        (if is_empty p then "" else p ++ " ") ++ t ++ (if is_empty s then "" else " " ++ s)), st).
Proof.
  intros n e l p s st H1 H2. cbn [build].
  rewrite (build_parsed _ _ _ (Frag (print l) [] [] p s) _ _ (parsed_inert l H1 H2)). cbn [f_args f_frags map f_prefix f_suffix].
  assert (E : forall S, clause_n (Datatypes.S n) (build (Datatypes.S n)) e (mkFrame [] []) (map unstrip (cons_text (print l) [])) S = (ROk (print l), S)).
  { intros S. rewrite clause_n_S. rewrite clause_cons_text. cbn. rewrite append_nil_r. reflexivity. }
  rewrite E. cbn [all_used fs_ua fs_uf forallb andb fs_st]. cbn zeta.
  destruct (is_empty (trim_space (print l))); reflexivity.
Qed.

(** An inert part among others contributes its own text and nothing else. *)
Theorem inert_insert : forall n e l1 l2 args frags st, style_ok false (l1 ++ l2) = true ->
  exists (r : (string * string) + outcome string) st',
  forall p, is_inert p = true -> wf (l1 ++ p :: l2) = true ->
    build n e (BFrag (Frag (print (l1 ++ p :: l2)) args frags "" "")) st =
    (match r with
     | inl (a, z) => ROk (trim_space (a ++ print1 p ++ z))
     | inr (RErr er) => RErr (EWrap ("build '" ++ print (l1 ++ p :: l2) ++ "'") er)
     | inr o => o
     end, st').
Proof.
  intros n e l1 l2 args frags st Hst.
  destruct n as [|n]; [exists (inr RFuel), st; reflexivity|].
  assert (Es : forall a b s, style_ok s (a ++ b) = style_ok s a && style_ok (s || existsb is_quest a) b).
  { induction a as [|x a IH]; intros b s; [cbn; rewrite orb_false_r; reflexivity|]. cbn [app style_ok existsb].
    destruct x; cbn [is_quest orb]; rewrite ?IH, ?orb_true_r; try reflexivity.
    rewrite andb_assoc. reflexivity. }
  assert (Ed : forall a b k, denote k (a ++ b) = (denote k a ++ denote (k + binds a) b)%list).
  { induction a as [|x a IH]; intros b k; [cbn; rewrite Z.add_0_r; reflexivity|].
    assert (Hb : forall y, binds (y :: a) = (if is_bind y then 1 + binds a else binds a)%Z).
    { intros y. unfold binds. cbn [filter]. destruct (is_bind y); cbn [length]; lia. }
    cbn [app denote]. destruct x; rewrite IH, Hb; cbn [is_bind app]; rewrite ?Z.add_assoc; reflexivity. }
  rewrite Es in Hst.
  (* the evaluation of the two sides *)
    set (fc := mkFrame args frags).
    set (S0 := mkFS st (map (fun _ => false) args) (map (fun _ => false) frags)).
    set (A := clause_n n (build n) e fc (map unstrip (denote 0 l1)) S0).
    set (B := fun S => clause_n n (build n) e fc (map unstrip (denote (0 + binds l1) l2)) S).
    assert (K : forall p, is_inert p = true -> wf (l1 ++ p :: l2) = true ->
      build (S n) e (BFrag (Frag (print (l1 ++ p :: l2)) args frags "" "")) st =
      match match A with
            | (ROk s, S') => match B S' with (ROk t, S2) => (ROk (s ++ print1 p ++ t), S2) | o => o end
            | o => o
            end with
      | (ROk body, S') =>
          if all_used (fs_ua S') && all_used (fs_uf S') then (ROk (trim_space body), fs_st S')
          else (RErr (EWrap ("build '" ++ print (l1 ++ p :: l2) ++ "'") (unused (fs_ua S') (fs_uf S'))), fs_st S')
      | (RErr er, S') => (RErr (EWrap ("build '" ++ print (l1 ++ p :: l2) ++ "'") er), fs_st S')
      | (RPanic er, S') => (RPanic er, fs_st S')
      | (RFuel, S') => (RFuel, fs_st S')
      end).
    { intros p Hp Hw. cbn [build].
      assert (Hparse : parsed (print (l1 ++ p :: l2)) = Some (norm (denote 0 (l1 ++ p :: l2)))).
      { rewrite parsed_print by exact Hw. rewrite Es. cbn [style_ok].
        assert (Hp2 : style_ok (false || existsb is_quest l1) (p :: l2) = style_ok (false || existsb is_quest l1) l2).
        { destruct p; try discriminate; reflexivity. }
        cbn [style_ok] in Hp2. rewrite Hp2, Hst. reflexivity. }
      rewrite (build_parsed _ _ _ (Frag (print (l1 ++ p :: l2)) args frags "" "") _ _ Hparse). cbn [f_args f_frags f_prefix f_suffix is_empty].
      fold fc. fold S0.
      assert (Ec : clause_n n (build n) e fc (map unstrip (norm (denote 0 (l1 ++ p :: l2)))) S0 =
        match A with
            | (ROk s, S') => match B S' with (ROk t, S2) => (ROk (s ++ print1 p ++ t), S2) | o => o end
            | o => o
            end).
      { unfold A, B. destruct n as [|n']; [reflexivity|].
        rewrite clause_n_S, clause_norm. rewrite Ed, map_app, clause_app.
        assert (Ep : denote (0 + binds l1) (p :: l2) = APlain (print1 p) :: denote (0 + binds l1) l2).
        { destruct p; try discriminate; reflexivity. }
        rewrite Ep. rewrite clause_n_S.
        destruct (clause (build (S n')) (clause_n n' (build (S n'))) n' e fc (map unstrip (denote 0 l1)) S0) as [[s|er|er|] S1];
          cbn [andthen]; try reflexivity.
        change (map unstrip (APlain (print1 p) :: denote (0 + binds l1) l2))
          with (EPlain (print1 p) pos0 :: map unstrip (denote (0 + binds l1) l2)).
        rewrite clause_plain. rewrite clause_n_S.
        destruct (clause _ _ _ e fc (map unstrip (denote (0 + binds l1) l2)) S1) as [[t|er|er|] S2]; reflexivity. }
      rewrite Ec. destruct (match A with (ROk s, S') => _ | o => o end) as [[body|er|er|] S']; try reflexivity.
      destruct (all_used (fs_ua S') && all_used (fs_uf S')); [|reflexivity]. cbn zeta. destruct (trim_space body) as [|c t] eqn:Et; cbn [is_empty append]; [reflexivity|].
      rewrite append_nil_r. reflexivity. }
    clearbody A B. destruct A as [[s|er|er|] S1].
    + destruct (B S1) as [[t|er|er|] S2].
      * destruct (all_used (fs_ua S2) && all_used (fs_uf S2)).
        -- exists (inl (s, t)), (fs_st S2). intros p H1 H2. rewrite (K p H1 H2).   reflexivity.
        -- exists (inr (RErr (unused (fs_ua S2) (fs_uf S2)))), (fs_st S2). intros p H1 H2. rewrite (K p H1 H2).   reflexivity.
      * exists (inr (RErr er)), (fs_st S2). intros p H1 H2. rewrite (K p H1 H2).  reflexivity.
      * exists (inr (RPanic er)), (fs_st S2). intros p H1 H2. rewrite (K p H1 H2).  reflexivity.
      * exists (inr RFuel), (fs_st S2). intros p H1 H2. rewrite (K p H1 H2).  reflexivity.
    + exists (inr (RErr er)), (fs_st S1). intros p H1 H2. rewrite (K p H1 H2). reflexivity.
    + exists (inr (RPanic er)), (fs_st S1). intros p H1 H2. rewrite (K p H1 H2). reflexivity.
    + exists (inr RFuel), (fs_st S1). intros p H1 H2. rewrite (K p H1 H2). reflexivity.
Qed.

(* ------------------------------------------------------------------ *)
(** * Trimming is idempotent *)

Lemma trim_rev_split : forall n s, exists w, s = w ++ trim_rev_f n s.
Proof.
  induction n as [|n IH]; intros s; [exists ""; reflexivity|]. cbn [trim_rev_f].
  destruct (decode_last_rune s) as [r w]. destruct (negb (is_empty s) && is_space r); [|exists ""; reflexivity].
  destruct (IH (str_drop w s)) as [u Eu]. exists (str_take w s ++ u).
  rewrite append_assoc, <- Eu. symmetry. apply take_drop.
Qed.

Lemma trim_right_split : forall s, exists x, s = trim_right s ++ x.
Proof.
  intros s. unfold trim_right. destruct (trim_rev_split (String.length s) (str_rev s)) as [w Ew].
  exists (str_rev w). rewrite <- rev_app, <- Ew. symmetry. apply rev_rev.
Qed.

Lemma trim_rev_idem : forall n s, String.length s <= n -> trim_rev (trim_rev_f n s) = trim_rev_f n s.
Proof.
  induction n as [|n IH]; intros s Hn.
  - destruct s; [reflexivity|simpl in Hn; lia].
  - destruct s as [|a s]; [cbn; destruct n; reflexivity|]. cbn [trim_rev_f].
    pose proof (last_width a s) as L. destruct (decode_last_rune (String a s)) as [r w] eqn:D. cbn [snd] in L.
    cbn [is_empty negb andb]. destruct (is_space r) eqn:Sp.
    + apply IH. rewrite length_drop. cbn [String.length] in *. lia.
    + unfold trim_rev. cbn [String.length trim_rev_f]. rewrite D. cbn [is_empty negb andb]. rewrite Sp. reflexivity.
Qed.

Lemma trim_left_length : forall s, String.length (trim_left s) <= String.length s.
Proof. intros s. destruct (trim_left_split s) as [w [E _]]. rewrite E at 2. rewrite length_append. lia. Qed.

Lemma trim_left_idem : forall s, trim_left (trim_left s) = trim_left s.
Proof.
  intro s. remember (String.length s) as k eqn:Hk. revert s Hk.
  induction k as [k IH] using lt_wf_ind. intros s Hk. subst k.
  destruct s as [|a s]; [reflexivity|]. rewrite (trim_left_unfold a s).
  destruct (decode_rune (String a s)) as [r w] eqn:D. destruct (is_space r) eqn:Sp.
  - pose proof (decode_width_pos _ _ _ _ D) as Wp.
    apply (IH (String.length (str_drop w (String a s)))); [|reflexivity].
    rewrite length_drop. cbn [String.length]. lia.
  - rewrite trim_left_unfold, D, Sp. reflexivity.
Qed.

Lemma trim_left_prefix : forall u x, trim_left (u ++ x) = u ++ x -> trim_left u = u.
Proof.
  intros u x H. destruct u as [|a u]; [reflexivity|]. rewrite trim_left_unfold.
  destruct (decode_rune (String a u)) as [r w] eqn:D. destruct (is_space r) eqn:Sp; [|reflexivity]. exfalso.
  pose proof (decode_width_pos _ _ _ _ D) as Wp.
  destruct (decode_prefix a u r w (str_drop w (String a u) ++ x) D Sp) as [Dp _].
  rewrite <- append_assoc, take_drop in Dp. cbn [append] in *.
  rewrite trim_left_unfold, Dp, Sp in H.
  pose proof (trim_left_length (str_drop w (String a (u ++ x)))) as L. rewrite H, length_drop in L.
  cbn [String.length] in L. lia.
Qed.

Theorem trim_space_idem : forall s, trim_space (trim_space s) = trim_space s.
Proof.
  intros s. unfold trim_space. pose proof (trim_left_idem s) as H. set (u := trim_left s) in *.
  assert (E : trim_left (trim_right u) = trim_right u).
  { destruct (trim_right_split u) as [x Ex]. apply (trim_left_prefix _ x). rewrite <- Ex. exact H. }
  rewrite E. rewrite (trim_right_rev u). rewrite trim_right_rev, rev_rev. f_equal. unfold trim_rev at 2 3.
  apply trim_rev_idem. rewrite length_rev. lia.
Qed.

(* ------------------------------------------------------------------ *)
(** * Prefix and suffix *)

Theorem prefix_suffix : forall n e raw args frags p s st,
  build n e (BFrag (Frag raw args frags p s)) st =
  match build n e (BFrag (Frag raw args frags "" "")) st with
  | (ROk b, st') => (ROk (wrapped p b s), st')
  | o => o
  end.
Proof.
  intros [|n] e raw args frags p s st; [reflexivity|]. cbn [build]. unfold build_frag. cbn [f_raw f_args f_frags f_prefix f_suffix is_empty].
  destruct (parse raw); try reflexivity.
  destruct (clause_n n (build n) e _ a _) as [[body|er|er|] S']; try reflexivity.
  destruct (all_used (fs_ua S') && all_used (fs_uf S')); [|reflexivity]. cbn zeta.
  unfold wrapped. destruct (trim_space body) as [|c t]; cbn [is_empty append]; [reflexivity|].
  rewrite append_nil_r. reflexivity.
Qed.

Theorem body_trimmed : forall n e raw args frags st b st',
  build n e (BFrag (Frag raw args frags "" "")) st = (ROk b, st') -> trim_space b = b.
Proof.
  intros [|n] e raw args frags st b st'; [discriminate|]. cbn [build]. unfold build_frag. cbn [f_raw f_args f_frags f_prefix f_suffix is_empty].
  destruct (parse raw); try discriminate.
  destruct (clause_n n (build n) e _ a _) as [[body|er|er|] S']; try discriminate.
  destruct (all_used (fs_ua S') && all_used (fs_uf S')); [|discriminate]. cbn zeta.
  destruct (trim_space body) as [|c t] eqn:Et; cbn [is_empty append]; intros H; injection H as <- <-; [reflexivity|].
  rewrite append_nil_r, <- Et. apply trim_space_idem.
Qed.

(** The whole query. *)
Theorem inert_query : forall n style h l, forallb is_inert l = true -> forallb wf1 l = true ->
  build_query (S (S n)) style h (BFrag (F (print l))) = (ROk (trim_space (print l), []), h).
Proof.
  intros n style h l H1 H2. unfold build_query, F. rewrite (inert_verbatim n [builtins] l "" "" (new_store style h) H1 H2).
  cbn [is_empty append st_args st_heap new_store]. cbn zeta. destruct (trim_space (print l)); cbn [is_empty]; rewrite ?append_nil_r; reflexivity.
Qed.
Theorem plain_query : forall n style h s, plain_text s = true ->
  build_query (S (S n)) style h (BFrag (F s)) = (ROk (trim_space s, []), h).
Proof.
  intros n style h s H. pose proof (inert_query n style h [Text s] eq_refl) as Q. cbn [print print1] in Q. rewrite append_nil_r in Q.
  apply Q. cbn. rewrite H. reflexivity.
Qed.
Theorem doubled_query : forall n style h l, forallb is_text_or_esc l = true -> forallb wf1 l = true ->
  build_query (S (S n)) style h (BFrag (F (print l))) = (ROk (trim_space (print l), []), h).
Proof.
  intros n style h l H1 H2. apply inert_query; [|exact H2]. revert H1. clear. induction l as [|[] l IH]; cbn; auto; discriminate.
Qed.
