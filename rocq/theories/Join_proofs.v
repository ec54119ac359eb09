(** Facts about #join. *)
From Coq Require Import Strings.String Strings.Ascii NArith ZArith List Bool Lia.
From Verif Require Import GoStr GoNum Syntax Value Util Model Sqlf Sqlb Spec_syntax ByteLex Lex_proofs Grammar_proofs
  Lossless_proofs Num_proofs RefSem Spec_build Spec_eval Text_proofs Sim_proofs Fuel_proofs Order_proofs Store_proofs Build_proofs Eval_proofs Use_proofs.
Import ListNotations.
Open Scope string_scope.

(* ------------------------------------------------------------------ *)
(** * The template of a join, from its abstract parse *)

Definition aset (i : Z) (x : aexpr) : aexpr := match x with AFunc nm => ACall nm [LInt i] | _ => x end.

Lemma norm_aset : forall i l, norm (map (aset i) l) = map (aset i) (norm l).
Proof.
  intros i.
  assert (C : forall t l, cons_text t (map (aset i) l) = map (aset i) (cons_text t l)).
  { intros t l. unfold cons_text. destruct l as [|[u|s k|nm a|nm] l]; cbn [map aset]; destruct (is_empty t); reflexivity. }
  induction l as [|[u|s k|nm a|nm] l IH]; cbn [map aset norm]; try reflexivity; rewrite ?IH, ?C; reflexivity.
Qed.
Lemma strip_set_index : forall i es, map strip (set_index i es) = map (aset i) (map strip es).
Proof. intros i es. unfold set_index. rewrite !map_map. apply map_ext. intros []; reflexivity. Qed.

Lemma join_item : forall n rb e fc es i S,
  clause_n n rb e fc (set_index i es) S = clause_n n rb e fc (map unstrip (map (aset i) (norm (map strip es)))) S.
Proof. intros. rewrite <- clause_n_parsed, strip_set_index, norm_aset. reflexivity. Qed.

(** The functions of a template. *)
Definition fnames (l : list aexpr) : list string :=
  concat (map (fun x => match x with AFunc nm => [nm] | _ => [] end) l).
Fixpoint prep_names (rb : env -> builder -> store -> outcome string * store) (e : env) (l : list string) (st : store) : outcome nat * store :=
  match l with
  | [] => (ROk 0, st)
  | name :: l' =>
    match lookup_fn e name with
    | None => (RErr (EMsg ("unknown function #" ++ name)), st)
    | Some f =>
      match join_compat rb name f st with
      | (true, _, st') => match prep_names rb e l' st' with (ROk k, st2) => (ROk (S k), st2) | r => r end
      | (false, true, st') => (RFuel, st')
      | (false, false, st') => (RErr (incompatible name f), st')
      end
    end
  end.
Lemma join_prep_names : forall rb e es st, join_prep rb e es st = prep_names rb e (fnames (norm (map strip es))) st.
Proof.
  intros rb e.
  assert (C : forall t l, fnames (cons_text t l) = fnames l).
  { intros t l. unfold cons_text. destruct l as [|[u|s k|nm a|nm] l]; destruct (is_empty t); reflexivity. }
  assert (N : forall l, fnames (norm l) = fnames l).
  { induction l as [|[u|s k|nm a|nm] l IH]; cbn [norm]; rewrite ?C; unfold fnames in *; cbn [map concat app]; rewrite ?IH; reflexivity. }
  intros es st. rewrite N. revert st. induction es as [|x es IH]; intros st; [reflexivity|].
  destruct x as [t p|a i p|name args p|name p]; cbn [join_prep map strip]; unfold fnames; cbn [map concat app]; fold (fnames (map strip es)); try apply IH.
  cbn [prep_names]. destruct (lookup_fn e name) as [f|]; [|reflexivity].
  destruct (join_compat rb name f st) as [[[] []] st']; rewrite ?IH; reflexivity.
Qed.

(* ------------------------------------------------------------------ *)
(** * The loop *)

Section Loop.
Variable item : Z -> fstate -> outcome string * fstate.

(** Items [i], [i+1], ... that succeed. *)
Inductive runs : Z -> fstate -> list string -> fstate -> Prop :=
| runs_nil i S : runs i S [] S
| runs_cons i S s S1 ss S2 : item i S = (ROk s, S1) -> runs (i + 1) S1 ss S2 -> runs i S (s :: ss) S2.

Lemma runs_snoc : forall i S ss S1 s S2, runs i S ss S1 -> item (i + Z.of_nat (List.length ss)) S1 = (ROk s, S2) ->
  runs i S (ss ++ [s]) S2.
Proof.
  intros i S ss S1 s S2 H. induction H as [i S|i S t S0 ss S1 Hi H IH]; intros K.
  - cbn [List.length app] in *. rewrite Z.add_0_r in K. eapply runs_cons; [exact K|constructor].
  - cbn [app]. eapply runs_cons; [exact Hi|]. apply IH. rewrite <- K. f_equal. cbn [List.length]. lia.
Qed.
End Loop.

Lemma runs_ext : forall item item2 i S ss S', (forall i S, item i S = item2 i S) -> runs item i S ss S' -> runs item2 i S ss S'.
Proof.
  intros item item2 i S ss S' H K. induction K as [i S|i S s S1 ss S2 Hi K IH]; [constructor|].
  eapply runs_cons; [|exact IH]. rewrite <- H. exact Hi.
Qed.

Definition acc_join (sep acc : string) (l : list string) : string :=
  fold_left (fun acc s => if is_empty s then acc else if is_empty acc then s else acc ++ sep ++ s) l acc.

Lemma str_join_cons2 : forall sep a b l, str_join sep (a :: b :: l) = a ++ sep ++ str_join sep (b :: l).
Proof. reflexivity. Qed.
Lemma acc_join_ne : forall sep l acc, is_empty acc = false -> acc_join sep acc l = str_join sep (acc :: nonempty_items l).
Proof.
  intros sep. induction l as [|s l IH]; intros acc H; [reflexivity|].
  unfold acc_join, nonempty_items in *. cbn [fold_left filter]. destruct (is_empty s) eqn:E; cbn [negb].
  - apply IH. exact H.
  - rewrite H. rewrite IH by (destruct acc; [discriminate|reflexivity]).
    rewrite str_join_cons2. generalize (filter (fun s => negb (is_empty s)) l). intros k. destruct k as [|x k]; cbn [str_join]; [reflexivity|].
    rewrite !append_assoc. reflexivity.
Qed.
Lemma acc_join_ok : forall sep l, acc_join sep "" l = str_join sep (nonempty_items l).
Proof.
  intros sep. induction l as [|s l IH]; [reflexivity|]. unfold acc_join, nonempty_items in *. cbn [fold_left filter].
  destruct (is_empty s) eqn:E; cbn [negb is_empty]; [exact IH|]. exact (acc_join_ne sep l s E).
Qed.

Section Loop2.
Variable rc : env -> frame -> list expr -> fstate -> outcome string * fstate.
Variable e : env.
Variable fc : frame.
Variable es : list expr.
Let item (i : Z) (S : fstate) := rc e fc (set_index i es) S.

(** Stopped by the upper bound. *)
Lemma loop_to : forall sep from to i S ss S', runs item i S ss S' -> (0 < to)%Z ->
  (i + Z.of_nat (List.length ss) = to + 1)%Z -> ss <> [] ->
  forall n acc, List.length ss <= n ->
  join_loop rc n e fc es sep from to i acc S = (ROk (acc_join sep acc ss), S').
Proof.
  intros sep from to i S ss S' H Ht. induction H as [i S|i S s S1 ss S2 Hi H IH]; intros Hl Hne n acc Hn; [congruence|].
  destruct n as [|n]; [cbn in Hn; lia|]. cbn [join_loop]. unfold item in Hi. rewrite Hi.
  cbn [List.length] in Hl, Hn. destruct ss as [|s2 ss].
  - inversion H; subst. cbn [List.length] in Hl. assert (E : ((0 <? to) && (to <=? i))%Z = true) by lia. rewrite E. reflexivity.
  - cbn [List.length] in Hl, Hn. assert (E : ((0 <? to) && (to <=? i))%Z = false) by lia. rewrite E.
    rewrite IH; [reflexivity| |discriminate|]; cbn [List.length]; lia.
Qed.

(** Stopped by an invalid index. *)
Lemma loop_index : forall sep from to i S ss S' er S2, runs item i S ss S' ->
  item (i + Z.of_nat (List.length ss)) S' = (RErr er, S2) -> is_invalid_index er = true ->
  (to <= 0 \/ i + Z.of_nat (List.length ss) <= to)%Z ->
  forall n acc, List.length ss < n ->
  join_loop rc n e fc es sep from to i acc S =
  (if ((0 <? from) && (i + Z.of_nat (List.length ss) =? from) || (0 <? to) && (i + Z.of_nat (List.length ss) <=? to))%Z
   then RErr er else ROk (acc_join sep acc ss), S2).
Proof.
  intros sep from to i S ss S' er S2 H. induction H as [i S|i S s S1 ss S' Hi H IH]; intros He Hv Ht n acc Hn.
  - cbn [List.length] in *. rewrite Z.add_0_r in *. destruct n as [|n]; [lia|]. cbn [join_loop]. unfold item in He. rewrite He, Hv.
    destruct (_ || _); reflexivity.
  - destruct n as [|n]; [lia|]. cbn [join_loop]. unfold item in Hi. rewrite Hi.
    cbn [List.length] in He, Ht, Hn. assert (E : ((0 <? to) && (to <=? i))%Z = false) by lia. rewrite E.
    assert (E2 : (i + Z.of_nat (List.length (s :: ss)) = i + 1 + Z.of_nat (List.length ss))%Z) by (cbn [List.length]; lia).
    cbn [List.length] in E2. rewrite E2 in He, Ht. rewrite (IH He Hv Ht) by lia. cbn [List.length]. rewrite E2. reflexivity.
Qed.

(** Stopped by any other failure. *)
Lemma loop_fail : forall sep from to i S ss S' o S2, runs item i S ss S' ->
  item (i + Z.of_nat (List.length ss)) S' = (o, S2) ->
  match o with RErr er => is_invalid_index er = false | RPanic _ => True | _ => False end ->
  (to <= 0 \/ i + Z.of_nat (List.length ss) <= to)%Z ->
  forall n acc, List.length ss < n ->
  join_loop rc n e fc es sep from to i acc S = (o, S2).
Proof.
  intros sep from to i S ss S' o S2 H. induction H as [i S|i S s S1 ss S' Hi H IH]; intros He Hv Ht n acc Hn.
  - cbn [List.length] in *. rewrite Z.add_0_r in *. destruct n as [|n]; [lia|]. cbn [join_loop]. unfold item in He. rewrite He.
    destruct o as [x|er|er|]; try contradiction; [rewrite Hv; reflexivity|reflexivity].
  - destruct n as [|n]; [lia|]. cbn [join_loop]. unfold item in Hi. rewrite Hi.
    cbn [List.length] in He, Ht, Hn. assert (E : ((0 <? to) && (to <=? i))%Z = false) by lia. rewrite E.
    assert (E2 : (i + Z.of_nat (List.length (s :: ss)) = i + 1 + Z.of_nat (List.length ss))%Z) by (cbn [List.length]; lia).
    cbn [List.length] in E2. rewrite E2 in He, Ht. apply IH; try assumption. lia.
Qed.
End Loop2.

(* ------------------------------------------------------------------ *)
(** * Joining a list of items *)

Fixpoint iter_mark (m : nat -> list bool -> list bool) (i k : nat) (l : list bool) : list bool :=
  match k with O => l | S k' => iter_mark m (S i) k' (m i l) end.
Lemma iter_mark_mark : forall k i l, iter_mark mark i k l = mark_from i k l.
Proof. induction k as [|k IH]; intros i l; [reflexivity|]. cbn. apply IH. Qed.

Definition item_fails (r : outcome string * fstate) (o : outcome string) (st' : store) : Prop :=
  exists er er2 S2, (o = RErr er \/ o = RPanic er) /\ r = (RErr er2, S2) /\ fs_st S2 = st' /\ is_invalid_index er2 = is_invalid_index er.

Section Items.
Variable A : Type.
Variable items : list A.
Variable step : A -> store -> outcome string * store.
Variables ma mf : nat -> list bool -> list bool.
Variable item : Z -> fstate -> outcome string * fstate.
Hypothesis Hok : forall i x S s st', nth_error items i = Some x -> step x (fs_st S) = (ROk s, st') ->
  item (Z.of_nat i + 1) S = (ROk s, mkFS st' (ma i (fs_ua S)) (mf i (fs_uf S))).
Hypothesis Hbad : forall i x S o st', nth_error items i = Some x -> step x (fs_st S) = (o, st') ->
  (exists er, o = RErr er \/ o = RPanic er) -> item_fails (item (Z.of_nat i + 1) S) o st'.

Lemma runs_items : forall k i S ss st', i + k <= List.length items ->
  do_all step (firstn k (skipn i items)) (fs_st S) = (ROk ss, st') ->
  runs item (Z.of_nat i + 1) S ss (mkFS st' (iter_mark ma i k (fs_ua S)) (iter_mark mf i k (fs_uf S))) /\ List.length ss = k.
Proof.
  induction k as [|k IH]; intros i S ss st' Hl H.
  - cbn in H. injection H as <- <-. split; [|reflexivity]. destruct S. constructor.
  - destruct (skipn i items) as [|x l] eqn:E.
    { exfalso. assert (List.length (skipn i items) = 0) as L by (rewrite E; reflexivity). rewrite skipn_length in L. lia. }
    assert (En : nth_error items i = Some x /\ skipn (Datatypes.S i) items = l).
    { clear - E. revert items E. induction i as [|i IH]; intros [|y its] E; try discriminate; cbn in *.
      - injection E as -> ->. auto.
      - apply IH in E. exact E. }
    destruct En as [En El]. cbn [firstn do_all] in H.
    destruct (step x (fs_st S)) as [[s|er|er|] st1] eqn:Es; try discriminate.
    rewrite <- El in H. destruct (do_all step (firstn k (skipn (Datatypes.S i) items)) st1) as [[ss2|er|er|] st2] eqn:Ed; try discriminate.
    injection H as <- <-. pose proof (Hok i x S s st1 En Es) as K.
    destruct (IH (Datatypes.S i) (mkFS st1 (ma i (fs_ua S)) (mf i (fs_uf S))) ss2 st2 ltac:(lia) Ed) as [R L].
    split; [|cbn; lia]. eapply runs_cons; [exact K|].
    replace (Z.of_nat i + 1 + 1)%Z with (Z.of_nat (Datatypes.S i) + 1)%Z by lia. exact R.
Qed.

Lemma runs_fail : forall k i S er st' o, i + k <= List.length items ->
  do_all step (firstn k (skipn i items)) (fs_st S) = (o, st') -> o = RErr er \/ o = RPanic er ->
  exists ss S1 er2 S2, List.length ss < k /\ runs item (Z.of_nat i + 1) S ss S1 /\
    item (Z.of_nat i + 1 + Z.of_nat (List.length ss)) S1 = (RErr er2, S2) /\
    fs_st S2 = st' /\ is_invalid_index er2 = is_invalid_index er.
Proof.
  induction k as [|k IH]; intros i S er st' o Hl H Ho.
  - cbn in H. injection H as <- <-. destruct Ho; discriminate.
  - destruct (skipn i items) as [|x l] eqn:E.
    { exfalso. assert (List.length (skipn i items) = 0) as L by (rewrite E; reflexivity). rewrite skipn_length in L. lia. }
    assert (En : nth_error items i = Some x /\ skipn (Datatypes.S i) items = l).
    { clear - E. revert items E. induction i as [|i IH]; intros [|y its] E; try discriminate; cbn in *.
      - injection E as -> ->. auto.
      - apply IH in E. exact E. }
    destruct En as [En El]. cbn [firstn do_all] in H.
    destruct (step x (fs_st S)) as [[s|e0|e0|] st1] eqn:Es.
    + rewrite <- El in H. destruct (do_all step (firstn k (skipn (Datatypes.S i) items)) st1) as [o2 st2] eqn:Ed.
      pose proof (Hok i x S s st1 En Es) as K.
      assert (Ho2 : o2 = RErr er \/ o2 = RPanic er).
      { destruct o2 as [ss2|e1|e1|]; injection H as <- <-; destruct Ho as [Ho|Ho]; try discriminate; injection Ho as <-; auto. }
      assert (st2 = st') by (destruct o2; congruence). subst st2.
      destruct (IH (Datatypes.S i) (mkFS st1 (ma i (fs_ua S)) (mf i (fs_uf S))) er st' o2 ltac:(lia) Ed Ho2) as (ss & S1 & er2 & S2 & L & R & I1 & I2 & I3).
      exists (s :: ss), S1, er2, S2. split; [cbn; lia|]. split.
      * eapply runs_cons; [exact K|]. replace (Z.of_nat i + 1 + 1)%Z with (Z.of_nat (Datatypes.S i) + 1)%Z by lia. exact R.
      * split; [|auto]. rewrite <- I1. f_equal. cbn [List.length]. lia.
    + injection H as <- <-. destruct (Hbad i x S _ _ En Es) as (e1 & er2 & S2 & O & R & I1 & I2); [eauto|].
      exists [], S, er2, S2. split; [cbn; lia|]. split; [constructor|]. cbn [List.length]. rewrite Z.add_0_r. split; [exact R|].
      split; [exact I1|]. rewrite I2. destruct Ho as [Ho|Ho], O as [O|O]; try discriminate; congruence.
    + injection H as <- <-. destruct (Hbad i x S _ _ En Es) as (e1 & er2 & S2 & O & R & I1 & I2); [eauto|].
      exists [], S, er2, S2. split; [cbn; lia|]. split; [constructor|]. cbn [List.length]. rewrite Z.add_0_r. split; [exact R|].
      split; [exact I1|]. rewrite I2. destruct Ho as [Ho|Ho], O as [O|O]; try discriminate; congruence.
    + injection H as <- <-. destruct Ho; discriminate.
Qed.
End Items.

(** A function that joins accept, whose test leaves no trace. *)
Definition compat (rb : env -> builder -> store -> outcome string * store) (e : env) (nm : string) : Prop :=
  exists f b, lookup_fn e nm = Some f /\ forall st, join_compat rb nm f st = (true, b, st).
Lemma compat_builtin : forall rb e nm, lookup_fn e nm = Some FnFragment \/ lookup_fn e nm = Some FnArg -> compat rb e nm.
Proof. intros rb e nm [H|H]; (exists FnFragment, false + exists FnArg, false); (split; [exact H|reflexivity]). Qed.

(** Preparing and running a join over [es], whose functions are all compatible. *)
Lemma func_join_eq : forall rb rc jf e fc tmpl sep idx S es l,
  parse tmpl = POk es -> norm (map strip es) = l -> fnames l <> [] ->
  (forall nm, In nm (fnames l) -> compat rb e nm) ->
  func_join rb rc jf e fc tmpl sep idx S =
  match idx with
  | [] => join_loop rc jf e fc es sep 0 0 1 "" S
  | [a] => join_loop rc jf e fc es sep a 0 (Z.max 1 a) "" S
  | [a; b] => if (0 <? b)%Z && (b <? a)%Z then (RErr (bad_range a b), S)
              else join_loop rc jf e fc es sep a b (Z.max 1 a) "" S
  | _ => (RErr (too_many (List.length idx)), S)
  end.
Proof.
  intros rb rc jf e fc tmpl sep idx S es l Hp Hl Hne Hf.
  assert (P : join_prep rb e es (fs_st S) = (ROk (List.length (fnames l)), fs_st S)).
  { rewrite join_prep_names, Hl. clear Hne Hl Hp. generalize (fs_st S). induction (fnames l) as [|nm ns IH]; intros st; [reflexivity|].
    cbn [prep_names]. specialize (IH (fun x Hx => Hf x (or_intror Hx))).
    destruct (Hf nm (or_introl eq_refl)) as (f & b & E & C). rewrite E, C, IH. reflexivity. }
  assert (ES : mkFS (fs_st S) (fs_ua S) (fs_uf S) = S) by (destruct S; reflexivity).
  unfold func_join. rewrite Hp, P, ES.
  destruct (List.length (fnames l)) as [|k] eqn:El; [destruct (fnames l); [congruence|discriminate]|].
  destruct idx as [|a [|b [|c idx]]]; try reflexivity.
  - cbn [Z.ltb Z.compare andb]. replace (if (a <=? 0)%Z then 1%Z else a) with (Z.max 1 a); [reflexivity|]. destruct (Z.leb_spec a 0); lia.
  - destruct (_ && _); [reflexivity|]. replace (if (a <=? 0)%Z then 1%Z else a) with (Z.max 1 a); [reflexivity|]. destruct (Z.leb_spec a 0); lia.
Qed.

(** A call of #join with a template, a separator and indexes. *)
Lemma eval_join : forall rb rc jf e fc jn tmpl sep nums p S, lookup_fn e jn = Some FnJoin -> Forall is_num nums ->
  eval_expr rb rc jf e fc (ECall jn (LStr tmpl :: LStr sep :: nums) p) S =
  safe jn (func_join rb rc jf e fc tmpl sep (map lit_int nums) S).
Proof.
  intros rb rc jf e fc jn tmpl sep nums p S Hl Hn. cbn [eval_expr]. unfold eval_function. rewrite Hl. unfold eval_call.
  cbn [sig_of]. unfold arity_ok, arg_types. cbn [fs_variadic user_ins ctx_first fs_ins negb tl List.length removelast last Nat.sub Nat.leb app].
  cbn [eval_args eval_arg any_rejected call_rejects orb]. rewrite Nat.sub_0_r.
  assert (E : eval_args (repeat GNum (List.length nums)) nums = ROk tt).
  { induction Hn as [|a nums Ha Hn IH]; [reflexivity|]. cbn. destruct a; try contradiction; exact IH. }
  assert (R : any_rejected (repeat GNum (List.length nums)) nums = false).
  { clear E. induction Hn as [|a nums Ha Hn IH]; [reflexivity|]. cbn. destruct a; try contradiction; exact IH. }
  rewrite E, R. reflexivity.
Qed.

Section JoinItems.
Variable A : Type.
Variable items : list A.
Variable step : A -> store -> outcome string * store.
Variables ma mf : nat -> list bool -> list bool.
Variable rb : env -> builder -> store -> outcome string * store.
Variable rc : env -> frame -> list expr -> fstate -> outcome string * fstate.
Variable jf : nat.
Variable e : env.
Variable fc : frame.
Variable tmpl : string.
Variable es : list expr.
Variable l : list aexpr.
Hypothesis Hp : parse tmpl = POk es.
Hypothesis Hl : norm (map strip es) = l.
Hypothesis Hne : fnames l <> [].
Hypothesis Hf : forall nm, In nm (fnames l) -> compat rb e nm.
Let item (i : Z) (S : fstate) := rc e fc (set_index i es) S.
Hypothesis Hok : forall i x S s st', nth_error items i = Some x -> step x (fs_st S) = (ROk s, st') ->
  item (Z.of_nat i + 1) S = (ROk s, mkFS st' (ma i (fs_ua S)) (mf i (fs_uf S))).
Hypothesis Hbad : forall i x S o st', nth_error items i = Some x -> step x (fs_st S) = (o, st') ->
  (exists er, o = RErr er \/ o = RPanic er) -> item_fails (item (Z.of_nat i + 1) S) o st'.
(** Beyond the items the index is invalid (other functions of the template may
    have done something before). *)
Definition ends (i : Z) (S S' : fstate) : Prop := exists er, item i S = (RErr er, S') /\ is_invalid_index er = true.

Let len := Z.of_nat (List.length items).

(** Within the range. *)
Lemma join_range : forall sep idx from to S ss st' S',
  range idx len from to -> (1 <= from <= to)%Z -> (to <= len)%Z ->
  do_all step (slice from to items) (fs_st S) = (ROk ss, st') ->
  let n := Z.to_nat (to - from + 1) in let i := Z.to_nat (from - 1) in
  let S1 := mkFS st' (iter_mark ma i n (fs_ua S)) (iter_mark mf i n (fs_uf S)) in
  (match idx with [_; b] => if (0 <? b)%Z then S' = S1 else ends (len + 1) S1 S' | _ => ends (len + 1) S1 S' end) ->
  n < jf ->
  func_join rb rc jf e fc tmpl sep idx S = (ROk (str_join sep (nonempty_items ss)), S').
Proof.
  intros sep idx from to S ss st' S' Hr Hft Hto Hd n i S1 HS Hjf.
  rewrite (func_join_eq rb rc jf e fc tmpl sep idx S es l Hp Hl Hne Hf).
  unfold slice in Hd. fold n i in Hd.
  destruct (runs_items A items step ma mf item Hok n i S ss st' ltac:(unfold n, i, len in *; lia) Hd) as [R Ln]. fold S1 in R.
  replace (Z.of_nat i + 1)%Z with from in R by (unfold i; lia).
  assert (J1 : forall fr b, (fr <= from)%Z -> (b <= 0)%Z -> ends (len + 1) S1 S' -> to = len ->
    join_loop rc jf e fc es sep fr b from "" S = (ROk (str_join sep (nonempty_items ss)), S')).
  { intros fr b Hfr Hb (er & E1 & E2) Et. assert (Ei : (from + Z.of_nat (List.length ss) = len + 1)%Z) by (rewrite Ln; unfold n; lia).
    rewrite (loop_index rc e fc es sep fr b from S ss S1 er S' R) with (n := jf);
      [|rewrite Ei; exact E1|exact E2|lia|lia].
    rewrite Ei. replace ((0 <? fr) && (len + 1 =? fr) || (0 <? b) && (len + 1 <=? b))%Z with false by lia.
    rewrite acc_join_ok. reflexivity. }
  destruct idx as [|a [|b [|c idx]]]; cbn [range] in Hr; try contradiction; destruct Hr as [Hr1 Hr2].
  - rewrite <- Hr1. apply J1; try assumption; lia.
  - rewrite <- Hr1. apply J1; try assumption; lia.
  - destruct (Z.ltb_spec 0 b) as [Hb|Hb].
    + replace (b <? a)%Z with false by lia. cbn [andb]. rewrite <- Hr1. subst S'.
      rewrite (loop_to rc e fc es sep a b from S ss S1 R) with (n := jf); try lia.
      * rewrite acc_join_ok. reflexivity.
      * destruct ss; [cbn in Ln; unfold n in Ln; lia|discriminate].
    + cbn [andb]. rewrite <- Hr1. apply J1; try assumption; lia.
Qed.

(** Nothing to join. *)
Lemma join_none : forall sep idx X X', items = [] ->
  match idx with [] => True | [a] => (a <= 0)%Z | [a; b] => (a <= 0 /\ b <= 0)%Z | _ => False end ->
  ends 1 X X' -> 0 < jf ->
  func_join rb rc jf e fc tmpl sep idx X = (ROk "", X').
Proof.
  intros sep idx X X' Hi Hx (er & E1 & E2) Hjf.
  rewrite (func_join_eq rb rc jf e fc tmpl sep idx X es l Hp Hl Hne Hf).
  assert (J : forall a b, (a <= 0)%Z -> (b <= 0)%Z -> join_loop rc jf e fc es sep a b 1 "" X = (ROk "", X')).
  { intros a b Ha Hb. rewrite (loop_index rc e fc es sep a b 1 X [] X er X' (runs_nil _ _ _)) with (n := jf);
      [|exact E1|exact E2|lia|exact Hjf].
    replace ((0 <? a) && (1 + Z.of_nat (List.length (@nil string)) =? a) || (0 <? b) && (1 + Z.of_nat (List.length (@nil string)) <=? b))%Z with false by (cbn [List.length]; lia).
    reflexivity. }
  destruct idx as [|a [|b [|c idx]]]; try contradiction.
  - apply J; lia.
  - replace (Z.max 1 a) with 1%Z by lia. apply J; lia.
  - replace ((0 <? b) && (b <? a))%Z with false by lia. replace (Z.max 1 a) with 1%Z by lia. apply J; lia.
Qed.

(** An upper bound beyond the items. *)
Lemma join_beyond : forall sep a b X ss st' X' er, let from := Z.max 1 a in
  (from <= len + 1)%Z -> (len < b)%Z -> (a <= b)%Z -> (0 < b)%Z ->
  do_all step (slice from len items) (fs_st X) = (ROk ss, st') ->
  let n := Z.to_nat (len - from + 1) in let i := Z.to_nat (from - 1) in
  let S1 := mkFS st' (iter_mark ma i n (fs_ua X)) (iter_mark mf i n (fs_uf X)) in
  item (len + 1) S1 = (RErr er, X') -> is_invalid_index er = true -> n < jf ->
  func_join rb rc jf e fc tmpl sep [a; b] X = (RErr er, X').
Proof.
  intros sep a b X ss st' X' er from Hfrom Hb Hab Hb0 Hd n i S1 Hi Hv Hjf.
  rewrite (func_join_eq rb rc jf e fc tmpl sep [a; b] X es l Hp Hl Hne Hf).
  replace ((0 <? b) && (b <? a))%Z with false by lia. fold from.
  unfold slice in Hd. fold n i in Hd.
  destruct (runs_items A items step ma mf item Hok n i X ss st' ltac:(unfold n, i, len in *; lia) Hd) as [R Ln]. fold S1 in R.
  replace (Z.of_nat i + 1)%Z with from in R by (unfold i; lia).
  assert (Ei : (from + Z.of_nat (List.length ss) = len + 1)%Z) by (rewrite Ln; unfold n; lia).
  rewrite (loop_index rc e fc es sep a b from X ss S1 er X' R) with (n := jf); [|rewrite Ei; exact Hi|exact Hv|lia|lia].
  rewrite Ei. replace ((0 <? a) && (len + 1 =? a) || (0 <? b) && (len + 1 <=? b))%Z with true by lia. reflexivity.
Qed.

(** A start beyond the items. *)
Lemma join_start_beyond : forall sep a r X X' er, (1 <= a)%Z ->
  match r with [] => True | [b] => (b <= 0 \/ a <= b)%Z | _ => False end ->
  item a X = (RErr er, X') -> is_invalid_index er = true -> 0 < jf ->
  func_join rb rc jf e fc tmpl sep (a :: r) X = (RErr er, X').
Proof.
  intros sep a r X X' er Ha Hr Hi Hv Hjf.
  rewrite (func_join_eq rb rc jf e fc tmpl sep (a :: r) X es l Hp Hl Hne Hf).
  assert (J : forall b, (b <= 0 \/ a <= b)%Z -> join_loop rc jf e fc es sep a b (Z.max 1 a) "" X = (RErr er, X')).
  { intros b Hb. replace (Z.max 1 a) with a by lia.
    rewrite (loop_index rc e fc es sep a b a X [] X er X' (runs_nil _ _ _)) with (n := jf);
      cbn [List.length]; rewrite ?Z.add_0_r; [|exact Hi|exact Hv|lia|exact Hjf].
    replace ((0 <? a) && (a =? a))%Z with true by lia. reflexivity. }
  destruct r as [|b [|c r]]; try contradiction; [apply J; lia|].
  replace ((0 <? b) && (b <? a))%Z with false by lia. apply J. exact Hr.
Qed.

(** A failing item. *)
Lemma join_fails : forall sep idx from to X o er st', range idx len from to -> (1 <= from)%Z -> (from <= to)%Z ->
  let hi := Z.min to len in
  do_all step (slice from hi items) (fs_st X) = (o, st') -> o = RErr er \/ o = RPanic er ->
  is_invalid_index er = false -> Z.to_nat (hi - from + 1) < jf ->
  exists er2 X', func_join rb rc jf e fc tmpl sep idx X = (RErr er2, X') /\ fs_st X' = st' /\ is_invalid_index er2 = false.
Proof.
  intros sep idx from to X o er st' Hr Hft Hto hi Hd Ho Hv Hjf.
  rewrite (func_join_eq rb rc jf e fc tmpl sep idx X es l Hp Hl Hne Hf).
  assert (Hk : (from - 1 <= len)%Z).
  { destruct (Z.le_gt_cases (from - 1) len) as [K|K]; [exact K|]. exfalso. unfold slice in Hd.
    replace (Z.to_nat (hi - from + 1)) with 0 in Hd by (unfold hi; lia). cbn in Hd. injection Hd as <- _. destruct Ho; discriminate. }
  unfold slice in Hd.
  destruct (runs_fail A items step ma mf item Hok Hbad (Z.to_nat (hi - from + 1)) (Z.to_nat (from - 1)) X er st' o
    ltac:(unfold hi, len in *; lia) Hd Ho) as (ss & S1 & er2 & S2 & L & R & I1 & I2 & I3).
  replace (Z.of_nat (Z.to_nat (from - 1)) + 1)%Z with from in R, I1 by lia.
  rewrite Hv in I3. exists er2, S2.
  assert (J : forall a b, (b <= 0 \/ from + Z.of_nat (List.length ss) <= b)%Z -> join_loop rc jf e fc es sep a b from "" X = (RErr er2, S2)).
  { intros a b Hb. apply (loop_fail rc e fc es sep a b from X ss S1 (RErr er2) S2 R I1 I3 Hb). lia. }
  destruct idx as [|a [|b [|c idx]]]; cbn [range] in Hr; try contradiction; destruct Hr as [Hr1 Hr2].
  - rewrite <- Hr1. split; [apply J; lia|auto].
  - rewrite <- Hr1. split; [apply J; lia|auto].
  - rewrite <- Hr1. destruct (Z.ltb_spec 0 b) as [Hb|Hb].
    + replace (b <? a)%Z with false by lia. cbn [andb]. split; [apply J; unfold hi in L; lia|auto].
    + cbn [andb]. split; [apply J; lia|auto].
Qed.

(** An item failing with an invalid index ends the list. *)
Lemma join_swallows : forall sep X ss st1 x o er st2 post pre, items = (pre ++ x :: post)%list ->
  do_all step pre (fs_st X) = (ROk ss, st1) -> step x st1 = (o, st2) -> o = RErr er \/ o = RPanic er ->
  is_invalid_index er = true -> List.length items < jf ->
  exists X', func_join rb rc jf e fc tmpl sep [] X = (ROk (str_join sep (nonempty_items ss)), X') /\ fs_st X' = st2.
Proof.
  intros sep X ss st1 x o er st2 post pre Hi Hd Hx Ho Hv Hjf.
  rewrite (func_join_eq rb rc jf e fc tmpl sep [] X es l Hp Hl Hne Hf).
  assert (Hd2 : do_all step (firstn (List.length pre) (skipn 0 items)) (fs_st X) = (ROk ss, st1)).
  { cbn [skipn]. rewrite Hi, firstn_app, Nat.sub_diag, firstn_all, firstn_O, app_nil_r. exact Hd. }
  destruct (runs_items A items step ma mf item Hok (List.length pre) 0 X ss st1 ltac:(rewrite Hi, app_length; lia) Hd2) as [R Ln].
  assert (Hn : nth_error items (List.length pre) = Some x).
  { rewrite Hi, nth_error_app2, Nat.sub_diag by lia. reflexivity. }
  match type of R with runs _ _ _ _ ?s1 => set (S1 := s1) in * end.
  destruct (Hbad (List.length pre) x S1 o st2 Hn Hx) as (er1 & er2 & S2 & O & R2 & I1 & I2).
  { exists er. exact Ho. }
  exists S2. split; [|exact I1]. assert (Hv2 : is_invalid_index er2 = true).
  { rewrite I2. destruct Ho as [Ho|Ho], O as [O|O]; rewrite Ho in O; try discriminate; injection O as <-; exact Hv. }
  rewrite (loop_index rc e fc es sep 0 0 1 X ss S1 er2 S2 R) with (n := jf).
  - cbn [andb orb Z.ltb Z.compare]. rewrite acc_join_ok. reflexivity.
  - rewrite Ln. replace (1 + Z.of_nat (List.length pre))%Z with (Z.of_nat (List.length pre) + 1)%Z by lia. exact R2.
  - exact Hv2.
  - lia.
  - rewrite Hi, app_length in Hjf. cbn [List.length] in Hjf. lia.
Qed.
End JoinItems.

(* ------------------------------------------------------------------ *)
(** * '#f' and '#arg' *)

Lemma clause_one : forall rb rc jf e fc x S, clause rb rc jf e fc [x] S = eval_expr rb rc jf e fc x S.
Proof. intros. rewrite clause_cons. apply andthen_nil. Qed.

Lemma safe_ok : forall S name s (x : S), safe name (ROk s, x) = (ROk s, x). Proof. reflexivity. Qed.

Lemma frag_item : forall k rb e fc es nm i S, norm (map strip es) = [AFunc nm] -> lookup_fn e nm = Some FnFragment ->
  clause_n (Datatypes.S k) rb e fc (set_index i es) S = safe nm (func_fragment rb e fc i S).
Proof.
  intros k rb e fc es nm i S Hl Hf. rewrite join_item, Hl. cbn [map aset unstrip]. rewrite clause_n_S, clause_one.
  cbn [eval_expr]. unfold eval_function. rewrite Hf, eval_call_fragment. reflexivity.
Qed.
Lemma arg_item : forall k rb e fc es nm i S, norm (map strip es) = [AFunc nm] -> lookup_fn e nm = Some FnArg ->
  clause_n (Datatypes.S k) rb e fc (set_index i es) S = safe nm (func_arg fc i S).
Proof.
  intros k rb e fc es nm i S Hl Hf. rewrite join_item, Hl. cbn [map aset unstrip]. rewrite clause_n_S, clause_one.
  cbn [eval_expr]. unfold eval_function. rewrite Hf, eval_call_arg. reflexivity.
Qed.

Lemma nth1_in : forall A (l : list A) i x, nth_error l i = Some x -> nth1 l (Z.of_nat i + 1) = Some x.
Proof.
  intros A l i x H. assert (i < List.length l) by (apply nth_error_Some; congruence). unfold nth1.
  replace ((1 <=? Z.of_nat i + 1)%Z && (Z.of_nat i + 1 <=? Z.of_nat (List.length l))%Z) with true by lia.
  replace (Z.to_nat (Z.of_nat i + 1 - 1)) with i by lia. exact H.
Qed.

Definition noflag (_ : nat) (l : list bool) : list bool := l.
Lemma iter_mark_no : forall k i l, iter_mark noflag i k l = l.
Proof. induction k as [|k IH]; intros i l; [reflexivity|]. cbn. apply IH. Qed.

Lemma frag_ok : forall rb e fc nm i x X s st', nth_error (fr_frags fc) i = Some x -> rb e x (fs_st X) = (ROk s, st') ->
  safe nm (func_fragment rb e fc (Z.of_nat i + 1) X) = (ROk s, mkFS st' (noflag i (fs_ua X)) (mark i (fs_uf X))).
Proof.
  intros rb e fc nm i x X s st' Hn Hb. unfold func_fragment. rewrite (nth1_in _ _ _ _ Hn), Hb.
  replace (Z.to_nat (Z.of_nat i + 1 - 1)) with i by lia. reflexivity.
Qed.
Lemma frag_bad : forall rb e fc nm i x X o st', nth_error (fr_frags fc) i = Some x -> rb e x (fs_st X) = (o, st') ->
  (exists er, o = RErr er \/ o = RPanic er) -> item_fails (safe nm (func_fragment rb e fc (Z.of_nat i + 1) X)) o st'.
Proof.
  intros rb e fc nm i x X o st' Hn Hb [er Ho]. unfold func_fragment. rewrite (nth1_in _ _ _ _ Hn), Hb.
  exists er. destruct Ho as [->| ->]; cbn [safe]; eexists _, _; (split; [auto|split; [reflexivity|split; reflexivity]]).
Qed.
Lemma arg_ok : forall fc nm i x X s st', nth_error (fr_args fc) i = Some x -> commit x (fs_st X) = (ROk s, st') ->
  safe nm (func_arg fc (Z.of_nat i + 1) X) = (ROk s, mkFS st' (mark i (fs_ua X)) (noflag i (fs_uf X))).
Proof.
  intros fc nm i x X s st' Hn Hb. unfold func_arg. rewrite (nth1_in _ _ _ _ Hn), Hb.
  replace (Z.to_nat (Z.of_nat i + 1 - 1)) with i by lia. reflexivity.
Qed.
Lemma arg_bad : forall fc nm i x X o st', nth_error (fr_args fc) i = Some x -> commit x (fs_st X) = (o, st') ->
  (exists er, o = RErr er \/ o = RPanic er) -> item_fails (safe nm (func_arg fc (Z.of_nat i + 1) X)) o st'.
Proof.
  intros fc nm i x X o st' Hn Hb [er Ho]. unfold func_arg. rewrite (nth1_in _ _ _ _ Hn), Hb.
  exists er. destruct Ho as [->| ->]; cbn [safe]; eexists _, _; (split; [auto|split; [reflexivity|split; reflexivity]]).
Qed.
Lemma frag_out : forall rb e fc nm i X, outside i (List.length (fr_frags fc)) ->
  safe nm (func_fragment rb e fc i X) = (RErr (EWrap ("error calling #" ++ nm) (EInvalidIndex i)), X).
Proof. intros. unfold func_fragment. rewrite nth1_outside by assumption. reflexivity. Qed.
Lemma arg_out : forall fc nm i X, outside i (List.length (fr_args fc)) ->
  safe nm (func_arg fc i X) = (RErr (EWrap ("error calling #" ++ nm) (EInvalidIndex i)), X).
Proof. intros. unfold func_arg. rewrite nth1_outside by assumption. reflexivity. Qed.

Lemma parsed_func : forall nm, wf_name nm = true -> parsed ("#" ++ nm) = Some [AFunc nm].
Proof.
  intros nm H. pose proof (parsed_print [Func nm]) as P. cbn [print print1] in P. rewrite append_nil_r in P.
  apply P. unfold wf. cbn. rewrite H. reflexivity.
Qed.

Section Single.
Variable A : Type.
Variable items : list A.
Variable step : A -> store -> outcome string * store.
Variables ma mf : nat -> list bool -> list bool.
Variable rb : env -> builder -> store -> outcome string * store.
Variables k jf : nat.
Variable e : env.
Variable fc : frame.
Variables jn nm sep : string.
Hypothesis Hj : lookup_fn e jn = Some FnJoin.
Hypothesis Hw : wf_name nm = true.
Hypothesis Hfn : compat rb e nm.
Variable it : Z -> fstate -> outcome string * fstate.
Hypothesis Hit : forall es i X, norm (map strip es) = [AFunc nm] -> clause_n (S k) rb e fc (set_index i es) X = it i X.
Hypothesis Hok : forall i x X s st', nth_error items i = Some x -> step x (fs_st X) = (ROk s, st') ->
  it (Z.of_nat i + 1) X = (ROk s, mkFS st' (ma i (fs_ua X)) (mf i (fs_uf X))).
Hypothesis Hbad : forall i x X o st', nth_error items i = Some x -> step x (fs_st X) = (o, st') ->
  (exists er, o = RErr er \/ o = RPanic er) -> item_fails (it (Z.of_nat i + 1) X) o st'.
Hypothesis Hout : forall i X, outside i (List.length items) ->
  it i X = (RErr (EWrap ("error calling #" ++ nm) (EInvalidIndex i)), X).

Let len := Z.of_nat (List.length items).
Let call := join_call rb k jf e fc jn nm sep.
(** The state after [n] items from [from]. *)
Let after (from : Z) (n : nat) (st : store) (X : fstate) : fstate :=
  mkFS st (iter_mark ma (Z.to_nat (from - 1)) n (fs_ua X)) (iter_mark mf (Z.to_nat (from - 1)) n (fs_uf X)).

Let Hff : forall n, In n (fnames [AFunc nm]) -> compat rb e n.
Proof. intros n [<-|[]]. exact Hfn. Qed.
Let Hne : fnames [AFunc nm] <> []. Proof. discriminate. Qed.

Lemma single_range : forall nums from to X ss st', Forall is_num nums ->
  range (map lit_int nums) len from to -> (1 <= from <= to)%Z -> (to <= len)%Z ->
  do_all step (slice from to items) (fs_st X) = (ROk ss, st') ->
  Z.to_nat (to - from + 1) < jf ->
  call nums X = (ROk (str_join sep (nonempty_items ss)), after from (Z.to_nat (to - from + 1)) st' X).
Proof.
  intros nums from to X ss st' Hn Hr H1 H2 Hd Hjf. unfold call, join_call. rewrite eval_join by assumption.
  destruct (parsed_ok _ _ (parsed_func nm Hw)) as (es & Hp & Hl).
  rewrite (join_range A items step ma mf rb (clause_n (S k) rb) jf e fc ("#" ++ nm) es [AFunc nm] Hp Hl Hne Hff)
    with (from := from) (to := to) (ss := ss) (st' := st') (S' := after from (Z.to_nat (to - from + 1)) st' X); auto.
  - intros i x Y s st2 K1 K2. rewrite Hit by exact Hl. eapply Hok; eassumption.
  - set (S1 := mkFS _ _ _).
    assert (En : ends (clause_n (S k) rb) e fc es (len + 1) S1 S1).
    { eexists. rewrite Hit by exact Hl. rewrite Hout by (unfold outside, len; lia). split; reflexivity. }
    destruct (map lit_int nums) as [|a [|b [|c r]]]; try exact En. destruct (0 <? b)%Z; [reflexivity|exact En].
Qed.

Lemma single_none : forall nums X, Forall is_num nums -> items = [] ->
  match map lit_int nums with [] => True | [a] => (a <= 0)%Z | [a; b] => (a <= 0 /\ b <= 0)%Z | _ => False end ->
  0 < jf -> call nums X = (ROk "", X).
Proof.
  intros nums X Hn He Hr Hjf. unfold call, join_call. rewrite eval_join by assumption.
  destruct (parsed_ok _ _ (parsed_func nm Hw)) as (es & Hp & Hl).
  rewrite (join_none A items rb (clause_n (S k) rb) jf e fc ("#" ++ nm) es [AFunc nm] Hp Hl Hne Hff) with (X' := X); auto.
  eexists. rewrite Hit by exact Hl. rewrite Hout by (rewrite He; unfold outside; cbn; lia). split; reflexivity.
Qed.

Lemma single_beyond : forall a b X ss st', is_num a -> is_num b -> let from := Z.max 1 (lit_int a) in
  (from <= len + 1)%Z -> (len < lit_int b)%Z -> (lit_int a <= lit_int b)%Z -> (0 < lit_int b)%Z ->
  do_all step (slice from len items) (fs_st X) = (ROk ss, st') -> Z.to_nat (len - from + 1) < jf ->
  call [a; b] X = (RErr (index_error jn nm (len + 1)), after from (Z.to_nat (len - from + 1)) st' X).
Proof.
  intros a b X ss st' Ha Hb from H1 H2 H3 H4 Hd Hjf. unfold call, join_call. rewrite eval_join by auto.
  destruct (parsed_ok _ _ (parsed_func nm Hw)) as (es & Hp & Hl). cbn [map].
  rewrite (join_beyond A items step ma mf rb (clause_n (S k) rb) jf e fc ("#" ++ nm) es [AFunc nm] Hp Hl Hne Hff)
    with (ss := ss) (st' := st') (X' := after from (Z.to_nat (len - from + 1)) st' X)
      (er := EWrap ("error calling #" ++ nm) (EInvalidIndex (len + 1))); auto.
  - intros i x Y s st2 K1 K2. rewrite Hit by exact Hl. eapply Hok; eassumption.
  - rewrite Hit by exact Hl. rewrite Hout by (unfold outside, len; lia). reflexivity.
Qed.

Lemma single_start_beyond : forall a r X, is_num a -> Forall is_num r -> (len < lit_int a)%Z ->
  match map lit_int r with [] => True | [b] => (b <= 0 \/ lit_int a <= b)%Z | _ => False end -> 0 < jf ->
  call (a :: r) X = (RErr (index_error jn nm (lit_int a)), X).
Proof.
  intros a r X Ha Hr Hl1 Hm Hjf. unfold call, join_call. rewrite eval_join by auto.
  destruct (parsed_ok _ _ (parsed_func nm Hw)) as (es & Hp & Hl). cbn [map].
  rewrite (join_start_beyond A items rb (clause_n (S k) rb) jf e fc ("#" ++ nm) es [AFunc nm] Hp Hl Hne Hff)
    with (X' := X) (er := EWrap ("error calling #" ++ nm) (EInvalidIndex (lit_int a))); auto.
  - unfold len in Hl1. lia.
  - rewrite Hit by exact Hl. rewrite Hout by (unfold outside, len in *; lia). reflexivity.
Qed.

Lemma single_reversed : forall a b X, is_num a -> is_num b -> (0 < lit_int b < lit_int a)%Z ->
  exists er, call [a; b] X = (RErr er, X).
Proof.
  intros a b X Ha Hb H. unfold call, join_call. rewrite eval_join by auto.
  destruct (parsed_ok _ _ (parsed_func nm Hw)) as (es & Hp & Hl). cbn [map].
  rewrite (func_join_eq rb (clause_n (S k) rb) jf e fc ("#" ++ nm) sep [lit_int a; lit_int b] X es [AFunc nm] Hp Hl Hne Hff).
  replace ((0 <? lit_int b) && (lit_int b <? lit_int a))%Z with true by lia. eexists. reflexivity.
Qed.

Lemma single_fails : forall nums from to X o er st', Forall is_num nums ->
  range (map lit_int nums) len from to -> (1 <= from)%Z -> (from <= to)%Z ->
  let hi := Z.min to len in
  do_all step (slice from hi items) (fs_st X) = (o, st') -> o = RErr er \/ o = RPanic er ->
  is_invalid_index er = false -> Z.to_nat (hi - from + 1) < jf ->
  exists er2 X', call nums X = (RErr er2, X') /\ fs_st X' = st' /\ is_invalid_index er2 = false.
Proof.
  intros nums from to X o er st' Hn Hr H1 H2 hi Hd Ho Hv Hjf. unfold call, join_call. rewrite eval_join by assumption.
  destruct (parsed_ok _ _ (parsed_func nm Hw)) as (es & Hp & Hl).
  destruct (join_fails A items step ma mf rb (clause_n (S k) rb) jf e fc ("#" ++ nm) es [AFunc nm] Hp Hl Hne Hff)
    with (sep := sep) (idx := map lit_int nums) (from := from) (to := to) (X := X) (o := o) (er := er) (st' := st')
    as (er2 & X' & E1 & E2 & E3); auto.
  - intros i x Y s st2 K1 K2. rewrite Hit by exact Hl. eapply Hok; eassumption.
  - intros i x Y o2 st2 K1 K2 K3. rewrite Hit by exact Hl. eapply Hbad; eassumption.
  - rewrite E1. eexists _, X'. split; [reflexivity|]. split; [exact E2|exact E3].
Qed.

Lemma single_swallows : forall X pre x post ss st1 o er st2, items = (pre ++ x :: post)%list ->
  do_all step pre (fs_st X) = (ROk ss, st1) -> step x st1 = (o, st2) -> o = RErr er \/ o = RPanic er ->
  is_invalid_index er = true -> List.length items < jf ->
  exists X', call [] X = (ROk (str_join sep (nonempty_items ss)), X') /\ fs_st X' = st2.
Proof.
  intros X pre x post ss st1 o er st2 Hi Hd Hx Ho Hv Hjf. unfold call, join_call. rewrite eval_join by auto.
  destruct (parsed_ok _ _ (parsed_func nm Hw)) as (es & Hp & Hl). cbn [map].
  destruct (join_swallows A items step ma mf rb (clause_n (S k) rb) jf e fc ("#" ++ nm) es [AFunc nm] Hp Hl Hne Hff)
    with (sep := sep) (X := X) (ss := ss) (st1 := st1) (x := x) (o := o) (er := er) (st2 := st2) (post := post) (pre := pre)
    as (X' & E1 & E2); auto.
  - intros i y Y s st3 K1 K2. rewrite Hit by exact Hl. eapply Hok; eassumption.
  - intros i y Y o2 st3 K1 K2 K3. rewrite Hit by exact Hl. eapply Hbad; eassumption.
  - rewrite E1. exists X'. auto.
Qed.
End Single.
