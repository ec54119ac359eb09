(** Exchanging builders that cannot be told apart. *)
From Coq Require Import Strings.String Strings.Ascii NArith ZArith List Bool.
From Verif Require Import GoStr GoNum Syntax Value Util Model Sqlf Sqlb Spec_syntax Spec_swap Fuel_proofs Swap_proofs Swap2_proofs.
Import ListNotations.
Open Scope string_scope.

(** C79: exchanging such builders anywhere in a fragment gives a fragment that
    cannot be told apart from the first. *)
Theorem c79_replace : forall (P : builder -> builder -> Prop) b b', (forall a a', P a a' -> same a a') -> swap P b b' -> same b b'.
Proof. exact replace. Qed.
Print Assumptions c79_replace.
(** Exchanging them inside query builders too, if they name the same tables. *)
Theorem c79_query : forall (P : builder -> builder -> Prop) style h h' b b' r, (forall a a', P a a' -> same a a' /\ same_names a a') ->
  Forall2 (swap_query P) h h' -> swap P b b' -> r <> RFuel ->
  (exists n, fst (build_query n style h b) = r) <-> (exists n, fst (build_query n style h' b') = r).
Proof. exact replace_query. Qed.
Print Assumptions c79_query.
(** Calls that differ only so make query builders that differ only so. *)
Theorem c79_calls : forall (P : builder -> builder -> Prop) os os' q, Forall2 (swap_op P) os os' -> apply_ops os new_qb = ROk q ->
  exists q', apply_ops os' new_qb = ROk q' /\ swap_query P q q'.
Proof. exact (fun P os os' q H => qswap_ops P os os' new_qb new_qb q H (q_refl P new_qb)). Qed.
Print Assumptions c79_calls.
(** The names matter: a column and its text are built alike, but only the column
    keeps an optional join of a DISTINCT query. *)
Theorem c79_names_refuted : let a := column "b" "x" in let a' := BFrag (F "b.x") in
  same a a' /\
  exists q q', swap_query (fun x y => x = a /\ y = a') q q' /\
    fst (build_query 40 style_question [q] (BQuery (Some 0))) = ROk ("SELECT DISTINCT b.x FROM a LEFT JOIN b ON a.id=b.id", []) /\
    fst (build_query 40 style_question [q'] (BQuery (Some 0))) = ROk ("SELECT DISTINCT b.x FROM a", []).
Proof.
  intros a a'. apply conj; [eapply same_fixed; [apply fx_expr|apply (fx_frag "b.x")]; reflexivity|].
  pose (on := Some (Ff "#f1=#f2" [column "a" "id"; column "b" "id"])).
  pose (os := fun c => [OSelect [c]; ODistinct; OFrom ("a", ""); OLeftJoinOptional ("b", "") on]).
  destruct (qswap_ops (fun x y => x = a /\ y = a') (os a) (os a') new_qb new_qb (match apply_ops (os a) new_qb with ROk q => q | _ => new_qb end)) as (q' & E & H).
  - repeat apply Forall2_cons; try apply so_same; [|apply Forall2_nil]. apply so_select. repeat constructor.
  - apply q_refl.
  - reflexivity.
  - eexists. exists q'. apply conj; [exact H|]. vm_compute in E. injection E as <-. apply conj; vm_compute; reflexivity.
Qed.
Print Assumptions c79_names_refuted.
(** Templates that differ only in how they are written give results that differ
    at most in the texts of errors. *)
Theorem c79_template : forall raw raw' args l p s t, same_template raw raw' ->
  alike (BFrag (Frag raw args l p s)) (BFrag (Frag raw' args l p s)) /\ same_names (BFrag (Frag raw args l p s)) (BFrag (Frag raw' args l p s)) /\
  alike (BCol (Some (Frag raw args l p s)) t) (BCol (Some (Frag raw' args l p s)) t) /\ same_names (BCol (Some (Frag raw args l p s)) t) (BCol (Some (Frag raw' args l p s)) t).
Proof. exact like_templates. Qed.
Print Assumptions c79_template.
(** They can be told apart by the texts of errors, which quote the template. *)
Theorem c79_template_refuted : same_template "?" "$1" /\ ~ same (BFrag (F "?")) (BFrag (F "$1")).
Proof.
  apply conj; [eexists; eexists; repeat apply conj; vm_compute; reflexivity|].
  intro H. destruct (proj1 (H [builtins] (new_store style_question []) (build 5 [builtins] (BFrag (F "?")) (new_store style_question [])) ltac:(vm_compute; discriminate)) (ex_intro _ 5 eq_refl)) as [n E].
  destruct (mono_build n (Nat.max n 5) [builtins] (BFrag (F "$1")) (new_store style_question []) (Nat.le_max_l n 5)) as [K|K]; [rewrite E in K; vm_compute in K; discriminate K|].
  destruct (mono_build 5 (Nat.max n 5) [builtins] (BFrag (F "$1")) (new_store style_question []) (Nat.le_max_r n 5)) as [K'|K']; [vm_compute in K'; discriminate K'|].
  assert (Z : build 5 [builtins] (BFrag (F "?")) (new_store style_question []) = build 5 [builtins] (BFrag (F "$1")) (new_store style_question [])) by congruence.
  vm_compute in Z. discriminate Z.
Qed.
Print Assumptions c79_template_refuted.
(** A user builder that hands on what another builder gives. *)
Theorem c79_wrapped : forall b, same (wrapped b) b.
Proof. exact same_wrapped. Qed.
Print Assumptions c79_wrapped.
(** A column and its expression. *)
Theorem c79_column : forall f t, same (BCol (Some f) t) (BFrag f).
Proof. exact same_column. Qed.
Print Assumptions c79_column.
(** Builders of the same fixed text. *)
Theorem c79_text : forall b b' s, fixed b s -> fixed b' s -> same b b'.
Proof. exact same_fixed. Qed.
Print Assumptions c79_text.
Example c79_example :
  let a := BFrag (Fa "x=? AND y=?" [VInt "int" 1; VInt "int" 2]) in
  let a1 := BFrag (Fa "x=$1 AND y=$2" [VInt "int" 1; VInt "int" 2]) in
  let top := fun b => BFrag (Ff "SELECT * FROM t WHERE #join('#f', ' OR ')" [b; BFrag (Ff "NOT (#f1)" [b])]) in
  same_template "x=? AND y=?" "x=$1 AND y=$2" /\ ~ same_template "x=? AND y=?" "x=$1 AND y=#a2" /\ same_template "#f1" "#f(1)" /\
  swap (fun x y => x = a /\ y = a1) (top a) (top a1) /\ top a <> top a1 /\ same (top a) (top (wrapped a)) /\ alike a a1 /\ same (BTable "") (BFrag (F " ")) /\
  fst (build_query 40 style_dollar [] (top a)) = ROk ("SELECT * FROM t WHERE x=$1 AND y=$2 OR NOT (x=$1 AND y=$2)", [VInt "int" 1; VInt "int" 2]) /\
  fst (build_query 40 style_dollar [] (top (wrapped a1))) = fst (build_query 40 style_dollar [] (top a)).
Proof.
  intros a a1 top.
  assert (T : same_template "x=? AND y=?" "x=$1 AND y=$2") by (eexists; eexists; repeat apply conj; vm_compute; reflexivity).
  assert (W : forall P : builder -> builder -> Prop, forall x y, P x y -> swap P (top x) (top y)).
  { intros P x y K. apply sw_frag. apply Forall2_cons; [apply sw_pair; exact K|apply Forall2_cons; [|apply Forall2_nil]].
    apply sw_frag. apply Forall2_cons; [apply sw_pair; exact K|apply Forall2_nil]. }
  apply conj; [exact T|]. apply conj.
  { intros (l & l' & E & E' & M). vm_compute in E, E'. injection E as <-. injection E' as <-. discriminate M. }
  apply conj; [eexists; eexists; repeat apply conj; vm_compute; reflexivity|].
  apply conj; [apply W; split; reflexivity|]. apply conj; [discriminate|].
  apply conj.
  { apply (replace (fun x y => x = a /\ y = wrapped a)); [|apply W; split; reflexivity]. intros x y [-> ->]. apply same_sym, same_wrapped. }
  apply conj; [apply (like_templates _ _ [VInt "int" 1; VInt "int" 2] [] "" "" "" T)|].
  apply conj; [apply (same_fixed _ _ ""); [apply fx_table|apply (fx_frag " "); reflexivity]|].
  apply conj; vm_compute; reflexivity.
Qed.
