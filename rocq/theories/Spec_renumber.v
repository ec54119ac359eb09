(** Vocabulary for changing the order of the arguments and fragments of a
    fragment together with the numbers in its template. *)
From Coq Require Import Strings.String NArith ZArith List.
From Verif Require Import GoStr GoNum Syntax Value Model Sqlf Spec_syntax Spec_eval.
Import ListNotations.
Open Scope string_scope.

(** Number [i] of [l], counted from 1, is [x]. *)
Definition item {A} (l : list A) (i : Z) (x : A) : Prop := (1 <= i)%Z /\ nth_error l (Z.to_nat (i - 1)) = Some x.
(** Number [i] of [l] is number [f i] of [l'], and there is nothing else in [l']. *)
Definition renumbers {A} (f : Z -> Z) (l l' : list A) : Prop :=
  (forall i x, item l i x -> item l' (f i) x) /\ (forall j x, item l' j x -> exists i, item l i x /\ f i = j).
(** ... and different numbers stay different; what is no number of an item of [l]
    does not become one of [l']. *)
Definition permutes {A} (f : Z -> Z) (l l' : list A) : Prop :=
  renumbers f l l' /\ (forall i j x y, item l i x -> item l j y -> f i = f j -> i = j) /\
  (forall i x, item l' (f i) x -> item l i x).

(** The same part of a template with the numbers changed: [f] for arguments, [g]
    for fragments.  #join is not such a part. *)
Inductive renumbered (e : env) (f g : Z -> Z) : aexpr -> aexpr -> Prop :=
| rn_text t : renumbered e f g (APlain t) (APlain t)
| rn_bind st st' i : renumbered e f g (ABind st i) (ABind st' (f i))
| rn_arg nm nm' x x' : lookup_fn e nm = Some FnArg -> lookup_fn e nm' = Some FnArg -> is_num x -> is_num x' ->
    lit_int x' = f (lit_int x) -> renumbered e f g (ACall nm [x]) (ACall nm' [x'])
| rn_frag nm nm' x x' : lookup_fn e nm = Some FnFragment -> lookup_fn e nm' = Some FnFragment -> is_num x -> is_num x' ->
    lit_int x' = g (lit_int x) -> renumbered e f g (ACall nm [x]) (ACall nm' [x'])
| rn_custom nm a sg body : lookup_fn e nm = Some (FnCustom sg body) -> renumbered e f g (ACall nm a) (ACall nm a)
| rn_unknown nm a : lookup_fn e nm = None -> renumbered e f g (ACall nm a) (ACall nm a)
| rn_value nm : renumbered e f g (AFunc nm) (AFunc nm).
