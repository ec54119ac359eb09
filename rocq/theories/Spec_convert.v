(** What a number given to a function becomes. *)
From Coq Require Import Strings.String ZArith List Bool Floats.SpecFloat.
From Verif Require Import GoStr GoNum Syntax Value Util Model Sqlf Convert.
Import ListNotations.
Local Open Scope Z_scope.

(** [q] is the number [f] without its fraction. *)
Definition whole (f : f64) (q : Z) : Prop :=
  match f with
  | S754_zero _ => q = 0
  | S754_finite s m e => exists a, 0 <= a /\ q = (if s then - a else a) /\
      a * 2 ^ Z.max 0 (- e) <= Zpos m * 2 ^ Z.max 0 e < (a + 1) * 2 ^ Z.max 0 (- e)
  | _ => False
  end.
(** Go's types of integers. *)
Definition integer (k : numkind) : Prop :=
  match k with KInt w | KUint w => In w [8; 16; 32; 64] | _ => False end.
Definition width (k : numkind) : Z := match k with KInt w | KUint w => w | _ => 0 end.
Definition least (k : numkind) : Z := match k with KInt w => - 2 ^ (w - 1) | _ => 0 end.
Definition greatest (k : numkind) : Z := match k with KInt w => 2 ^ (w - 1) - 1 | KUint w => 2 ^ w - 1 | _ => 0 end.
(** The widest type of the same sort. *)
Definition widest (k : numkind) : numkind := match k with KInt _ => KInt 64 | KUint _ => KUint 64 | _ => k end.
(** The integer meant by an argument, before it is fitted into the type. *)
Definition meant (far : f64 -> Z) (k : numkind) (a : lit) (q : Z) : Prop :=
  match a with
  | LInt z => q = z
  | LNum f => (whole f q /\ least (widest k) <= q <= greatest (widest k)) \/
      ((forall z, whole f z -> ~ least (widest k) <= z <= greatest (widest k)) /\ q = far f)
  | _ => False
  end.
(** Fitted into the type: of the numbers of the type, the one that differs from
    the integer by a multiple of the number of its values. *)
Definition fitted (k : numkind) (q x : Z) : Prop :=
  least k <= x <= greatest k /\ exists c, q = x + c * 2 ^ width k.

(** The greatest index that a type can give, as an int. *)
Definition last_index (k : numkind) : Z := Z.min (greatest k) (2 ^ 63 - 1).
(** The items that can be reached through an index of the type. *)
Definition reachable {A} (k : numkind) (items kept : list A) : Prop :=
  exists rest, items = (kept ++ rest)%list /\ Z.of_nat (List.length kept) <= last_index k /\
    (rest = [] \/ Z.of_nat (List.length kept) = last_index k).
(** The texts of items done one after the other. *)
Inductive in_turn {A} (R : A -> store -> string -> store -> Prop) : list A -> store -> list string -> store -> Prop :=
| it_none st : in_turn R [] st [] st
| it_next x l st s st1 ss st2 : R x st s st1 -> in_turn R l st1 ss st2 -> in_turn R (x :: l) st (s :: ss) st2.
