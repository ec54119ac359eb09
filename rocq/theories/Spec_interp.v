(** Specification vocabulary for interpolating built queries. *)
From Coq Require Import Strings.String Strings.Ascii NArith ZArith List Bool.
From Verif Require Import GoStr GoNum Syntax Value Util Model Sqlf Sqlb Scan Spec_syntax RefSem Spec_eval Spec_util.
Import ListNotations.
Open Scope string_scope.

(** Text without references: plain text, quoted text, doubled markers. *)
Definition passive (s : string) : Prop :=
  exists l, forallb is_inert l = true /\ forallb wf1 l = true /\ print l = s.
(** Placeholders are followed by inert text that does not run into them:
    it begins neither with a digit nor with a question mark, and is empty only
    at the end. *)
Fixpoint apart (l : list (nat * string)) : Prop :=
  match l with
  | [] => True
  | (_, s) :: l' =>
    passive s /\ starts (fun a => Ascii.eqb a "?" || is_digit a) s = false /\ (s = "" -> l' = []) /\ apart l'
  end.
Definition clean_text (t : text) : Prop := passive (fst t) /\ apart (snd t).
(** Values equal in Go have the same literal. *)
Definition literal_by_value (ft : gotime -> string) (vs : list value) : Prop :=
  forall v w s, In v vs -> In w vs -> go_eq v w = true -> literal ft v s -> literal ft w s.
(** SELECT ... FROM a WHERE ... with one argument in each of the two lists. *)
Definition two_args (v w : value) : list qop :=
  [OSelect [BFrag (Fa "$1 AS x" [v])]; OFrom ("a", ""); OWhere (Some (Fa "y=$1" [w]))].
