(** What can be registered. *)
From Coq Require Import Strings.String Strings.Ascii NArith List Bool.
From Verif Require Import Value Model Sqlf Register Spec_eval Spec_base Spec_blame Spec_utf8 Spec_quote.
Import ListNotations.
Open Scope string_scope.

Definition registrable_value (x : string * mapval) : Prop :=
  match snd x with MFunc f => registrable (fst x, f) | MOther => False end.
(** The function a map holds under a name. *)
Definition holds (m : list (string * mapval)) (nm : string) (f : func) : Prop := In (nm, MFunc f) m.
(** [mistake x m]: [m] says what is wrong with the entry [x]. *)
Inductive mistake : string * mapval -> string -> Prop :=
| mk_name nm v q : ~ identifier nm -> quoted nm q ->
    mistake (nm, v) ("function name " ++ q ++ " is not a valid identifier, only letters and underscore are allowed")
| mk_value nm : mistake (nm, MOther) ("value for #" ++ nm ++ " not a function")
| mk_results nm f : ~ results_ok f ->
    mistake (nm, MFunc f) ("function #" ++ nm ++ ": invalid signature, expected func(...) (string, error); func(...) string; func(...);")
| mk_param nm f a t b : params f = (a ++ t :: b)%list -> Forall plain_param a -> ~ plain_param t ->
    mistake (nm, MFunc f) ("function #" ++ nm ++ ": unsupported argument type '" ++ type_label t
      ++ "', allowed: number(int*, uint*, float*), string, bool, *sqlf.Context(as the first argument only)").
