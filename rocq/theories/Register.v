(** Registering the values of a FuncMap (func.go:78-134). *)
From Coq Require Import Strings.String List Bool.
From Verif Require Import GoStr Value Util Model Sqlf.
Import ListNotations.
Open Scope string_scope.

(** A value of a FuncMap (map[string]any): a function or anything else,
    including nil (reflect.ValueOf(fn).Kind() != reflect.Func, func.go:95). *)
Inductive mapval := MFunc (f : func) | MOther.

Definition has_key (nm : string) (out : list (string * func)) : bool := existsb (fun nf => String.eqb nm (fst nf)) out.

(** addValueFuncs, func.go:89-134: [m] lists the entries in the order in which
    the loop visits them, which Go does not fix.  The result is the error, if
    any, and what the map [out] then holds. *)
Fixpoint add_value_funcs (m : list (string * mapval)) (out : list (string * func)) : option err * list (string * func) :=
  match m with
  | [] => (None, out)
  | (nm, v) :: m' =>
    if negb (good_name nm) then (Some (bad_name nm), out) else
    match v with
    | MOther => (Some (EMsg ("value for #" ++ nm ++ " not a function")), out)
    | MFunc f =>
      if has_key nm out then (Some (EMsg ("function #" ++ nm ++ " already defined")), out)
      else if good_sig (sig_of f) then add_value_funcs m' ((nm, f) :: out)
      else (Some (EWrap ("function #" ++ nm) (bad_sig (sig_of f))), out)
    end
  end.

(** createValueFuncs, func.go:78-86: nil on error. *)
Definition create_value_funcs (m : list (string * mapval)) : option err * list (string * func) :=
  match add_value_funcs m [] with
  | (Some e, _) => (Some e, [])
  | r => r
  end.

(** ContextWithFuncs, context_func.go:4-9, contex_with.go:3-8: the new context
    is returned in any case, with the functions added so far. *)
Definition context_with_funcs (e : env) (m : list (string * mapval)) : env * option err :=
  let '(er, fs) := add_value_funcs m [] in (fs :: e, er).
