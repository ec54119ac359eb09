(** Specification vocabulary for the errors of Interpolate: which arguments have
    no literal, and which expressions cannot be replaced. *)
From Coq Require Import Strings.String ZArith NArith List.
From Verif Require Import GoStr GoNum Syntax Value Spec_syntax Spec_pos.
Import ListNotations.
Open Scope string_scope.

(** [v] is of a Go type [ty] that has no literal. *)
Inductive no_kind : value -> string -> Prop :=
| nk_ptr ty a o : no_kind (VPtr ty a o) ty
| nk_struct ty fs : no_kind (VStruct ty fs) ty
| nk_array ty l : no_kind (VArray ty l) ty
| nk_slice ty l : no_kind (VSlice ty l) ty
| nk_opaque ty h id : no_kind (VOpaque ty h id) ty.
(** The argument has no literal, for the reason [e]: its Value method returns
    the error [e], or [e] names the type that has no literal. *)
Inductive no_literal : value -> err -> Prop :=
| nl_kind v ty : no_kind v ty -> no_literal v (EMsg ("unsupported type " ++ ty))
| nl_error ty r e : no_literal (VValuer ty r (inl (inr e))) e
| nl_value ty r w e : no_literal w e -> no_literal (VValuer ty r (inl (inl w))) e.

(** Line and column in decimal notation. *)
Definition place_text (p : pos) : string := dec (p_line p) ++ ":" ++ dec (p_col p).
(** A function. *)
Inductive function : aexpr -> Prop :=
| fn_call nm la : function (ACall nm la)
| fn_func nm : function (AFunc nm).
(** The expression, written after [before], cannot be replaced, for the reason [e]. *)
Inductive refuses (args : list value) (before : string) : aexpr -> err -> Prop :=
| rf_function x : function x -> refuses args before x (EMsg (place_text (place before) ++ ": unsupported declaration"))
| rf_bind sty k v e : (1 <= k)%Z -> nth_error args (Z.to_nat (k - 1)) = Some v -> no_literal v e ->
    refuses args before (ABind sty k) e.
