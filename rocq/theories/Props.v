(** Properties shared between fragments, properties.go and property.go, as used
    by the functions of ContextWithFuncs (example_test.go:118-150).  The flag
    "used" of such properties (property.go:16-18) is never read: only a fragment
    context checks it, and only its own properties (context_fragment.go:55-74). *)
From Coq Require Import Strings.String Strings.Ascii NArith ZArith List Bool.
From Verif Require Import GoStr GoNum Syntax Value Util Model Sqlf.
Import ListNotations.
Open Scope string_scope.

(** NewArgsProperties(vs...).Build(ctx, i), properties.go:14-19, 45-51, 60-63 *)
Definition args_build (vs : list value) (i : Z) : prog :=
  match nth1 vs i with
  | None => PRet "" (Some (EInvalidIndex i))
  | Some v => PCommit v (fun s => PRet s None)
  end.
(** NewFragmentProperties(bs...).Build(ctx, i), properties.go:14-19, 34-40 and
    property.go:37-40 *)
Definition frags_build (bs : list builder) (i : Z) : prog :=
  match nth1 bs i with
  | None => PRet "" (Some (EInvalidIndex i))
  | Some b => PBuild [] b (fun r => match r with
                                    | ROk s => PRet s None
                                    | RErr e => PRet "" (Some e)
                                    | RPanic e => PPanicU e
                                    | RFuel => PRet "" None
                                    end)
  end.
(** func(ctx *Context, i int) (string, error) { return props.Build(ctx, i) } *)
Definition props_fn (props : Z -> prog) : func :=
  FnCustom (mkSig [GCtx; GNum] false [GStr false; GError])
    (fun args => match args with [a] => props (lit_int a) | _ => PRet "" None end).
