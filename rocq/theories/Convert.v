(** Number parameters of user functions: evalArg, func_exec.go:114-119, converts a
    number to the type of the parameter with reflect.Value.Convert (code of the
    Go standard library: cvtInt, cvtIntFloat, cvtFloatInt, cvtFloatUint, cvtFloat,
    makeInt, makeFloat). *)
From Coq Require Import Strings.String ZArith List Bool Floats.SpecFloat.
From Verif Require Import GoStr GoNum Syntax Value Util Model Sqlf Props.
Import ListNotations.
Open Scope string_scope.

(** The number types of func.go:188-196 by their kinds; int and uint have 64 bits. *)
Inductive numkind := KInt (bits : Z) | KUint (bits : Z) | KFloat32 | KFloat64.
(** Numbers of these types; those of float32 are given as float64. *)
Inductive gonum := NInt (z : Z) | NFloat (f : f64).

(** makeInt: the lowest bits. *)
Definition low_bits (k : numkind) (z : Z) : Z :=
  match k with
  | KInt w => let m := (z mod 2 ^ w)%Z in if (m <? 2 ^ (w - 1))%Z then m else (m - 2 ^ w)%Z
  | KUint w => (z mod 2 ^ w)%Z
  | _ => z
  end.
(** float32(f) and float64(z), rounding to nearest even. *)
Definition round32 (f : f64) : f64 :=
  match f with S754_finite s m e => binary_normalize 24 128 (if s then Zneg m else Zpos m) e s | _ => f end.
Definition float_of_int (z : Z) : f64 := binary_normalize 53 1024 z 0 false.
(** int64(f) and uint64(f).  What comes out for a float outside the range depends
    on the machine: [far]. *)
Definition whole_part (far : f64 -> Z) (lo hi : Z) (f : f64) : Z :=
  match trunc_float f with
  | Some z => if (lo <=? z)%Z && (z <=? hi)%Z then z else far f
  | None => far f
  end.
(** reflect.ValueOf(arg).Convert(typ) for the numbers of templates (float64) and
    the numbers of #join (int). *)
Definition convert (far : f64 -> Z) (k : numkind) (a : lit) : gonum :=
  match a, k with
  | LNum f, KInt _ => NInt (low_bits k (whole_part far (- 2 ^ 63) (2 ^ 63 - 1) f))
  | LNum f, KUint _ => NInt (low_bits k (whole_part far 0 (2 ^ 64 - 1) f))
  | LNum f, KFloat32 => NFloat (round32 f)
  | LNum f, KFloat64 => NFloat f
  | LInt z, (KInt _ | KUint _) => NInt (low_bits k z)
  | LInt z, KFloat32 => NFloat (round32 (float_of_int z))
  | LInt z, KFloat64 => NFloat (float_of_int z)
  | _, _ => NInt 0
  end.

(** func(ctx *Context, x T) (string, error), T being a type of the kind [k]. *)
Definition number_fn (far : f64 -> Z) (k : numkind) (body : gonum -> prog) : func :=
  FnCustom (mkSig [GCtx; GNum] false [GStr false; GError])
    (fun args => match args with [a] => body (convert far k a) | _ => PRet "" None end).
(** func(ctx *Context, i T) (string, error) { return props.Build(ctx, int(i)) } for
    a type T of integers. *)
Definition indexed_fn (far : f64 -> Z) (k : numkind) (props : Z -> prog) : func :=
  number_fn far k (fun x => match x with NInt z => props (low_bits (KInt 64) z) | NFloat f => props (whole_part far (- 2 ^ 63) (2 ^ 63 - 1) f) end).
