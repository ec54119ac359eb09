(** Model of package sqlf: contexts, argument store, preprocessing functions,
    fragment building (the .go files in /repo). *)
From Coq Require Import Strings.String Strings.Ascii NArith ZArith List Bool.
From Verif Require Import GoStr GoNum Letters Quote Syntax Value Util Model.
Import ListNotations.
Open Scope string_scope.

(* ------------------------------------------------------------------ *)
(** * Argument stores, context_args.go *)

(** Lookup in map[any]int. *)
Fixpoint dict_find (v : value) (d : list (value * nat)) : option nat :=
  match d with
  | [] => None
  | (w, i) :: d' => if go_eq v w then Some i else dict_find v d'
  end.

(** Context.CommitArg, context_args.go:16-18 (every context of a build has the
    same root, contex_with.go:21-27, hence the same store):
    dollarArgStore.CommitArg context_args.go:57-65 and
    questionArgStore.CommitArg context_args.go:37-40.  Using an unhashable value
    as a map key is a run-time panic. *)
Definition commit (v : value) (st : store) : outcome string * store :=
  if st_dollar st then
    if hashable v then
      match dict_find v (st_dict st) with
      | Some i => (ROk ("$" ++ itoa_nat i), st)
      | None =>
        let i := S (List.length (st_args st)) in
        (ROk ("$" ++ itoa_nat i),
         mkStore true (st_args st ++ [v])%list ((v, i) :: st_dict st) (st_heap st))
      end
    else (RPanic (EMsg "runtime error: hash of unhashable type"), st)
  else (ROk "?", mkStore false (st_args st ++ [v])%list (st_dict st) (st_heap st)).

(* ------------------------------------------------------------------ *)
(** * Registering functions, func.go *)

(** unicode.IsLetter; the table is that of Unicode 15.0, see Letters.v. *)
Definition unicode_letter (r : N) : bool := existsb (fun x => in_range r (fst x) (snd x)) letter_ranges.

Fixpoint good_name_f (fuel : nat) (s : string) : bool :=
  match fuel, s with
  | _, "" => true
  | O, _ => false
  | S n, _ =>
    let '(r, w) := decode_rune s in
    (N.eqb r 95 || unicode_letter r) && good_name_f n (str_drop w s)
  end.
(** goodName, func.go:137-147 *)
Definition good_name (s : string) : bool :=
  negb (is_empty s) && good_name_f (String.length s) s.

(** inContextFirst, func.go:111 *)
Definition ctx_first (s : fsig) : bool :=
  match fs_ins s with
  | GCtx :: [] => negb (fs_variadic s)
  | GCtx :: _ => true
  | _ => false
  end.

(** Parameters other than the leading *Context. *)
Definition user_ins (s : fsig) : list gotype := if ctx_first s then tl (fs_ins s) else fs_ins s.

(** goodArgType, func.go:183-196 *)
Definition good_arg_type (t : gotype) : bool :=
  match t with GNum | GStr _ | GBool _ => true | _ => false end.

(** goodFunc, func.go:150-181 *)
Definition good_outs (l : list gotype) : bool :=
  match l with
  | [] => true
  | [GStr false] => true
  | [GStr false; GError] => true
  | _ => false
  end.
Definition good_sig (s : fsig) : bool := good_outs (fs_outs s) && forallb good_arg_type (user_ins s).

Definition sig_of (f : func) : fsig :=
  match f with
  | FnArg | FnFragment => mkSig [GCtx; GNum] false [GStr false; GError]
  | FnJoin => mkSig [GCtx; GStr false; GStr false; GNum] true [GStr false; GError]
  | FnCustom s _ => s
  end.

(** reflect.Type.String.  Simplification: the kind instead of the name of the
    type for numbers and defined types. *)
Definition type_text (t : gotype) : string :=
  match t with
  | GNum => "number" | GStr _ => "string" | GBool _ => "bool"
  | GCtx => "*sqlf.Context" | GError => "error" | GOther => "other"
  end.
(** func.go:92 *)
Definition bad_name (nm : string) : err :=
  EMsg ("function name " ++ quote nm ++ " is not a valid identifier, only letters and underscore are allowed").
(** goodFunc's errors, func.go:151, 176: the results are checked first, then the
    first parameter that is not supported is named (here by its kind). *)
Definition bad_sig (s : fsig) : err :=
  if good_outs (fs_outs s) then
    match find (fun t => negb (good_arg_type t)) (user_ins s) with
    | Some t => EMsg ("unsupported argument type '" ++ type_text t ++ "', allowed: number(int*, uint*, float*), string, bool, *sqlf.Context(as the first argument only)")
    | None => EMsg ""
    end
  else EMsg "invalid signature, expected func(...) (string, error); func(...) string; func(...);".
(** addValueFuncs, func.go:89-134, for a FuncMap (distinct keys) of functions,
    visited in the order of the list. *)
Fixpoint check_funcs (fs : list (string * func)) : option err :=
  match fs with
  | [] => None
  | (nm, f) :: fs' =>
    if negb (good_name nm) then Some (bad_name nm)
    else if good_sig (sig_of f) then check_funcs fs'
    else Some (EWrap ("function #" ++ nm) (bad_sig (sig_of f)))
  end.

(* ------------------------------------------------------------------ *)
(** * Calling functions, func_exec.go *)

(** evalArg, func_exec.go:108-142.  A number literal is converted with
    reflect.Value.Convert, which panics for string and bool parameters; this
    happens outside safeCall.  (A Go int, which only arises from #join's index
    and is only passed to number parameters, would convert to string; modelled
    as a panic, unreachable.) *)
Definition lit_text (a : lit) : string :=
  match a with LNum _ | LInt _ => "number" | LStr _ => "string" | LBool _ => "bool" | LNil => "nil" end.
Definition eval_arg (t : gotype) (a : lit) : outcome lit :=
  match a, t with
  | (LNum _ | LInt _), GNum => ROk a
  | (LNum _ | LInt _), _ => RPanic (EMsg "reflect.Value.Convert: value of type float64 cannot be converted")
  | LBool _, GBool _ => ROk a
  | LStr _, GStr _ => ROk a
  | _, _ => RErr (EMsg ("can't assign " ++ lit_text a ++ " to " ++ type_text t))
  end.

(** Does reflect.Value.Call reject the already evaluated argument (plain string
    or bool passed to a defined type)? *)
Definition call_rejects (t : gotype) (a : lit) : bool :=
  match a, t with
  | LStr _, GStr true | LBool _, GBool true => true
  | _, _ => false
  end.

(** Types expected for the user arguments when [n] are given: fixed parameters,
    then the variadic element type repeated. *)
Definition arg_types (s : fsig) (n : nat) : list gotype :=
  if fs_variadic s
  then let fixed := removelast (user_ins s) in
       (fixed ++ repeat (last (user_ins s) GOther) (n - List.length fixed))%list
  else user_ins s.

(** Arity check, func_exec.go:17-31 *)
Definition arity_ok (s : fsig) (n : nat) : bool :=
  if fs_variadic s then Nat.leb (List.length (user_ins s) - 1) n
  else Nat.eqb n (List.length (user_ins s)).

Fixpoint eval_args (ts : list gotype) (args : list lit) : outcome unit :=
  match ts, args with
  | t :: ts', a :: args' =>
    match eval_arg t a with
    | ROk _ => eval_args ts' args'
    | RErr e => RErr e
    | RPanic e => RPanic e
    | RFuel => RFuel
    end
  | _, _ => ROk tt
  end.

(** The number of the first argument that is not accepted (from 0). *)
Fixpoint bad_arg (ts : list gotype) (args : list lit) : nat :=
  match ts, args with
  | t :: ts', a :: args' =>
    match eval_arg t a with ROk _ => S (bad_arg ts' args') | _ => 0 end
  | _, _ => 0
  end.
(** The error of an argument, func_exec.go:52, 61: the arguments are counted
    from 0, and the context, if it is the first parameter, counts as well. *)
Definition wrong_type (name : string) (s : fsig) (ts : list gotype) (args : list lit) (e : err) : err :=
  EWrap ("arg " ++ itoa_nat (List.length (fs_ins s) - List.length (user_ins s) + bad_arg ts args)
         ++ " has wrong type for #" ++ name) e.
(** func_exec.go:27, 30 *)
Definition wrong_number (name : string) (s : fsig) (n : nat) : err :=
  EMsg ("wrong number of args for #" ++ name ++ ": want "
        ++ (if fs_variadic s then "at least " ++ itoa_nat (List.length (user_ins s) - 1)
            else itoa_nat (List.length (user_ins s)))
        ++ " got " ++ itoa_nat n).
(** func_exec.go:11 *)
Definition not_defined (name : string) : err := EMsg (quote name ++ " is not a defined function").

Fixpoint any_rejected (ts : list gotype) (args : list lit) : bool :=
  match ts, args with
  | t :: ts', a :: args' => call_rejects t a || any_rejected ts' args'
  | _, _ => false
  end.

(** The value of a number literal converted to int (reflect.Convert). *)
Definition lit_int (a : lit) : Z :=
  match a with LNum f => int_of_float f | LInt z => z | _ => 0%Z end.

(** safeCall + the wrapping in evalCall, func_exec.go:65-106: panics become
    errors, errors are wrapped with "error calling #name". *)
Definition safe {S} (name : string) (r : outcome string * S) : outcome string * S :=
  match r with
  | (RErr e, s) => (RErr (EWrap ("error calling #" ++ name) e), s)
  | (RPanic e, s) => (RErr (EWrap ("error calling #" ++ name) e), s)
  | _ => r
  end.

(** Results of a function with fewer results than (string, error),
    func_exec.go:86-94. *)
Definition norm_outs (outs : list gotype) (r : outcome string) : outcome string :=
  match outs, r with
  | [], ROk _ => ROk ""
  | [], RErr _ => ROk ""
  | [_], RErr _ => ROk ""
  | _, _ => r
  end.

(* ------------------------------------------------------------------ *)
(** * User code *)

(** Interaction of user code with the library.  [rb e b st] builds [b] with the
    context [e].  Args, context_args.go:8-10; ContextWithFuncs,
    context_func.go:4-9; NewContext, context.go:18-27. *)
Fixpoint run_prog (rb : env -> builder -> store -> outcome string * store)
  (e : env) (p : prog) (st : store) {struct p} : outcome string * store :=
  match p with
  | PRet s None => (ROk s, st)
  | PRet _ (Some er) => (RErr er, st)
  | PPanicU er => (RPanic er, st)
  | PCommit v k =>
    match commit v st with
    | (ROk s, st') => run_prog rb e (k s) st'
    | (RErr er, st') => (RErr er, st')
    | (RPanic er, st') => (RPanic er, st')
    | (RFuel, st') => (RFuel, st')
    end
  | PArgs k => run_prog rb e (k (st_args st)) st
  | PBuild fs b k =>
    match check_funcs fs with
    | Some er => run_prog rb e (k (RErr er)) st
    | None =>
      let '(r, st') := rb (match fs with [] => e | _ => fs :: e end) b st in
      match r with
      | RFuel => (RFuel, st')
      | _ => run_prog rb e (k r) st'
      end
    end
  | PTry p k =>
    let '(r, st') := run_prog rb e p st in
    match r with
    | RFuel => (RFuel, st')
    | _ => run_prog rb e (k r) st'
    end
  | PFresh style p k =>
    let '(r, st') := run_prog rb [builtins] p (new_store style (st_heap st)) in
    let st'' := set_heap st (st_heap st') in
    match r with
    | RFuel => (RFuel, st'')
    | ROk s => run_prog rb e (k (ROk (s, st_args st'))) st''
    | RErr er => run_prog rb e (k (RErr er)) st''
    | RPanic er => run_prog rb e (k (RPanic er)) st''
    end
  end.

(* ------------------------------------------------------------------ *)
(** * Building a clause, build.go:72-104 *)

(** FragmentContext (context_fragment.go:37-52), found through the context by
    fragment and mustFragment (context_fragment.go:13-25), set by
    contextWithFragment (context_fragment.go:28-34): the arguments and fragments of
    the fragment being built, and which of them have been used
    (property.go:14-40). *)
Record frame := mkFrame { fr_args : list value; fr_frags : list builder }.
Record fstate := mkFS { fs_st : store; fs_ua : list bool; fs_uf : list bool }.

(** Set flag [i] (0-based). *)
Fixpoint mark (i : nat) (l : list bool) : list bool :=
  match l, i with
  | [], _ => []
  | _ :: l', O => true :: l'
  | b :: l', S i' => b :: mark i' l'
  end.

(** Properties.Build's range check, properties.go:15: 1 <= i <= len. *)
Definition nth1 {A} (l : list A) (i : Z) : option A :=
  if (1 <=? i)%Z && (i <=? Z.of_nat (List.length l))%Z
  then nth_error l (Z.to_nat (i - 1)) else None.

(** funcArg, func_builtin.go:97-103 via properties.go:14-19, 60-63 *)
Definition func_arg (fc : frame) (i : Z) (S : fstate) : outcome string * fstate :=
  match nth1 (fr_args fc) i with
  | None => (RErr (EInvalidIndex i), S)
  | Some v =>
    let '(r, st') := commit v (fs_st S) in
    (r, mkFS st' (mark (Z.to_nat (i - 1)) (fs_ua S)) (fs_uf S))
  end.

Section Clause.
(** [rb]: build a child builder; [rc]: build a clause (join template) in the
    current frame; [jf]: fuel for the iterations of one #join. *)
Variable rb : env -> builder -> store -> outcome string * store.
Variable rc : env -> frame -> list expr -> fstate -> outcome string * fstate.
Variable jf : nat.

(** funcFragment, func_builtin.go:105-111 *)
Definition func_fragment (e : env) (fc : frame) (i : Z) (S : fstate) : outcome string * fstate :=
  match nth1 (fr_frags fc) i with
  | None => (RErr (EInvalidIndex i), S)
  | Some b =>
    let '(r, st') := rb e b (fs_st S) in
    (r, mkFS st' (fs_ua S) (mark (Z.to_nat (i - 1)) (fs_uf S)))
  end.

(** joinCompatibility, func.go:198-234: the signature must be
    func([ctx,] number) (string, error) and the call with index 0, in a fresh
    Question context without functions and fragments, must report
    ErrInvalidIndex.  The outcome is cached per function in the code
    (func.go:69-76); here it is recomputed, which gives the same result for
    functions that build no query builders (c34_cached). *)
Definition join_sig (s : fsig) : bool :=
  match fs_outs s with [_; GError] => true | _ => false end &&
  match fs_ins s with
  | [GNum] => true
  | [GCtx; GNum] => true
  | _ => false
  end.
(** func_builtin.go:53 with func.go:199 or func.go:231 *)
Definition incompatible (name : string) (f : func) : err :=
  EWrap ("function #" ++ name ++ " is incompatible with #join")
    (EMsg (if join_sig (sig_of f) then "not reports ErrInvalidIndex"
           else "incompatible function signature, expected func(<number>) (string, error) or func(*sqlf.Context, <number>) (string, error)")).
Definition join_compat (name : string) (f : func) (st : store) : bool * bool * store :=
  (* (compatible, out of fuel, store) *)
  if negb (join_sig (sig_of f)) then (false, false, st)
  else match f with
  | FnArg | FnFragment | FnJoin => (true, false, st)
  | FnCustom sg body =>
    let '(r, st') := run_prog rb [[]] (body [LInt 0]) (new_store style_question (st_heap st)) in
    let st'' := set_heap st (st_heap st') in
    match fst (safe name (norm_outs (fs_outs sg) r, tt)) with
    | RErr er => (is_invalid_index er, false, st'')
    | RFuel => (false, true, st'')
    | _ => (false, false, st'')
    end
  end.

(** The template functions of a #join, func_builtin.go:43-60: every function
    value must exist and be compatible; returns their number. *)
Fixpoint join_prep (e : env) (es : list expr) (st : store) : outcome nat * store :=
  match es with
  | [] => (ROk 0, st)
  | EFunc name _ :: es' =>
    match lookup_fn e name with
    | None => (RErr (EMsg ("unknown function #" ++ name)), st)
    | Some f =>
      match join_compat name f st with
      | (true, _, st') =>
        match join_prep e es' st' with
        | (ROk k, st2) => (ROk (S k), st2)
        | r => r
        end
      | (false, true, st') => (RFuel, st')
      | (false, false, st') => (RErr (incompatible name f), st')
      end
    end
  | _ :: es' => join_prep e es' st
  end.

(** The template with every function value turned into a call with index [i],
    func_builtin.go:55-59, 69-71. *)
Definition set_index (i : Z) (es : list expr) : list expr :=
  map (fun x => match x with EFunc name p => ECall name [LInt i] p | _ => x end) es.

(** The loop of funcJoin, func_builtin.go:68-94. *)
Fixpoint join_loop (n : nat) (e : env) (fc : frame) (es : list expr) (sep : string)
  (from to i : Z) (acc : string) (S : fstate) : outcome string * fstate :=
  match n with
  | O => (RFuel, S)
  | Datatypes.S n' =>
    match rc e fc (set_index i es) S with
    | (RErr er, S') =>
      if is_invalid_index er then
        if ((0 <? from)%Z && (i =? from)%Z) || ((0 <? to)%Z && (i <=? to)%Z)
        then (RErr er, S') else (ROk acc, S')
      else (RErr er, S')
    | (ROk s, S') =>
      let acc' := if is_empty s then acc
                  else if is_empty acc then s else acc ++ sep ++ s in
      if (0 <? to)%Z && (to <=? i)%Z then (ROk acc', S')
      else join_loop n' e fc es sep from to (i + 1)%Z acc' S'
    | (RPanic er, S') => (RPanic er, S')
    | (RFuel, S') => (RFuel, S')
    end
  end.

(** The messages of funcJoin, func_builtin.go:29-32, 35, 39, 62 *)
Definition too_many (n : nat) : err := EMsg ("too many args for #join: want 2-4 got " ++ itoa_nat (n + 2)).
Definition bad_range (from to : Z) : err := EMsg ("invalid index range " ++ itoa from ++ " to " ++ itoa to).
Definition bad_template (tmpl : string) (off : nat) (m : string) : err :=
  EWrap ("parse join template '" ++ tmpl ++ "'") (EMsg (syntax_text off m)).
Definition no_function (tmpl : string) : err :=
  EMsg ("no function in join template '" ++ tmpl ++ "' (e.g.: #f, not #f1)").

(** funcJoin, func_builtin.go:18-95 *)
Definition func_join (e : env) (fc : frame) (tmpl sep : string) (idx : list Z) (S : fstate)
  : outcome string * fstate :=
  let go (from to : Z) :=
    if (0 <? to)%Z && (to <? from)%Z then (RErr (bad_range from to), S) else
    match parse tmpl with
    | PErr o m => (RErr (bad_template tmpl o m), S)
    | PPanic => (RPanic index_range, S)
    | PFuel => (RFuel, S)
    | POk es =>
      let '(r, st') := join_prep e es (fs_st S) in
      let S' := mkFS st' (fs_ua S) (fs_uf S) in
      match r with
      | ROk O => (RErr (no_function tmpl), S')
      | ROk _ => join_loop jf e fc es sep from to (if (from <=? 0)%Z then 1%Z else from) "" S'
      | RErr er => (RErr er, S')
      | RPanic er => (RPanic er, S')
      | RFuel => (RFuel, S')
      end
    end in
  match idx with
  | [] => go 0%Z 0%Z
  | [a] => go a 0%Z
  | [a; b] => go a b
  | _ => (RErr (too_many (List.length idx)), S)
  end.

(** The function body, called with already checked arguments. *)
Definition call_fn (e : env) (fc : frame) (f : func) (args : list lit) (S : fstate)
  : outcome string * fstate :=
  match f with
  | FnArg => func_arg fc (match args with a :: _ => lit_int a | [] => 0%Z end) S
  | FnFragment => func_fragment e fc (match args with a :: _ => lit_int a | [] => 0%Z end) S
  | FnJoin =>
    match args with
    | LStr tmpl :: LStr sep :: idx => func_join e fc tmpl sep (map lit_int idx) S
    | _ => (RPanic (EMsg "unreachable"), S)
    end
  | FnCustom sg body =>
    let '(r, st') := run_prog rb e (body args) (fs_st S) in
    (norm_outs (fs_outs sg) r, mkFS st' (fs_ua S) (fs_uf S))
  end.

(** evalCall, func_exec.go:16-70 *)
Definition eval_call (e : env) (fc : frame) (name : string) (f : func) (args : list lit) (S : fstate)
  : outcome string * fstate :=
  let s := sig_of f in
  if arity_ok s (List.length args) then
    let ts := arg_types s (List.length args) in
    match eval_args ts args with
    | ROk _ =>
      if any_rejected ts args
      then safe name (RPanic (EMsg "reflect: Call using string as type"), S)
      else safe name (call_fn e fc f args S)
    | RErr er => (RErr (wrong_type name s ts args er), S)
    | RPanic er => (RPanic er, S)
    | RFuel => (RFuel, S)
    end
  else (RErr (wrong_number name s (List.length args)), S).

(** evalFunction, func_exec.go:8-14 *)
Definition eval_function (e : env) (fc : frame) (name : string) (args : list lit) (S : fstate)
  : outcome string * fstate :=
  match lookup_fn e name with
  | None => (RErr (not_defined name), S)
  | Some f => eval_call e fc name f args S
  end.

(** build.go:84, 98.  Simplification: the position of the function value is not
    part of the message. *)
Definition bad_bind (i : Z) : err := EMsg ("invalid bind var index " ++ itoa i).
Definition stray : err := EMsg "unexpected function value, forgot to call it?".

(** One expression of buildClause, build.go:75-101.  A bind variable outside
    the arguments is an ordinary error here, not ErrInvalidIndex (build.go:84). *)
Definition eval_expr (e : env) (fc : frame) (x : expr) (S : fstate) : outcome string * fstate :=
  match x with
  | EPlain t _ => (ROk t, S)
  | EBind _ i _ =>
    match nth1 (fr_args fc) i with
    | None => (RErr (bad_bind i), S)
    | Some _ => func_arg fc i S
    end
  | ECall name args _ => eval_function e fc name args S
  | EFunc _ _ => (RErr stray, S)
  end.

(** buildClause, build.go:72-104 *)
Fixpoint clause (e : env) (fc : frame) (es : list expr) (S : fstate) : outcome string * fstate :=
  match es with
  | [] => (ROk "", S)
  | x :: es' =>
    match eval_expr e fc x S with
    | (ROk s, S') =>
      match clause e fc es' S' with
      | (ROk r, S2) => (ROk (s ++ r), S2)
      | o => o
      end
    | o => o
    end
  end.

End Clause.

Fixpoint clause_n (n : nat) (rb : env -> builder -> store -> outcome string * store)
  (e : env) (fc : frame) (es : list expr) (S : fstate) : outcome string * fstate :=
  match n with
  | O => (RFuel, S)
  | Datatypes.S n' => clause rb (clause_n n' rb) n' e fc es S
  end.

(** FragmentContext.checkUsage, context_fragment.go:55-74, by
    Properties.checkUsage, properties.go:22-29 *)
Definition all_used (l : list bool) : bool := forallb (fun b => b) l.
(** The first unused property, counted from 1, properties.go:23-27 *)
Fixpoint first_unused (l : list bool) : nat :=
  match l with true :: l' => S (first_unused l') | _ => 1 end.
Definition usage_text (what : string) (l : list bool) : list string :=
  if all_used l then [] else [what ++ " #" ++ itoa_nat (first_unused l) ++ " unused"].
Definition unused (ua uf : list bool) : err :=
  EMsg (str_join "; " (usage_text "args" ua ++ usage_text "properties" uf)%list).
(** build.go:42, 62, 66 *)
Definition in_frag (f : fragment) (e : err) : err := EWrap ("build '" ++ f_raw f ++ "'") e.
Definition not_parsed (f : fragment) (off : nat) (m : string) : err :=
  EWrap ("parse '" ++ f_raw f ++ "'") (EMsg (syntax_text off m)).

(** Fragment.BuildFragment, build.go:25-69, for a non-nil fragment and
    context. *)
Definition build_frag (n : nat) (rb : env -> builder -> store -> outcome string * store)
  (e : env) (f : fragment) (st : store) : outcome string * store :=
  match parse (f_raw f) with
  | PErr o m => (RErr (not_parsed f o m), st)
  | PPanic => (RPanic index_range, st)
  | PFuel => (RFuel, st)
  | POk es =>
    let fc := mkFrame (f_args f) (f_frags f) in
    let S := mkFS st (map (fun _ => false) (f_args f)) (map (fun _ => false) (f_frags f)) in
    match clause_n n rb e fc es S with
    | (ROk body, S') =>
      if all_used (fs_ua S') && all_used (fs_uf S') then
        let body := trim_space body in
        if is_empty body then (ROk "", fs_st S')
        else (ROk ((if is_empty (f_prefix f) then "" else f_prefix f ++ " ")
                   ++ body ++ (if is_empty (f_suffix f) then "" else " " ++ f_suffix f)),
              fs_st S')
      else (RErr (in_frag f (unused (fs_ua S') (fs_uf S'))), fs_st S')
    | (RErr er, S') => (RErr (in_frag f er), fs_st S')
    | (RPanic er, S') => (RPanic er, fs_st S')
    | (RFuel, S') => (RFuel, fs_st S')
    end
  end.
