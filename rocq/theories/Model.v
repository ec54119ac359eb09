(** Data types of packages sqlf and sqlb: fragment builders, custom
    preprocessing functions, query builders, build contexts. *)
From Coq Require Import Strings.String Strings.Ascii NArith ZArith List Bool.
From Verif Require Import GoStr GoNum Syntax Value.
Import ListNotations.
Open Scope string_scope.

(* ------------------------------------------------------------------ *)
(** * Function signatures (func.go:51-66) *)

(** Go types that can occur in the signature of a registered function, as far
    as the library distinguishes them.  [named] is true for a defined type whose
    underlying kind is string/bool: goodArgType (func.go:183-186) accepts it by
    kind, but reflect.Call rejects a plain string/bool for it. *)
Inductive gotype := GNum | GStr (named : bool) | GBool (named : bool) | GCtx | GError | GOther.

(** Parameter types, variadic flag (the last entry of [fs_ins] is then the
    element type) and result types. *)
Record fsig := mkSig { fs_ins : list gotype; fs_variadic : bool; fs_outs : list gotype }.

(* ------------------------------------------------------------------ *)
(** * Builders *)

(** sqlf.FragmentBuilder values (sqlf.go:53-57) and *sqlf.Fragment
    (fragment.go:5-11).  Fragments are finite trees: sharing one *Fragment in
    several places is represented by copies (building never mutates a
    Fragment), cyclic fragments are not represented.
    [BQuery] points to a *sqlb.QueryBuilder in the heap, because building one
    mutates it.
    [BCustom] is any user implementation of FragmentBuilder and [prog] the
    interaction of user code with the library through *Context: it may commit
    arguments, read Args(), build other builders with the context or with a
    context derived by ContextWithFuncs, return a string, an error, or panic.
    [PTry] runs a part of it and goes on whatever the outcome (recover()
    included); [PFresh] runs a part of it with a context of its own, made by
    NewContext (context.go:18-27), and goes on with the outcome and the
    arguments of that context, as user code that calls BuildQuery does
    (build.go:14-22, query_builder_build.go:17-25). *)
Inductive builder :=
| BNil                                            (* nil interface *)
| BNilFrag                                        (* nil *Fragment *)
| BFrag (f : fragment)
| BNilCol                                         (* nil *Column *)
| BCol (f : option fragment) (table : string)     (* sqlb/table_column.go:10-19 *)
| BTable (t : string)                             (* sqlb/table.go:12 *)
| BTabAl (name alias : string)                    (* sqlb/table_aliased.go:13-15 *)
| BQuery (id : option nat)                        (* pointer to sqlb.QueryBuilder; None = nil *)
| BCustom (p : prog)
with fragment :=
| Frag (raw : string) (args : list value) (frags : list builder) (prefix suffix : string)
with prog :=
| PRet (s : string) (e : option err)
| PPanicU (e : err)
| PCommit (v : value) (k : string -> prog)
| PArgs (k : list value -> prog)
| PBuild (fs : list (string * func)) (b : builder) (k : outcome string -> prog)
| PTry (p : prog) (k : outcome string -> prog)
| PFresh (style : Z) (p : prog) (k : outcome (string * list value) -> prog)
with func :=
| FnArg                                           (* funcArg *)
| FnFragment                                      (* funcFragment *)
| FnJoin                                          (* funcJoin *)
| FnCustom (sig : fsig) (body : list lit -> prog).

Definition f_raw (f : fragment) := let '(Frag r _ _ _ _) := f in r.
Definition f_args (f : fragment) := let '(Frag _ a _ _ _) := f in a.
Definition f_frags (f : fragment) := let '(Frag _ _ l _ _) := f in l.
Definition f_prefix (f : fragment) := let '(Frag _ _ _ p _) := f in p.
Definition f_suffix (f : fragment) := let '(Frag _ _ _ _ s) := f in s.

(** shortcut.go:4-24 *)
Definition F (raw : string) : fragment := Frag raw [] [] "" "".
Definition Fa (raw : string) (args : list value) : fragment := Frag raw args [] "" "".
Definition Ff (raw : string) (frags : list builder) : fragment := Frag raw [] frags "" "".
(** fragment.go:14-47 *)
Definition with_prefix (f : fragment) (p : string) : fragment :=
  Frag (f_raw f) (f_args f) (f_frags f) p (f_suffix f).
Definition with_suffix (f : fragment) (s : string) : fragment :=
  Frag (f_raw f) (f_args f) (f_frags f) (f_prefix f) s.
Definition with_args (f : fragment) (a : list value) : fragment :=
  Frag (f_raw f) a (f_frags f) (f_prefix f) (f_suffix f).
Definition with_frags (f : fragment) (l : list builder) : fragment :=
  Frag (f_raw f) (f_args f) l (f_prefix f) (f_suffix f).
Definition append_frags (f : fragment) (l : list builder) : fragment :=
  with_frags f (f_frags f ++ l)%list.

(* ------------------------------------------------------------------ *)
(** * QueryBuilder (sqlb/query_builder.go:10-36) *)

(** TableAliased, sqlb/table_aliased.go:13-39 *)
Definition tname : Type := string * string.
Definition applied (t : tname) : string := if is_empty (snd t) then fst t else snd t.
Definition tname_eqb (a b : tname) : bool := String.eqb (fst a) (fst b) && String.eqb (snd a) (snd b).

(** fromTable, query_builder.go:32-36; [ft_frag = None] is the zero value
    reserved by join (query_builder_join.go:94-97). *)
Record from_table := mkFT { ft_names : tname; ft_frag : option fragment; ft_optional : bool }.

(** cte, query_builder_with.go:38-42 *)
Record cte := mkCte { c_name : string; c_deps : list string; c_builder : builder }.

(** The QueryBuilder record.  *fromTable pointers are indices into [q_tobjs];
    [q_tables] and [q_tdict] (association list, first match wins) hold such
    pointers, since join overwrites through the pointer
    (query_builder_join.go:110-113).  [q_orders] holds the *Column (a builder)
    and the Order number. *)
Record qb := mkQB {
  q_ctes : list cte;
  q_cdict : list (string * cte);
  q_tobjs : list from_table;
  q_tables : list nat;
  q_tdict : list (string * nat);
  q_selects : fragment; q_touches : fragment; q_conds : fragment;
  q_orders : list (builder * N);
  q_groups : fragment;
  q_distinct : bool; q_limit : Z; q_offset : Z;
  q_unions : list builder;
  q_errors : list err;
  q_debug : bool
}.

(* ------------------------------------------------------------------ *)
(** * Build context *)

(** argStore (context_args.go:20-65) together with the heap of QueryBuilders.
    [st_dict] is the map[any]int of dollarArgStore. *)
Record store := mkStore {
  st_dollar : bool; st_args : list value; st_dict : list (value * nat); st_heap : list qb
}.

(** newEmptyContext, context.go:29-40: Dollar (0) uses the dollar store, every
    other style value the question store. *)
Definition new_store (style : Z) (h : list qb) : store :=
  mkStore (Z.eqb style style_dollar) [] [] h.

Definition set_heap (st : store) (h : list qb) : store :=
  mkStore (st_dollar st) (st_args st) (st_dict st) h.

(** The chain of contexts carrying functions, innermost first. *)
Definition env : Type := list (list (string * func)).

Fixpoint assoc {A} (k : string) (l : list (string * A)) : option A :=
  match l with
  | [] => None
  | (k', v) :: l' => if String.eqb k k' then Some v else assoc k l'
  end.

(** Context.fn, context_func.go:11-19 and contextValue, contex_with.go:10-18 *)
Fixpoint lookup_fn (e : env) (name : string) : option func :=
  match e with
  | [] => None
  | m :: e' => match assoc name m with Some f => Some f | None => lookup_fn e' name end
  end.

(** builtInFuncs, func_builtin.go:11-16 *)
Definition builtins : list (string * func) :=
  [("arg", FnArg); ("f", FnFragment); ("fragment", FnFragment); ("join", FnJoin)].
