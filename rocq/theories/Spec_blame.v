(** Vocabulary for the texts of errors. *)
From Coq Require Import Strings.String Strings.Ascii NArith ZArith List Bool.
From Verif Require Import GoStr GoNum Syntax Value Util Model Sqlf Sqlb Spec_syntax Spec_base Spec_eval Spec_query Spec_fault Spec_quote.
Import ListNotations.
Open Scope string_scope.

(** The kinds of literals and of parameters as messages name them. *)
Definition lit_name (a : lit) : string :=
  match a with LNum _ | LInt _ => "number" | LStr _ => "string" | LBool _ => "bool" | LNil => "nil" end.
Definition type_label (t : gotype) : string :=
  match t with GNum => "number" | GStr _ => "string" | GBool _ => "bool" | GCtx => "*sqlf.Context" | GError => "error" | GOther => "other" end.
(** How many parameters come before those that are given in a template. *)
Definition hidden (f : func) : nat :=
  match f with
  | FnArg | FnFragment | FnJoin => 1
  | FnCustom s _ => List.length (fs_ins s) - List.length (params f)
  end.
(** A function of an index: func(number) (string, error), maybe with a context. *)
Definition indexed (f : func) : Prop :=
  (exists t, fs_outs (sig_of f) = [t; GError]) /\ (fs_ins (sig_of f) = [GNum] \/ fs_ins (sig_of f) = [GCtx; GNum]).
(** The template of a join at index [i]. *)
Definition at_index (i : Z) (l : list aexpr) : list aexpr :=
  map (fun x => match x with AFunc nm => ACall nm [LInt i] | x => x end) l.
(** The parts refer to argument or fragment number [i] directly. *)
Definition uses_arg (e : env) (l : list aexpr) (i : nat) : Prop :=
  (exists st, In (ABind st (Z.of_nat i)) l) \/
  (exists nm a, In (ACall nm a) l /\ lookup_fn e nm = Some FnArg /\ call_index a = Z.of_nat i).
Definition uses_frag (e : env) (l : list aexpr) (i : nat) : Prop :=
  exists nm a, In (ACall nm a) l /\ lookup_fn e nm = Some FnFragment /\ call_index a = Z.of_nat i.
(** Number [k] of [n] is the first that the parts do not refer to: no direct
    reference, and something that may refer to every number before. *)
Definition first_idle (uses : nat -> Prop) (reach : Z -> aexpr -> Prop) (l : list aexpr) (n k : nat) : Prop :=
  1 <= k <= n /\ ~ uses k /\ forall j, 1 <= j < k -> exists x, In x l /\ reach (Z.of_nat j) x.
Definition idle_arg (e : env) (l : list aexpr) (n k : nat) : Prop := first_idle (uses_arg e l) (reaches_arg e) l n k.
Definition idle_frag (e : env) (l : list aexpr) (n k : nat) : Prop := first_idle (uses_frag e l) (reaches_frag e) l n k.

(** The variadic functions in scope have a last parameter, as Go's have. *)
Definition proper_env (e : env) : Prop := forall nm f, lookup_fn e nm = Some f -> proper f.
(** [grown q q']: [q'] is [q] after its ORDER BY or SELECT clause has been built
    any number of times. *)
Inductive grown (q : qb) : qb -> Prop :=
| gr_same : grown q q
| gr_orders q' : grown q q' -> grown q (with_orders q')
| gr_select q' : grown q q' -> grown q (with_select q').
Definition nil_pointer : string := "runtime error: invalid memory address or nil pointer dereference".
Definition new_line : string := String (ascii_of_nat 10) "".

Section Text.
(** The functions in scope; the query builders at the start. *)
Variable e : env.
Variable st0 : store.
(** [fails b m]: a build of [b] may return the error [m], because that is what
    is wrong with [b]; [panics b m]: it may panic with [m], because of that.
    User code may say anything here. *)
Inductive fails : builder -> string -> Prop :=
| fl_syntax raw args frags p s k d : syntax_fault raw k d ->
    fails (BFrag (Frag raw args frags p s)) ("parse '" ++ raw ++ "': " ++ itoa_nat k ++ ": syntax error: " ++ d)
| fl_clause raw args frags p s l m : parsed raw = Some l -> complaint args frags l m ->
    fails (BFrag (Frag raw args frags p s)) ("build '" ++ raw ++ "': " ++ m)
| fl_args raw args frags p s l k : parsed raw = Some l -> idle_arg e l (List.length args) k ->
    fails (BFrag (Frag raw args frags p s)) ("build '" ++ raw ++ "': args #" ++ itoa_nat k ++ " unused")
| fl_frags raw args frags p s l j : parsed raw = Some l -> idle_frag e l (List.length frags) j ->
    fails (BFrag (Frag raw args frags p s)) ("build '" ++ raw ++ "': properties #" ++ itoa_nat j ++ " unused")
| fl_both raw args frags p s l k j : parsed raw = Some l -> idle_arg e l (List.length args) k -> idle_frag e l (List.length frags) j ->
    fails (BFrag (Frag raw args frags p s)) ("build '" ++ raw ++ "': args #" ++ itoa_nat k ++ " unused; properties #" ++ itoa_nat j ++ " unused")
| fl_column f t m : fails (BFrag f) m -> fails (BCol (Some f) t) m
| fl_query id q m : grown (get_q st0 id) q -> fault q m -> fails (BQuery (Some id)) m
| fl_custom p m : fails (BCustom p) m
with panics : builder -> string -> Prop :=
| pn_nil : panics BNil nil_pointer
| pn_nilcol : panics BNilCol nil_pointer
| pn_frag raw args frags p s l m : parsed raw = Some l -> crash args l m -> panics (BFrag (Frag raw args frags p s)) m
| pn_column f t m : panics (BFrag f) m -> panics (BCol (Some f) t) m
| pn_query id q m : grown (get_q st0 id) q -> mishap q m -> panics (BQuery (Some id)) m
| pn_custom p m : panics (BCustom p) m
(** What can be wrong with a query builder. *)
with fault : qb -> string -> Prop :=
| ft_errors q : q_errors q <> [] ->
    fault q ("collected errors: " ++ new_line ++ str_join "" (map (fun er => " - " ++ err_text er ++ new_line) (q_errors q)))
| ft_undefined q t : needed q t -> undefined q t -> fault q ("from undefined: '" ++ t ++ "'")
| ft_cte q c m : In c (q_ctes q) -> fails (c_builder c) m -> fault q ("build CTE '" ++ c_name c ++ "': " ++ m)
| ft_table q ft m : In ft (listed q) -> fails (table_builder ft) m ->
    fault q ("build FROM '{" ++ fst (ft_names ft) ++ " " ++ snd (ft_names ft) ++ "}': " ++ m)
| ft_where q m : fails (BFrag (q_conds q)) m -> fault q m
| ft_group q m : fails (BFrag (q_groups q)) m -> fault q m
| ft_order q m : fails (BFrag (order_clause q)) m -> fault q m
| ft_select q m : fails (BFrag (select_clause q)) m -> fault q m
| ft_hidden q m : fails (BFrag (q_touches q)) m -> fault q m
| ft_nothing q n st st' : build n e (BFrag (select_clause q)) st = (ROk "", st') -> fault q "no columns selected"
| ft_union q b m : In b (q_unions q) -> fails b m -> fault q m
with mishap : qb -> string -> Prop :=
| mh_nil q b : In b (clause_builders q) -> has_nil b -> mishap q nil_pointer
| mh_join q t ft : needed q t -> table_of q t = Some ft -> (forall f, ft_frag ft = Some f -> has_nil (BFrag f)) -> mishap q nil_pointer
| mh_dangling q id : (In id (q_tables q) \/ exists t, assoc t (q_tdict q) = Some id) -> nth_error (q_tobjs q) id = None -> mishap q nil_pointer
| mh_none q : q_tables q = [] -> mishap q "runtime error: index out of range"
| mh_cte q c m : In c (q_ctes q) -> panics (c_builder c) m -> mishap q m
| mh_table q ft m : In ft (listed q) -> panics (table_builder ft) m -> mishap q m
| mh_where q m : panics (BFrag (q_conds q)) m -> mishap q m
| mh_group q m : panics (BFrag (q_groups q)) m -> mishap q m
| mh_order q m : panics (BFrag (order_clause q)) m -> mishap q m
| mh_select q m : panics (BFrag (select_clause q)) m -> mishap q m
| mh_hidden q m : panics (BFrag (q_touches q)) m -> mishap q m
| mh_union q b m : In b (q_unions q) -> panics b m -> mishap q m
| mh_debug q m : q_debug q = true -> mishap q m
(** What can be wrong with the parts of a template. *)
with complaint : list value -> list builder -> list aexpr -> string -> Prop :=
| cp_bind args frags l st i : In (ABind st i) l -> outside i (List.length args) ->
    complaint args frags l ("invalid bind var index " ++ itoa i)
| cp_value args frags l nm : In (AFunc nm) l -> complaint args frags l "unexpected function value, forgot to call it?"
| cp_unknown args frags l nm a q : In (ACall nm a) l -> lookup_fn e nm = None -> quoted nm q ->
    complaint args frags l (q ++ " is not a defined function")
| cp_number args frags l nm a f : In (ACall nm a) l -> lookup_fn e nm = Some f -> ~ takes f (List.length a) ->
    complaint args frags l ("wrong number of args for #" ++ nm ++ ": want "
      ++ (if open_ended f then "at least " ++ itoa_nat (List.length (params f) - 1) else itoa_nat (List.length (params f)))
      ++ " got " ++ itoa_nat (List.length a))
| cp_type args frags l nm a f i x t : In (ACall nm a) l -> lookup_fn e nm = Some f -> first_misfit f a i ->
    nth_error a i = Some x -> param f i = Some t ->
    complaint args frags l ("arg " ++ itoa_nat (hidden f + i) ++ " has wrong type for #" ++ nm
      ++ ": can't assign " ++ lit_name x ++ " to " ++ type_label t)
| cp_call args frags l nm a f m : In (ACall nm a) l -> lookup_fn e nm = Some f -> all_fit f a -> blunder args frags f a m ->
    complaint args frags l ("error calling #" ++ nm ++ ": " ++ m)
(** What can be wrong in a call. *)
with blunder : list value -> list builder -> func -> list lit -> string -> Prop :=
| bl_arg args frags a : outside (call_index a) (List.length args) -> blunder args frags FnArg a ("invalid index: " ++ itoa (call_index a))
| bl_value args frags a v : nth1 args (call_index a) = Some v -> unhashable v ->
    blunder args frags FnArg a "runtime error: hash of unhashable type"
| bl_frag args frags a : outside (call_index a) (List.length frags) -> blunder args frags FnFragment a ("invalid index: " ++ itoa (call_index a))
| bl_child args frags a b m : nth1 frags (call_index a) = Some b -> fails b m \/ panics b m -> blunder args frags FnFragment a m
| bl_defined args frags f a : some_defined f (List.length a) -> blunder args frags f a "reflect: Call using string as type"
| bl_custom args frags s p a m : blunder args frags (FnCustom s p) a m
| bl_many args frags tmpl sep nums : 2 < List.length nums ->
    blunder args frags FnJoin (LStr tmpl :: LStr sep :: nums) ("too many args for #join: want 2-4 got " ++ itoa_nat (List.length nums + 2))
| bl_range args frags tmpl sep x y : (0 < lit_int y < lit_int x)%Z ->
    blunder args frags FnJoin [LStr tmpl; LStr sep; x; y] ("invalid index range " ++ itoa (lit_int x) ++ " to " ++ itoa (lit_int y))
| bl_syntax args frags tmpl sep nums k d : syntax_fault tmpl k d ->
    blunder args frags FnJoin (LStr tmpl :: LStr sep :: nums) ("parse join template '" ++ tmpl ++ "': " ++ itoa_nat k ++ ": syntax error: " ++ d)
| bl_unknown args frags tmpl sep nums l nm : parsed tmpl = Some l -> In (AFunc nm) l -> lookup_fn e nm = None ->
    blunder args frags FnJoin (LStr tmpl :: LStr sep :: nums) ("unknown function #" ++ nm)
| bl_shape args frags tmpl sep nums l nm f : parsed tmpl = Some l -> In (AFunc nm) l -> lookup_fn e nm = Some f -> ~ indexed f ->
    blunder args frags FnJoin (LStr tmpl :: LStr sep :: nums) ("function #" ++ nm ++ " is incompatible with #join: incompatible function signature, "
      ++ "expected func(<number>) (string, error) or func(*sqlf.Context, <number>) (string, error)")
| bl_probe args frags tmpl sep nums l nm s p : parsed tmpl = Some l -> In (AFunc nm) l -> lookup_fn e nm = Some (FnCustom s p) -> indexed (FnCustom s p) ->
    blunder args frags FnJoin (LStr tmpl :: LStr sep :: nums) ("function #" ++ nm ++ " is incompatible with #join: not reports ErrInvalidIndex")
| bl_none args frags tmpl sep nums l : parsed tmpl = Some l -> (forall nm, ~ In (AFunc nm) l) ->
    blunder args frags FnJoin (LStr tmpl :: LStr sep :: nums) ("no function in join template '" ++ tmpl ++ "' (e.g.: #f, not #f1)")
| bl_item args frags tmpl sep nums l i m : parsed tmpl = Some l -> (1 <= i)%Z -> complaint args frags (at_index i l) m ->
    blunder args frags FnJoin (LStr tmpl :: LStr sep :: nums) m
| bl_crash args frags tmpl sep nums l i m : parsed tmpl = Some l -> (1 <= i)%Z -> crash args (at_index i l) m ->
    blunder args frags FnJoin (LStr tmpl :: LStr sep :: nums) m
(** What can be wrong with the parts such that the build panics. *)
with crash : list value -> list aexpr -> string -> Prop :=
| cr_value args l st i v : In (ABind st i) l -> nth1 args i = Some v -> unhashable v -> crash args l "runtime error: hash of unhashable type"
| cr_number args l nm a f i x : In (ACall nm a) l -> lookup_fn e nm = Some f -> first_misfit f a i -> nth_error a i = Some x -> number x ->
    crash args l "reflect.Value.Convert: value of type float64 cannot be converted".
End Text.
