(** Specification vocabulary for evaluating templates. *)
From Coq Require Import Strings.String Strings.Ascii NArith ZArith List Bool.
From Verif Require Import GoStr GoNum Syntax Value Util Model Sqlf Sqlb Spec_syntax.
Import ListNotations.
Open Scope string_scope.

(** [st'] is a later state of the store [st]: same style, arguments only
    appended, numbers kept. *)
Definition later (st st' : store) : Prop :=
  st_dollar st' = st_dollar st /\
  (exists x, st_args st' = (st_args st ++ x)%list) /\
  (forall v k, dict_find v (st_dict st) = Some k -> dict_find v (st_dict st') = Some k).

(** Success, or a failure that an enclosing #join may take for the end of its list. *)
Definition may_pass (r : outcome string) : Prop :=
  match r with
  | ROk _ => True
  | RErr er | RPanic er => is_invalid_index er = true
  | RFuel => False
  end.

(** Between [st] and [st'] the value [v] was committed. *)
Definition committed (v : value) (st st' : store) : Prop :=
  exists st1 s st2, later st st1 /\ commit v st1 = (ROk s, st2) /\ later st2 st'.
(** Between [st] and [st'] the builder [b] was built in the context [e]. *)
Definition built (n : nat) (e : env) (b : builder) (st st' : store) : Prop :=
  exists st1 r st2, later st st1 /\ build n e b st1 = (r, st2) /\ may_pass r /\ later st2 st'.

(** References of a template (as parsed) to argument [i] (from 1), to fragment
    [i], given the functions in scope; a #join may reach everything. *)
Definition call_index (args : list lit) : Z := match args with a :: _ => lit_int a | [] => 0%Z end.
Definition reaches_arg (e : env) (i : Z) (x : aexpr) : Prop :=
  match x with
  | ABind _ k => k = i
  | ACall nm args => lookup_fn e nm = Some FnJoin \/ (lookup_fn e nm = Some FnArg /\ call_index args = i)
  | _ => False
  end.
Definition reaches_frag (e : env) (i : Z) (x : aexpr) : Prop :=
  match x with
  | ACall nm args => lookup_fn e nm = Some FnJoin \/ (lookup_fn e nm = Some FnFragment /\ call_index args = i)
  | _ => False
  end.

(** References out of range. *)
Definition outside (k : Z) (len : nat) : Prop := (k < 1 \/ Z.of_nat len < k)%Z.
Definition dangling (e : env) (nargs nfrags : nat) (x : aexpr) : Prop :=
  match x with
  | ABind _ k => outside k nargs
  | ACall nm args =>
    (lookup_fn e nm = Some FnArg /\ outside (call_index args) nargs) \/
    (lookup_fn e nm = Some FnFragment /\ outside (call_index args) nfrags)
  | _ => False
  end.
(** Calls that must fail: unknown function, wrong number of arguments. *)
Definition bad_call (e : env) (x : aexpr) : Prop :=
  match x with
  | ACall nm args =>
    match lookup_fn e nm with
    | None => True
    | Some f => arity_ok (sig_of f) (List.length args) = false
    end
  | _ => False
  end.

(** [f] is what the innermost layer of [e] that defines [nm] defines. *)
Definition innermost (e : env) (nm : string) (f : func) : Prop :=
  exists inner layer outer pre post, e = (inner ++ layer :: outer)%list /\
    layer = (pre ++ (nm, f) :: post)%list /\
    (forall l g, In l inner -> ~ In (nm, g) l) /\ (forall g, ~ In (nm, g) pre).

(** A number literal at a parameter that does not accept numbers. *)
Definition number_for_other (ts : list gotype) (args : list lit) : Prop :=
  exists i a t, nth_error args i = Some a /\ nth_error ts i = Some t /\ t <> GNum /\
    match a with LNum _ | LInt _ => True | _ => False end.

(** Prefix and suffix around a non-empty body. *)
Definition wrapped (p b s : string) : string :=
  if is_empty b then "" else
  (if is_empty p then "" else p ++ " ") ++ b ++ (if is_empty s then "" else " " ++ s).

(** What a panicking build of a fragment must contain. *)
Definition panics (e : env) (dollar : bool) (args : list value) (x : aexpr) : Prop :=
  match x with
  | ABind _ k => dollar = true /\ exists v, nth1 args k = Some v /\ hashable v = false
  | ACall nm l => exists f, lookup_fn e nm = Some f /\ number_for_other (arg_types (sig_of f) (List.length l)) l
  | _ => False
  end.

(** Bytes below 128. *)
Definition ascii_only (s : string) : bool := all (fun a => (code a <? 128)%N) s.

(** Plain text and doubled markers. *)
Definition is_text_or_esc (p : part) : bool := match p with Text _ | Esc _ => true | _ => false end.

(* ------------------------------------------------------------------ *)
(** * Joining *)

Definition nonempty_items (l : list string) : list string := filter (fun s => negb (is_empty s)) l.

(** Doing [step] for one item after the other, stopping at the first failure. *)
Fixpoint do_all {A} (step : A -> store -> outcome string * store) (l : list A) (st : store)
  : outcome (list string) * store :=
  match l with
  | [] => (ROk [], st)
  | x :: l' =>
    match step x st with
    | (ROk s, st') =>
      match do_all step l' st' with (ROk ss, st2) => (ROk (s :: ss), st2) | r => r end
    | (RErr er, st') => (RErr er, st')
    | (RPanic er, st') => (RPanic er, st')
    | (RFuel, st') => (RFuel, st')
    end
  end.
(** A builder, then [mid], then a placeholder. *)
Definition zip_step (rb : builder -> store -> outcome string * store) (mid : string) (x : builder * value) (st : store)
  : outcome string * store :=
  match rb (fst x) st with
  | (ROk s, st1) =>
    match commit (snd x) st1 with (ROk p, st2) => (ROk (s ++ mid ++ p), st2) | r => r end
  | r => r
  end.

(** The range of items (from 1, inclusive) meant by the index arguments of #join. *)
Definition range (idx : list Z) (len from to : Z) : Prop :=
  match idx with
  | [] => from = 1%Z /\ to = len
  | [a] => from = Z.max 1 a /\ to = len
  | [a; b] => from = Z.max 1 a /\ to = (if (0 <? b)%Z then b else len)
  | _ => False
  end.
(** Items [from] .. [to] (from 1, inclusive). *)
Definition slice {A} (from to : Z) (l : list A) : list A :=
  firstn (Z.to_nat (to - from + 1)) (skipn (Z.to_nat (from - 1)) l).
(** The flags [i], ..., [i+k-1] (from 0) set. *)
Fixpoint mark_from (i k : nat) (l : list bool) : list bool :=
  match k with O => l | S k' => mark_from (S i) k' (mark i l) end.
(** A number literal. *)
Definition is_num (a : lit) : Prop := match a with LNum _ | LInt _ => True | _ => False end.
(** A call #jn('#nm', sep, nums...). *)
Definition join_call (rb : env -> builder -> store -> outcome string * store) (k jf : nat) (e : env) (fc : frame)
  (jn nm sep : string) (nums : list lit) (X : fstate) : outcome string * fstate :=
  eval_expr rb (clause_n (S k) rb) jf e fc (ECall jn (LStr ("#" ++ nm) :: LStr sep :: nums) (mkPos 0 0)) X.
Definition index_error (jn nm : string) (i : Z) : err :=
  EWrap ("error calling #" ++ jn) (EWrap ("error calling #" ++ nm) (EInvalidIndex i)).

(** A join over fragment [nm] with an upper bound, or a start, beyond the items. *)
Definition beyond (nums : list lit) (len : nat) : Prop :=
  match map lit_int nums with
  | [a] => (Z.of_nat len < a)%Z
  | [a; b] => (Z.of_nat len < a)%Z \/ (Z.of_nat len < b)%Z \/ (0 < b < a)%Z
  | _ => False
  end.
(** What a template function takes its items from. *)
Definition item_count (e : env) (nm : string) (nargs nfrags : nat) : option nat :=
  match lookup_fn e nm with
  | Some FnArg => Some nargs
  | Some FnFragment => Some nfrags
  | _ => None
  end.
