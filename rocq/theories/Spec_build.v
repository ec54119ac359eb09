(** Specification vocabulary for building, used in the statements about
    fragments and query builders. *)
From Coq Require Import Strings.String Strings.Ascii NArith ZArith List Bool.
From Verif Require Import GoStr GoNum Syntax Value Util Model Sqlf Sqlb Spec_syntax RefSem.
Import ListNotations.
Open Scope string_scope.

(** Equal arguments: the same value, or equal in the sense of Go's ==. *)
Definition same_value (v w : value) : Prop := v = w \/ go_eq v w = true.

(** The placeholder [s] of a query built with argument list [args] stands for
    [v].  In Question style every placeholder is "?" and its position decides;
    in Dollar style it is "$k" with args[k-1] equal to v. *)
Definition dollar_denotes (args : list value) (s : string) (v : value) : Prop :=
  exists k w, s = "$" ++ dec (N.of_nat k) /\ 1 <= k <= List.length args /\
    nth_error args (k - 1) = Some w /\ same_value v w.
Definition denotes (dollar : bool) (args : list value) (s : string) (v : value) : Prop :=
  if dollar then dollar_denotes args s v else s = "?".

(** A store as the library creates and extends it: in Dollar style the map
    knows exactly where its values are. *)
Definition sound_store (st : store) : Prop :=
  st_dollar st = true ->
  forall v k, dict_find v (st_dict st) = Some k ->
    1 <= k /\ exists w, nth_error (st_args st) (k - 1) = Some w /\ go_eq v w = true.

(** Question-style placeholders. *)
Definition qmark (_ : nat) : string := "?".

Definition all_values (_ : value) : bool := true.

(** Committing a list of values one after the other. *)
Fixpoint commit_all (vs : list value) (st : store) : list (outcome string) * store :=
  match vs with
  | [] => ([], st)
  | v :: vs' => let '(r, st') := commit v st in
                let '(rs, st2) := commit_all vs' st' in (r :: rs, st2)
  end.
(** The values not equal to an earlier one. *)
Fixpoint firsts (seen vs : list value) : list value :=
  match vs with
  | [] => []
  | v :: vs' => if existsb (go_eq v) seen then firsts (v :: seen) vs' else v :: firsts (v :: seen) vs'
  end.

(* ------------------------------------------------------------------ *)
(** * Replacing argument values *)

Section Map.
Variable m : value -> value.
Fixpoint map_b (b : builder) {struct b} : builder :=
  match b with
  | BFrag f => BFrag (map_frag f)
  | BCol (Some f) t => BCol (Some (map_frag f)) t
  | _ => b
  end
with map_frag (f : fragment) {struct f} : fragment :=
  match f with
  | Frag raw args frags p s =>
    Frag raw (map m args)
      ((fix go (l : list builder) : list builder :=
          match l with [] => [] | b :: l' => map_b b :: go l' end) frags) p s
  end.
Definition map_cte (c : cte) : cte := mkCte (c_name c) (c_deps c) (map_b (c_builder c)).
Definition map_ft (t : from_table) : from_table :=
  mkFT (ft_names t) (option_map map_frag (ft_frag t)) (ft_optional t).
Definition map_qb (q : qb) : qb :=
  mkQB (map map_cte (q_ctes q)) (map (fun x => (fst x, map_cte (snd x))) (q_cdict q))
    (map map_ft (q_tobjs q)) (q_tables q) (q_tdict q)
    (map_frag (q_selects q)) (map_frag (q_touches q)) (map_frag (q_conds q))
    (map (fun x => (map_b (fst x), snd x)) (q_orders q)) (map_frag (q_groups q))
    (q_distinct q) (q_limit q) (q_offset q) (map map_b (q_unions q)) (q_errors q) (q_debug q).
End Map.
