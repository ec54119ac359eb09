(** User code that builds a statement on its own and embeds it. *)
From Coq Require Import Strings.String NArith ZArith List Bool.
From Verif Require Import GoStr GoNum Syntax Value Util Model Sqlf Sqlb.
Import ListNotations.
Open Scope string_scope.

(** Give back what a build gave. *)
Definition back (r : outcome string) : prog :=
  match r with ROk s => PRet s None | RErr e => PRet "" (Some e) | RPanic e => PPanicU e | RFuel => PRet "" None end.
(** BuildQuery: a build with a context of its own. *)
Definition own_query (style : Z) (b : builder) (k : outcome (string * list value) -> prog) : prog :=
  PFresh style (PBuild [] b back) k.
(** Commit all arguments, whatever placeholders they get, and return the text. *)
Fixpoint hand_over (l : list value) (s : string) : prog :=
  match l with [] => PRet s None | v :: l' => PCommit v (fun _ => hand_over l' s) end.
(** A custom builder that calls BuildQuery, commits the arguments and returns the query. *)
Definition embed (style : Z) (b : builder) : builder :=
  BCustom (own_query style b (fun r =>
    match r with ROk (s, l) => hand_over l s | RErr e => PRet "" (Some e) | RPanic e => PPanicU e | RFuel => PRet "" None end)).
