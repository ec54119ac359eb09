(** Specification vocabulary for the names of tables and columns. *)
From Coq Require Import Strings.String Strings.Ascii List Bool.
From Verif Require Import GoStr Spec_syntax.
Import ListNotations.
Open Scope string_scope.

(** The text of a column: table and name with a dot between them. *)
Definition dotted (t name : string) : string :=
  match name, t with
  | "", _ => ""
  | _, "" => name
  | _, _ => t ++ "." ++ name
  end.
(** An identifier in quotes [q], quotes inside doubled (standard SQL: double
    quotes; MySQL: backquotes). *)
Fixpoint twice (q : ascii) (s : string) : string :=
  match s with
  | "" => ""
  | String a s' => if Ascii.eqb a q then String q (String q (twice q s')) else String a (twice q s')
  end.
Definition identifier (q : ascii) (s : string) : string := String q (twice q s ++ String q "").
(** No # occurs. *)
Definition no_hash (s : string) : bool := all (fun a => negb (Ascii.eqb a "#")) s.
