(** Model of the remaining methods of tables and columns (/repo/sqlb/table.go,
    table_aliased.go, table_column.go); Column, AnonymousColumn and AppliedName
    are in Sqlb.v and Model.v. *)
From Coq Require Import Strings.String ZArith List Bool.
From Verif Require Import GoStr Value Model Sqlf Sqlb.
Import ListNotations.
Open Scope string_scope.

(** Table.Columns, table.go:50-56 *)
Definition columns (t : string) (names : list string) : list builder := map (column t) names.
(** Table.AnonymousColumns, table.go:76-82 *)
Definition anonymous_columns (t : string) (names : list string) : list builder := map (anonymous_column t) names.
(** NewTableAliased, table_aliased.go:18-23 *)
Definition new_table_aliased (name alias : string) : tname := (name, alias).
(** TableAliased.WithAlias, table_aliased.go:26-31 *)
Definition with_alias (t : tname) (alias : string) : tname := (fst t, alias).
(** TableAliased.Names, table_aliased.go:42-44 *)
Definition table_names (t : tname) : list string := [fst t; snd t].
(** TableAliased.Columns, AnonymousColumn, AnonymousColumns, table_aliased.go:64-66, 73-75, 83-85 *)
Definition acolumns (t : tname) (names : list string) : list builder := columns (applied t) names.
Definition aanonymous_column (t : tname) (name : string) : builder := anonymous_column (applied t) name.
Definition aanonymous_columns (t : tname) (names : list string) : list builder := anonymous_columns (applied t) names.
(** ExprColumns, table_column.go:48-54; [None] is a nil fragment. *)
Definition expr_columns (fs : list (option fragment)) : list builder := map (fun f => BCol f "") fs.
