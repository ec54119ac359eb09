(** Model of /repo/util/scan.go over an abstract database. *)
From Coq Require Import Strings.String NArith ZArith List Bool.
From Verif Require Import GoStr GoNum Syntax Value Util Model Sqlf Sqlb.
Import ListNotations.
Open Scope string_scope.

(** What a *sql.Rows delivers: its columns, the rows for which Next() returns
    true, and the error rows.Err() would report after the last Next(). *)
Record rows := mkRows {
  rw_cols : list string + err;
  rw_rows : list (list value);
  rw_err : option err
}.

(** ScanRow, util/scan.go:54-65: [nfields] destinations, extra columns go to
    black holes.  rows.Scan requires as many destinations as columns and then
    converts column by column; [assign] is the conversion of the first
    [nfields] columns into a T (database/sql). *)
Definition scan_row {T} (cols : list string + err) (nfields : nat)
  (assign : list value -> T + err) (row : list value) : T + err :=
  match cols with
  | inr e => inr e
  | inl cs =>
    let ndest := (nfields + (List.length cs - nfields))%nat in
    if Nat.eqb ndest (List.length cs)
    then assign (firstn nfields row)
    else inr (EMsg "sql: expected destination arguments in Scan")
  end.

Fixpoint scan_loop {T} (cols : list string + err) (nfields : nat)
  (assign : list value -> T + err) (l : list (list value)) : list T + err :=
  match l with
  | [] => inl []
  | r :: l' =>
    match scan_row cols nfields assign r with
    | inr e => inr e
    | inl x => match scan_loop cols nfields assign l' with
               | inl xs => inl (x :: xs)
               | inr e => inr e
               end
    end
  end.

(** Scan, util/scan.go:33-50.  rows.Err() is not consulted. *)
Definition scan {T} (db_query : string -> list value -> rows + err)
  (query : string) (args : list value) (nfields : nat) (assign : list value -> T + err)
  : list T + err :=
  match db_query query args with
  | inr e => inr e
  | inl rw => scan_loop (rw_cols rw) nfields assign (rw_rows rw)
  end.

(** Outcome of db.QueryRow(...).Scan(&count): a number, sql.ErrNoRows, or
    another error. *)
Inductive qrow := QCount (n : Z) | QNoRows | QErr (e : err).

(** Count, util/scan.go:77-88.  On error the query is interpolated for the
    message; Interpolate's own error is ignored, its panic is not. *)
Definition count (fmt_time : gotime -> string) (db_query_row : string -> list value -> qrow)
  (query : string) (args : list value) : outcome Z :=
  let query := "SELECT COUNT(1) FROM (" ++ query ++ ") list" in
  match db_query_row query args with
  | QCount n => ROk n
  | QNoRows => ROk 0%Z
  | QErr e =>
    match interpolate fmt_time query args with
    | RPanic p => RPanic p
    | RFuel => RFuel
    | ROk s => RErr (EAfter e s)
    | RErr _ => RErr (EAfter e "")
    end
  end.

(** ScanBuilder, util/scan.go:24-30, for a builder of this model ([n]: fuel, [h]:
    the query builders). *)
Definition scan_builder {T} (n : nat) (h : list qb) (db_query : string -> list value -> rows + err)
  (b : builder) (style : Z) (nfields : nat) (assign : list value -> T + err) : outcome (list T + err) :=
  match fst (build_query n style h b) with
  | ROk (q, args) => ROk (scan db_query q args nfields assign)
  | RErr e => ROk (inr e)
  | RPanic e => RPanic e
  | RFuel => RFuel
  end.

(** CountBuilder, util/scan.go:68-74 *)
Definition count_builder (n : nat) (h : list qb) (fmt_time : gotime -> string)
  (db_query_row : string -> list value -> qrow) (b : builder) (style : Z) : outcome Z :=
  match fst (build_query n style h b) with
  | ROk (q, args) => count fmt_time db_query_row q args
  | RErr e => RErr e
  | RPanic e => RPanic e
  | RFuel => RFuel
  end.
