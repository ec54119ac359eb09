(** Properties C49-C55 (package util).  The vocabulary is in Spec_util.v; the
    proofs are in Util_proofs.v. *)
From Coq Require Import Strings.String Strings.Ascii NArith ZArith List Bool Floats.SpecFloat Lia.
From Verif Require Import GoStr GoNum Syntax Value Util Model Sqlf Sqlb Scan Spec_syntax RefSem Spec_build Spec_eval
  Prop_eval Spec_util Util_proofs.
Import ListNotations.
Open Scope string_scope.

(** C49: ArgsFlatted is the concatenation of what each argument contributes. *)
Theorem c49_flattened : forall l r,
  args_flatted l = ROk r <-> exists parts, Forall2 flattened l parts /\ r = concat parts.
Proof. exact flatted_ok. Qed.
Print Assumptions c49_flattened.
(** It panics exactly for a nil pointer of one of ten types ... *)
Theorem c49_panics : forall l, (exists e, args_flatted l = RPanic e) <-> Exists blind_pointer l.
Proof. exact flatted_panic. Qed.
Print Assumptions c49_panics.
(** ... and otherwise returns. *)
Theorem c49_total : forall l, (exists r, args_flatted l = ROk r) \/ args_flatted l = RPanic nil_deref.
Proof. exact flatted_total. Qed.
Print Assumptions c49_total.
Theorem c49_nil_pointer_refuted : exists v, blind_pointer v /\ args_flatted [v] = RPanic nil_deref.
Proof.
  exists (VPtr "*[]int" 0 None). apply conj; [|vm_compute; reflexivity].
  exists "*[]int", 0%N. apply conj; [reflexivity|]. cbn. tauto.
Qed.
Print Assumptions c49_nil_pointer_refuted.
(** One level only, order kept, nil slices vanish, strings stay. *)
Example c49_example :
  args_flatted [Int 1; VSlice "[]any" (Some [Int 2; VSlice "[]int" (Some [Int 3])]); VSlice "[]int" None;
    VPtr "*[2]int" 5 (Some (VArray "[2]int" [Int 4; Int 5])); Str "ab"; VPtr "*int" 6 (Some (Int 7)); VPtr "*int" 0 None;
    VValuer "*array" (VPtr "*array" 7 (Some (VValuer "array" (VSlice "array" (Some [Int 8; Int 9])) (inr nil_deref)))) (inr nil_deref);
    VStringer "name" (VStr "name" "x") (inl "x")]
  = ROk [Int 1; Int 2; VSlice "[]int" (Some [Int 3]); Int 4; Int 5; Str "ab"; VPtr "*int" 6 (Some (Int 7)); VPtr "*int" 0 None;
    Int 8; Int 9; VStringer "name" (VStr "name" "x") (inl "x")].
Proof. vm_compute. reflexivity. Qed.

(** C50: Interpolate cuts the query into pieces, keeps the texts and replaces
    the bind variables by the literals of their arguments. *)
Theorem c50_pieces : forall ft q args s, no_nul q = true -> (interpolate ft q args = ROk s <->
  exists es srcs outs, parse q = POk es /\ Forall2 source (map strip es) srcs /\ concat_all srcs = q /\
    Forall2 (replaced ft args) (map strip es) outs /\ s = concat_all outs).
Proof. exact interpolate_iff. Qed.
Print Assumptions c50_pieces.
(** For a query written as parts: *)
Theorem c50_parts : forall ft args l s, wf l = true -> style_ok false l = true ->
  (interpolate ft (print l) args = ROk s <-> filled ft args 0 l s).
Proof. exact interpolate_parts. Qed.
Print Assumptions c50_parts.
(** The literals. *)
Theorem c50_literal : forall ft v s, encode_value ft v = ROk s <-> literal ft v s.
Proof. exact encode_iff. Qed.
Print Assumptions c50_literal.
(** Floats are printed with six decimals, rounded to the nearest, ties to even. *)
Theorem c50_float : forall f s, s = fmt_f f <-> float_text f s.
Proof. exact fmt_f_iff. Qed.
Print Assumptions c50_float.
Definition no_time (t : gotime) : string := "t".
Definition half : f64 := round_bin false 1 (-1).
Example c50_example :
  let l := [Text "a="; Quest; Text " AND b="; Quest; Text " AND c="; Quoted "'" "?"; Esc false] in
  wf l = true /\ style_ok false l = true /\ print l = "a=? AND b=? AND c='?'??" /\
  interpolate no_time (print l) [Str "it's"; VFloat "float64" half] = ROk "a='it''s' AND b=0.500000 AND c='?'??" /\
  interpolate no_time "$2 $1 $2" [Int (-7); VNil] = ROk "NULL -7 NULL".
Proof. repeat apply conj; vm_compute; reflexivity. Qed.

(** C51: a missing argument is not an error but a panic.  Interpolate panics
    exactly when the first expression that cannot be replaced is a bind variable
    without argument, or one whose argument's own method panics. *)
Theorem c51_panics : forall ft q args e, interpolate ft q args = RPanic e <->
  exists es pre outs x post, parse q = POk es /\ map strip es = (pre ++ x :: post)%list /\
    Forall2 (replaced ft args) pre outs /\ panics args x e.
Proof. exact interpolate_panics. Qed.
Print Assumptions c51_panics.
(** Which arguments make the encoding itself panic. *)
Theorem c51_methods : forall ft v e, encode_value ft v = RPanic e <-> method_panics v e.
Proof. exact encode_panics_iff. Qed.
Print Assumptions c51_methods.
Theorem c51_error_refuted : interpolate no_time "a = ? AND b = ?" [Int 1] = RPanic index_range /\
  interpolate no_time "$3" [Int 1] = RPanic index_range.
Proof. apply conj; vm_compute; reflexivity. Qed.
Print Assumptions c51_error_refuted.
(** Count panics instead of returning the database's error. *)
Theorem c51_count_refuted : forall e,
  count no_time (fun _ _ => QErr e) "SELECT ?" [] = RPanic index_range.
Proof. intros e. vm_compute. reflexivity. Qed.
Print Assumptions c51_count_refuted.
Definition nil_receiver : value := VValuer "*money" (VPtr "*money" 0 None) (inr nil_deref).
Example c51_example : exists es, parse "a = ? AND b = ?" = POk es /\
  map strip es = ([APlain "a = "; ABind style_question 1; APlain " AND b = "] ++ [ABind style_question 2])%list /\
  Forall2 (replaced no_time [Int 1]) [APlain "a = "; ABind style_question 1; APlain " AND b = "] ["a = "; "1"; " AND b = "] /\
  panics [Int 1] (ABind style_question 2) index_range /\
  panics [Int 1; nil_receiver] (ABind style_question 2) nil_deref /\
  interpolate no_time "a = ? AND b = ?" [Int 1; nil_receiver] = RPanic nil_deref /\
  interpolate no_time "a = ?" [VStringer "*name" (VPtr "*name" 0 None) (inr nil_deref)] = RPanic nil_deref.
Proof.
  eexists. apply conj; [vm_compute; reflexivity|]. apply conj; [vm_compute; reflexivity|]. apply conj;
    [|apply conj; [|apply conj; [|apply conj; vm_compute; reflexivity]]].
  - repeat (constructor; try lia). econstructor; [lia|reflexivity|]. exact (lt_int no_time "int" 1).
  - constructor. unfold outside. cbn. lia.
  - eapply pc_method; [lia|reflexivity|constructor].
Qed.

(** C52: the literal of a string is one inert text, and tells the string. *)
Theorem c52_inert : forall s, no_nul s = true -> parsed (quote_string_value s) = Some [APlain (quote_string_value s)].
Proof. intros s. rewrite quoted_eq. exact (quoted_parsed s). Qed.
Print Assumptions c52_inert.
Theorem c52_injective : forall s t, quote_string_value s = quote_string_value t -> s = t.
Proof. intros s t. rewrite !quoted_eq. exact (quoted_inj s t). Qed.
Print Assumptions c52_injective.
(** Every literal is a single inert part ... *)
Theorem c52_literal_inert : forall ft v s, (forall id, body_ok "'" (ft id) = true) -> clean v = true -> literal ft v s ->
  exists p, is_inert p = true /\ wf1 p = true /\ print1 p = s.
Proof. exact literal_inert. Qed.
Print Assumptions c52_literal_inert.
(** ... so an interpolated query is inert text, whatever the arguments are;
    interpolating it again changes nothing. *)
Theorem c52_interpolated_inert : forall ft args l s, (forall id, body_ok "'" (ft id) = true) -> forallb clean args = true ->
  wf l = true -> style_ok false l = true -> interpolate ft (print l) args = ROk s ->
  parsed s = Some (cons_text s []).
Proof. exact interpolated_inert. Qed.
Print Assumptions c52_interpolated_inert.
Theorem c52_interpolate_again : forall ft args l s args', (forall id, body_ok "'" (ft id) = true) -> forallb clean args = true ->
  wf l = true -> style_ok false l = true -> interpolate ft (print l) args = ROk s -> interpolate ft s args' = ROk s.
Proof. exact interpolate_again. Qed.
Print Assumptions c52_interpolate_again.
(** A string with a NUL byte is not: the scanner stops there. *)
Theorem c52_nul_refuted : exists s, no_nul s = false /\ parsed (quote_string_value s) = Some [APlain "'"].
Proof. exists (String nul ""). apply conj; vm_compute; reflexivity. Qed.
Print Assumptions c52_nul_refuted.
Example c52_example : no_nul "'; DROP TABLE t; -- ?" = true /\
  quote_string_value "'; DROP TABLE t; -- ?" = "'''; DROP TABLE t; -- ?'" /\
  (forall id, body_ok "'" (no_time id) = true) /\ forallb clean [Str "'?"; Int 1] = true /\
  interpolate no_time "x = ?" [Str "'?"; Int 1] = ROk "x = '''?'".
Proof. repeat apply conj; intros; vm_compute; reflexivity. Qed.

(** C53: Scan does not depend on the error that ended the iteration. *)
Theorem c53_blind : forall {T} db db' q args n (assign : list value -> T + err) rw er,
  db q args = inl rw -> db' q args = inl (mkRows (rw_cols rw) (rw_rows rw) er) ->
  scan db' q args n assign = scan db q args n assign.
Proof. exact @scan_blind. Qed.
Print Assumptions c53_blind.
Theorem c53_reported_refuted : exists (db : string -> list value -> rows + err) e,
  (forall q args rw, db q args = inl rw -> rw_err rw = Some e) /\
  scan db "q" [] 1 (fun r => match r with [VInt _ z] => inl z | _ => inr (EMsg "x") end) = inl [1%Z].
Proof.
  exists (fun _ _ => inl (mkRows (inl ["a"]) [[Int 1]] (Some (EMsg "connection lost")))), (EMsg "connection lost").
  apply conj; [|vm_compute; reflexivity]. intros q args rw H. injection H as <-. reflexivity.
Qed.
Print Assumptions c53_reported_refuted.

(** C54: Scan returns exactly the rows decoded from their first columns. *)
Theorem c54_rows : forall {T} db q args n (assign : list value -> T + err) xs,
  scan db q args n assign = inl xs <->
  exists rw, db q args = inl rw /\ Forall2 (decoded (rw_cols rw) n assign) (rw_rows rw) xs.
Proof. exact @scan_iff. Qed.
Print Assumptions c54_rows.
(** The first row that fails to decode is the error. *)
Theorem c54_first_failure : forall {T} db q args n (assign : list value -> T + err) rw l row post xs cs e,
  db q args = inl rw -> rw_rows rw = (l ++ row :: post)%list -> rw_cols rw = inl cs -> n <= List.length cs ->
  Forall2 (decoded (rw_cols rw) n assign) l xs -> assign (firstn n row) = inr e ->
  scan db q args n assign = inr e.
Proof.
  intros T db q args n assign rw l row post xs cs e H R C L F A. unfold scan. rewrite H, R.
  exact (scan_loop_first (rw_cols rw) n assign l row post xs cs e F C L A).
Qed.
Print Assumptions c54_first_failure.
(** Fewer columns than fields: an error, if there are rows. *)
Theorem c54_too_few_columns : forall {T} db q args n (assign : list value -> T + err) rw cs,
  db q args = inl rw -> rw_cols rw = inl cs -> List.length cs < n -> rw_rows rw <> [] ->
  exists e, scan db q args n assign = inr e.
Proof.
  intros T db q args n assign rw cs H C L R. unfold scan. rewrite H, C. exact (scan_loop_narrow cs n assign _ L R).
Qed.
Print Assumptions c54_too_few_columns.
(** ScanBuilder scans the built query and reports the error of a build that fails. *)
Theorem c54_scan_builder : forall {T} n h db b style nf (assign : list value -> T + err),
  (forall q args, fst (build_query n style h b) = ROk (q, args) -> scan_builder n h db b style nf assign = ROk (scan db q args nf assign)) /\
  (forall e, fst (build_query n style h b) = RErr e -> scan_builder n h db b style nf assign = ROk (inr e)) /\
  (forall e, fst (build_query n style h b) = RPanic e -> scan_builder n h db b style nf assign = RPanic e).
Proof. intros T n h db b style nf assign. unfold scan_builder. repeat apply conj; intros; rewrite H; reflexivity. Qed.
Print Assumptions c54_scan_builder.
Definition two (r : list value) : (Z * Z) + err :=
  match r with [VInt _ a; VInt _ b] => inl (a, b) | _ => inr (EMsg "conversion") end.
Definition table (r : list (list value)) (_ : string) (_ : list value) : rows + err :=
  inl (mkRows (inl ["a"; "b"; "c"]) r None).
Example c54_example :
  scan (table [[Int 1; Int 2; Int 3]; [Int 4; Int 5; Int 6]]) "q" [] 2 two = inl [(1, 2); (4, 5)]%Z /\
  scan (table [[Int 1; Int 2; Int 3]; [Str "x"; Int 5; Int 6]]) "q" [] 2 two = inr (EMsg "conversion") /\
  (exists e, scan (table [[Int 1; Int 2; Int 3]]) "q" [] 4 two = inr e).
Proof. apply conj; [vm_compute; reflexivity|]. apply conj; [vm_compute; reflexivity|]. eexists. vm_compute. reflexivity. Qed.

(** C55: Count. *)
Theorem c55_count : forall ft db q args n, db (counted q) args = QCount n -> count ft db q args = ROk n.
Proof. intros ft db q args n H. unfold count. fold (counted q). rewrite H. reflexivity. Qed.
Print Assumptions c55_count.
Theorem c55_no_rows : forall ft db q args, db (counted q) args = QNoRows -> count ft db q args = ROk 0%Z.
Proof. intros ft db q args H. unfold count. fold (counted q). rewrite H. reflexivity. Qed.
Print Assumptions c55_no_rows.
(** An error of the database is returned, unless Interpolate panics (C51). *)
Theorem c55_error : forall ft db q args e, db (counted q) args = QErr e ->
  (exists s, count ft db q args = RErr (EAfter e s) /\
     (interpolate ft (counted q) args = ROk s \/ exists e', interpolate ft (counted q) args = RErr e' /\ s = "")) \/
  (exists p, count ft db q args = RPanic p /\ interpolate ft (counted q) args = RPanic p).
Proof. exact count_error. Qed.
Print Assumptions c55_error.
(** CountBuilder counts the built query. *)
Theorem c55_count_builder : forall n h ft db b style,
  (forall q args, fst (build_query n style h b) = ROk (q, args) -> count_builder n h ft db b style = count ft db q args) /\
  (forall e, fst (build_query n style h b) = RErr e -> count_builder n h ft db b style = RErr e) /\
  (forall e, fst (build_query n style h b) = RPanic e -> count_builder n h ft db b style = RPanic e).
Proof. intros n h ft db b style. unfold count_builder. repeat apply conj; intros; rewrite H; reflexivity. Qed.
Print Assumptions c55_count_builder.
Example c55_example :
  let db := fun q args => if String.eqb q "SELECT COUNT(1) FROM (SELECT 1 WHERE ?) list" then QCount (Z.of_nat (List.length args)) else QErr (EMsg q) in
  count no_time db "SELECT 1 WHERE ?" [Int 5] = ROk 1%Z /\
  count no_time (fun _ _ => QNoRows) "SELECT 1" [] = ROk 0%Z /\
  count no_time db "SELECT ?" [Int 7] = RErr (EAfter (EMsg "SELECT COUNT(1) FROM (SELECT ?) list") "SELECT COUNT(1) FROM (SELECT 7) list") /\
  count_builder 9 [] no_time db (BFrag (Fa "SELECT 1 WHERE #arg1" [Int 5])) style_question = ROk 1%Z.
Proof. repeat apply conj; vm_compute; reflexivity. Qed.
