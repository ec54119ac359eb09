(** Property C72 (names of tables and columns).  The vocabulary is in
    Spec_table.v; the proofs are in Table_proofs.v. *)
From Coq Require Import Strings.String Strings.Ascii NArith ZArith List Bool Lia.
From Verif Require Import GoStr GoNum Syntax Value Util Model Sqlf Sqlb Table Spec_syntax Spec_build Spec_eval Spec_query Spec_table
  Prop_query Table_proofs.
Import ListNotations.
Open Scope string_scope.

(** C72: names of tables and columns go through the template parser.  Names made
    of plain text, quoted text and doubled markers are written as given: table,
    dot, name. *)
Theorem c72_column : forall n e lt l st, forallb is_inert lt = true -> forallb wf1 lt = true -> forallb is_inert l = true -> forallb wf1 l = true ->
  build (S (S n)) e (column (print lt) (print l)) st = (ROk (trim_space (dotted (print lt) (print l))), st).
Proof. exact column_inert. Qed.
Print Assumptions c72_column.
Theorem c72_anonymous : forall n e t l st, forallb is_inert l = true -> forallb wf1 l = true ->
  build (S (S n)) e (anonymous_column t (print l)) st = (ROk (trim_space (print l)), st).
Proof. exact anonymous_inert. Qed.
Print Assumptions c72_anonymous.
(** Whatever the name: in quotes, with the quotes inside doubled, it is safe. *)
Theorem c72_identifier : forall n e q t q' name st, is_quote q = true -> is_quote q' = true -> no_nul t = true -> no_nul name = true ->
  build (S (S n)) e (column (identifier q t) (identifier q' name)) st = (ROk (identifier q t ++ "." ++ identifier q' name), st).
Proof. exact column_identifier. Qed.
Print Assumptions c72_identifier.
Theorem c72_columns : forall n e q t q' names st, lookup_fn e "join" = Some FnJoin -> lookup_fn e "fragment" = Some FnFragment ->
  is_quote q = true -> is_quote q' = true -> no_nul t = true -> forallb no_nul names = true -> names <> [] -> List.length names <= n ->
  build (S (S (S n))) e (BFrag (joined_by ", " "SELECT" (columns (identifier q t) (map (identifier q') names)))) st =
  (ROk ("SELECT " ++ str_join ", " (map (fun x => identifier q t ++ "." ++ identifier q' x) names)), st).
Proof. exact columns_identifier. Qed.
Print Assumptions c72_columns.
(** A name without # is written as given or the build fails; it never becomes another one. *)
Theorem c72_verbatim : forall n e t name st s st', no_nul (dotted t name) = true -> no_hash (dotted t name) = true ->
  build n e (column t name) st = (ROk s, st') -> s = trim_space (dotted t name) /\ st' = st.
Proof. intros n e t name st s st' Hn Hh H. rewrite column_frag in H. exact (verbatim_or_error n e _ st s st' Hn Hh H). Qed.
Print Assumptions c72_verbatim.
(** Not every name is accepted: a question mark in a name is a bind variable ... *)
Theorem c72_question_refuted : forall n e t name st, plain_text t = true -> plain_text name = true ->
  exists er, build (S (S n)) e (column t (name ++ "?")) st = (RErr er, st) /\ is_invalid_index er = false.
Proof. exact question_name. Qed.
Print Assumptions c72_question_refuted.
(** ... and the last of the listed columns vanishes without an error if its name
    ends with #f and a number. *)
Theorem c72_dropped_refuted : forall n e t name k sep prefix pre st ss st1, lookup_fn e "join" = Some FnJoin -> lookup_fn e "fragment" = Some FnFragment ->
  lookup_fn e "f" = Some FnFragment ->
  sep = ", " \/ sep = " AND " -> plain_text t = true -> plain_text name = true -> (k < 9007199254740992)%N ->
  do_all (build (S (S n)) e) pre st = (ROk ss, st1) -> List.length pre <= n ->
  build (S (S (S n))) e (BFrag (joined_by sep prefix (pre ++ [column t (name ++ "#f" ++ dec k)]))) st =
  build (S (S (S n))) e (BFrag (joined_by sep prefix pre)) st.
Proof. exact hash_dropped. Qed.
Print Assumptions c72_dropped_refuted.
(** The table a column is looked up in. *)
Theorem c72_table : forall t name u,
  (mentions (column t name) u <-> t <> "" /\ u = t) /\ (mentions (anonymous_column t name) u <-> t <> "" /\ u = t).
Proof. intros t name u. exact (conj (column_mentions t name u) (anonymous_mentions t name u)). Qed.
Print Assumptions c72_table.
Theorem c72_expression : forall f u, mentions (BCol (Some f) "") u <-> mentions (BFrag f) u.
Proof. exact expr_mentions. Qed.
Print Assumptions c72_expression.
(** Lists of columns hold one column for each name or expression, in order, a
    nil expression being an empty text. *)
Theorem c72_listed : forall t names, Forall2 (fun name c => (forall n e st, build n e c st = build n e (BFrag (F (dotted t name))) st) /\
  (forall u, mentions c u <-> t <> "" /\ u = t)) names (columns t names).
Proof. exact columns_each. Qed.
Print Assumptions c72_listed.
Theorem c72_anonymous_listed : forall t names, Forall2 (fun name c => (forall n e st, build n e c st = build n e (BFrag (F name)) st) /\
  (forall u, mentions c u <-> t <> "" /\ u = t)) names (anonymous_columns t names).
Proof. exact anonymous_each. Qed.
Print Assumptions c72_anonymous_listed.
Theorem c72_expressions_listed : forall fs, Forall2 (fun f c => match f with
  | Some f => (forall n e st, build n e c st = build n e (BFrag f) st) /\ (forall u, mentions c u <-> mentions (BFrag f) u)
  | None => (forall n e st, build (S n) e c st = (ROk "", st)) /\ (forall u, ~ mentions c u)
  end) fs (expr_columns fs).
Proof. exact expr_each. Qed.
Print Assumptions c72_expressions_listed.
(** Columns of an aliased table are those of its alias, else of its name. *)
Theorem c72_aliased : forall x b a name names, let t := new_table_aliased x a in let u := if is_empty a then x else a in
  with_alias (new_table_aliased x b) a = t /\ table_names t = [x; a] /\
  acolumns t names = columns u names /\
  aanonymous_column t name = anonymous_column u name /\ aanonymous_columns t names = anonymous_columns u names /\
  forall n e st, build (S n) e (BTabAl (fst t) (snd t)) st = (ROk u, st).
Proof. exact aliased_methods. Qed.
Print Assumptions c72_aliased.
Example c72_example :
  (let lt := [Quoted """" "Order Items"] in let l := [Text "price"; Esc true; Quoted "`" "#?"] in
   forallb is_inert lt = true /\ forallb wf1 lt = true /\ forallb is_inert l = true /\ forallb wf1 l = true /\
   dotted (print lt) (print l) = """Order Items"".price$$`#?`") /\
  identifier """" "a ""b"" ?" = """a """"b"""" ?""" /\
  run style_question [OSelect (columns "t" ["id"; "name"] ++ anonymous_columns "t" ["x"] ++ expr_columns [Some (F "1+1")]);
    OFrom ("things", "t"); OGroupBy (acolumns ("things", "t") ["id"])] = ROk ("SELECT t.id, t.name, x, 1+1 FROM things AS t GROUP BY t.id", []) /\
  run style_question [OSelect (columns (identifier "`" "t") (map (identifier "`") ["a?"; "#f1"; "`"])); OFrom (identifier "`" "t", "")]
    = ROk ("SELECT `t`.`a?`, `t`.`#f1`, `t`.```` FROM `t`", []) /\
  (exists e, run style_question [OSelect (columns "t" ["id"; "ok?"]); OFrom ("t", "")] = RErr e) /\
  (exists e, run style_question [OSelect (columns "t" ["id"; "price$"]); OFrom ("t", "")] = RErr e) /\
  run style_question [OSelect (columns "t" ["id"; "part#f2"]); OFrom ("t", "")] = ROk ("SELECT t.id FROM t", []).
Proof.
  apply conj; [cbv zeta; repeat apply conj; vm_compute; reflexivity|].
  apply conj; [vm_compute; reflexivity|]. apply conj; [vm_compute; reflexivity|]. apply conj; [vm_compute; reflexivity|].
  apply conj; [eexists; vm_compute; reflexivity|]. apply conj; [eexists; vm_compute; reflexivity|]. vm_compute. reflexivity.
Qed.
