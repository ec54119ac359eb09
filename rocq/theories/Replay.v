(** The repository's own tests and documented examples, replayed on the model:
    every expected output below is copied from the Go test, every input is the
    model's rendering of the Go expression.  Nothing here is a property; the
    file ties the model to the behaviour the authors observed.
    Left out: TestContextWithFragment (context_test.go, reads unexported fields
    of Context) and the examples without output (util, sqlb/example_pkg_test.go).
    ExampleInterpolate shows a local time; its output is that of UTC+8. *)
From Coq Require Import Strings.String NArith ZArith List.
From Verif Require Import GoStr GoNum Syntax Value Util Time Model Sqlf Sqlb.
Import ListNotations.
Open Scope string_scope.

Definition int (z : Z) : value := VInt "int" z.
Definition str (s : string) : value := VStr "string" s.

(* ------------------------------------------------------------------ *)
(** * fragment_test.go:12-183 (TestBuildFragment) *)

(** Fragment.BuildFragment on a new context: outcome and Args() *)
Definition run (style : Z) (e : env) (b : builder) : outcome string * list value :=
  let '(r, st) := build 60 e b (new_store style []) in (r, st_args st).
Definition bf (style : Z) (f : fragment) : outcome string * list value := run style [builtins] (BFrag f).
Definition table : builder := BTable "table".
Definition alias : builder := BTable "t".
Definition alias_col (c : string) : builder := column "t" c.

Example replay_nil : run style_dollar [builtins] BNilFrag = (ROk "", []).
Proof. vm_compute. reflexivity. Qed.
Example replay_join :
  bf style_question (Fa "?,#join('#arg',',')" [int 1; int 2]) = (ROk "?,?,?", [int 1; int 1; int 2]).
Proof. vm_compute. reflexivity. Qed.
Example replay_join_range :
  bf style_dollar (Fa "$1,#join('#arg',',', 2)" [int 1; int 2; int 3; int 4])
  = (ROk "$1,$2,$3,$4", [int 1; int 2; int 3; int 4]).
Proof. vm_compute. reflexivity. Qed.
Example replay_args_merging :
  bf style_dollar (Fa "#join('#arg',',')" [int 1; int 1; int 2; int 3])
  = (ROk "$1,$1,$2,$3", [int 1; int 2; int 3]).
Proof. vm_compute. reflexivity. Qed.
Example replay_join_mixed :
  bf style_dollar (with_args (with_frags (F "#join('#f1#arg',',')") [BFrag (F "p")]) [int 1; int 2])
  = (ROk "p$1,p$2", [int 1; int 2]).
Proof. vm_compute. reflexivity. Qed.
Example replay_f :
  bf style_dollar (with_frags (F "WHERE 1=1 #f1") [BFrag (F "")]) = (ROk "WHERE 1=1", []).
Proof. vm_compute. reflexivity. Qed.
Example replay_f_and_args :
  bf style_question (with_args (with_frags (F "WHERE #f1=?") [alias_col "id"]) [VNil])
  = (ROk "WHERE t.id=?", [VNil]).
Proof. vm_compute. reflexivity. Qed.
Example replay_nil_column :
  bf style_dollar (with_args (with_frags (F "WHERE #f1=$1") [BNilFrag]) [VNil])
  = (ROk "WHERE =$1", [VNil]).
Proof. vm_compute. reflexivity. Qed.
Example replay_complex :
  bf style_dollar
    (with_frags (with_args (F "WITH t AS (#f1) SELECT #f2,#f3,$1 FROM #f4 AS #f5") [str "foo"])
       [BFrag (with_frags (with_args (F "SELECT * FROM #f1 AS #f2 WHERE #f3 > $1") [int 1])
                 [table; alias; alias_col "id"]);
        alias_col "id";
        BFrag (with_args (with_frags (F "#f1.id=$1") [alias]) [int 2]);
        table; alias])
  = (ROk "WITH t AS (SELECT * FROM table AS t WHERE t.id > $1) SELECT t.id,t.id=$2,$3 FROM table AS t",
     [int 1; int 2; str "foo"]).
Proof. vm_compute. reflexivity. Qed.
Example replay_complex2 :
  bf style_dollar
    (with_frags (F "SELECT #join('#f', ', ', 3) FROM #f1 AS #f2")
       [table; alias; alias_col "id"; BFrag (with_args (with_frags (F "#f1.id=$1") [alias]) [int 1]);
        alias_col "name"])
  = (ROk "SELECT t.id, t.id=$1, t.name FROM table AS t", [int 1]).
Proof. vm_compute. reflexivity. Qed.
Example replay_prefix_empty :
  bf style_dollar (with_frags (with_suffix (with_prefix (F "#f1") "SELECT") "FOR UPDATE") [BFrag (F "")])
  = (ROk "", []).
Proof. vm_compute. reflexivity. Qed.
Example replay_prefix :
  bf style_dollar (with_frags (with_suffix (with_prefix (F "#f1") "SELECT") "FOR UPDATE") [BFrag (F "foo")])
  = (ROk "SELECT foo FOR UPDATE", []).
Proof. vm_compute. reflexivity. Qed.
Example replay_twice :
  bf style_dollar (with_frags (F "#f1, #f1") [BFrag (with_args (F "#join('#arg', ', '), ?") [int 1; int 2])])
  = (ROk "$1, $2, $1, $1, $2, $1", [int 1; int 2]).
Proof. vm_compute. reflexivity. Qed.
Example replay_arg_and_fragment :
  bf style_question (with_frags (Fa "? #f1" [int 1]) [BFrag (Fa "$1" [int 2])])
  = (ROk "? ?", [int 1; int 2]).
Proof. vm_compute. reflexivity. Qed.
Example replay_mixed_style :
  exists er, fst (bf style_dollar (Fa "?, $1" [VNil])) = RErr er.
Proof. eexists. vm_compute. reflexivity. Qed.

(* ------------------------------------------------------------------ *)
(** * example_test.go *)

Definition bq (style : Z) (h : list qb) (b : builder) := fst (build_query 60 style h b).

(** example_test.go:11-22 and 24-48 *)
Example replay_basic :
  bq style_dollar [] (BFrag (Ff "SELECT * FROM foo WHERE #join('#fragment', ' AND ')"
      [BFrag (Fa "baz = $1" [VBool "bool" true]); BFrag (Fa "bar BETWEEN ? AND ?" [int 1; int 100])]))
  = ROk ("SELECT * FROM foo WHERE baz = $1 AND bar BETWEEN $2 AND $3", [VBool "bool" true; int 1; int 100]).
Proof. vm_compute. reflexivity. Qed.

Definition anon (c : string) : builder := anonymous_column "users" c.

(** example_test.go:50-84: the fragments are filled in after they were put
    into the outer one; at build time they have their final contents. *)
Example replay_select :
  bq style_dollar []
    (BFrag (Ff "#join('#fragment', ' ')"
      [BFrag (with_frags (F "SELECT #join('#fragment', ', ')") [anon "id"; anon "name"; anon "email"]);
       BFrag (with_frags (F "FROM #f1") [BTable "users"]);
       BFrag (append_frags
         (with_frags (with_prefix (F "#join('#fragment', ' AND ')") "WHERE")
            [BFrag (with_args (with_frags (F "#f1 IN (#join('#arg', ', '))") [anon "id"]) [int 1; int 2; int 3])])
         [BFrag (with_args (with_frags (F "#f1 = $1") [anon "active"]) [VBool "bool" true])])]))
  = ROk ("SELECT id, name, email FROM users WHERE id IN ($1, $2, $3) AND active = $4",
         [int 1; int 2; int 3; VBool "bool" true]).
Proof. vm_compute. reflexivity. Qed.

(** example_test.go:86-116 *)
Example replay_update :
  bq style_dollar []
    (BFrag (Ff "#join('#fragment', ' ')"
      [BFrag (with_frags (F "UPDATE #f1") [BTable "users"]);
       BFrag (with_args (with_frags (F "SET #join('#fragment=#arg', ', ')") [anon "name"; anon "email"])
                [str "alice"; str "alice@example.org"]);
       BFrag (append_frags (with_prefix (F "#join('#fragment', ' AND ')") "WHERE")
                [BFrag (with_args (with_frags (F "#f1=$1") [anon "id"]) [int 1])])]))
  = ROk ("UPDATE users SET name=$1, email=$2 WHERE id=$3", [str "alice"; str "alice@example.org"; int 1]).
Proof. vm_compute. reflexivity. Qed.

(** example_test.go:118-150: ids.Build of NewArgsProperties(1, 2, 3) *)
Definition ids : list value := [int 1; int 2; int 3].
Definition ids_build (args : list lit) : prog :=
  match args with
  | [a] =>
    match nth1 ids (lit_int a) with
    | Some v => PCommit v (fun s => PRet s None)
    | None => PRet "" (Some (EInvalidIndex (lit_int a)))
    end
  | _ => PRet "" None
  end.
Definition id_funcs : list (string * func) :=
  [("_id", FnCustom (mkSig [GCtx; GNum] false [GStr false; GError]) ids_build)].
Definition nl : string := String (Ascii.ascii_of_nat 10) "".

Example replay_funcs_accepted : check_funcs id_funcs = None.
Proof. vm_compute. reflexivity. Qed.
Example replay_funcs :
  run style_dollar [id_funcs; builtins]
    (BFrag (Ff ("#join('#fragment', '" ++ nl ++ "UNION" ++ nl ++ "')")
      [BFrag (F "SELECT id, 'foo' typ, count FROM foo WHERE id IN (#join('#_id', ', '))");
       BFrag (F "SELECT id, 'bar' typ, count FROM bar WHERE id IN (#join('#_id', ', '))")]))
  = (ROk ("SELECT id, 'foo' typ, count FROM foo WHERE id IN ($1, $2, $3)" ++ nl ++ "UNION" ++ nl
          ++ "SELECT id, 'bar' typ, count FROM bar WHERE id IN ($1, $2, $3)"), ids).
Proof. vm_compute. reflexivity. Qed.

(* ------------------------------------------------------------------ *)
(** * syntax/scanner_test.go:8-110 *)

(** The scanned tokens without their positions *)
Definition toks (s : string) : option (list (toktype * string * bool * litkind * nat * nat)) :=
  match scan_all s with
  | Some l => Some (map (fun t => (t_typ t, t_lit t, t_bad t, t_kind t, t_start t, t_end t)) l)
  | None => None
  end.

Example replay_scan_refs : toks "$1,$2" = Some
  [(TkRef, "$", false, KString, 0, 1); (TkLiteral, "1", false, KNumber, 1, 2);
   (TkPlain, ",", false, KString, 2, 3); (TkRef, "$", false, KString, 3, 4);
   (TkLiteral, "2", false, KNumber, 4, 5); (TkEOF, "", false, KString, 5, 5)].
Proof. vm_compute. reflexivity. Qed.
Example replay_scan_in : toks "a IN (?,?)" = Some
  [(TkPlain, "a IN (", false, KString, 0, 6); (TkRef, "?", false, KString, 6, 7);
   (TkPlain, ",", false, KString, 7, 8); (TkRef, "?", false, KString, 8, 9);
   (TkPlain, ")", false, KString, 9, 10); (TkEOF, "", false, KString, 10, 10)].
Proof. vm_compute. reflexivity. Qed.
Example replay_scan_quoted : toks "'a''b'" = Some
  [(TkPlain, "'a''b'", false, KString, 0, 6); (TkEOF, "", false, KString, 6, 6)].
Proof. vm_compute. reflexivity. Qed.
Example replay_scan_unclosed : toks "'a''b" = Some
  [(TkPlain, "'a''b", true, KString, 0, 5); (TkEOF, "", false, KString, 5, 5)].
Proof. vm_compute. reflexivity. Qed.
Example replay_scan_escape : toks "$$1" = Some
  [(TkPlain, "$$1", false, KString, 0, 3); (TkEOF, "", false, KString, 3, 3)].
Proof. vm_compute. reflexivity. Qed.
Example replay_scan_call : toks "#a(1,2)aaaa" = Some
  [(TkHash, "#", false, KString, 0, 1); (TkName, "a", false, KString, 1, 2);
   (TkLparen, "(", false, KString, 2, 3); (TkLiteral, "1", false, KNumber, 3, 4);
   (TkComma, ",", false, KString, 4, 5); (TkLiteral, "2", false, KNumber, 5, 6);
   (TkRparen, ")", false, KString, 6, 7); (TkPlain, "aaaa", false, KString, 7, 11);
   (TkEOF, "", false, KString, 11, 11)].
Proof. vm_compute. reflexivity. Qed.
Example replay_scan_number : toks "#a11aaaa" = Some
  [(TkHash, "#", false, KString, 0, 1); (TkName, "a", false, KString, 1, 2);
   (TkLiteral, "11", false, KNumber, 2, 4); (TkPlain, "aaaa", false, KString, 4, 8);
   (TkEOF, "", false, KString, 8, 8)].
Proof. vm_compute. reflexivity. Qed.

(* ------------------------------------------------------------------ *)
(** * syntax/parser_test.go:8-79 *)

Definition rejected {A} (r : pres A) : Prop := exists off msg, r = PErr off msg.
Definition one : f64 := SpecFloat.S754_finite false 4503599627370496 (-52).

(** The test also lists "$1,?" with wantErr, but accepts a missing error
    (parser_test.go:68-70 only looks at errors when wantErr is false); the parser
    does accept that input, see c08_mixed_refuted. *)
Example replay_parse_errors : rejected (parse "?1") /\ rejected (parse "$").
Proof. repeat apply conj; eexists; eexists; vm_compute; reflexivity. Qed.
Example replay_parse_unnoticed : parse "$1,?" = POk
  [EBind style_dollar 1 (mkPos 1 1); EPlain "," (mkPos 1 3); EBind style_question 2 (mkPos 1 4)].
Proof. vm_compute. reflexivity. Qed.
Example replay_parse_question : parse "?,?,?" = POk
  [EBind style_question 1 (mkPos 1 1); EPlain "," (mkPos 1 2); EBind style_question 2 (mkPos 1 3);
   EPlain "," (mkPos 1 4); EBind style_question 3 (mkPos 1 5)].
Proof. vm_compute. reflexivity. Qed.
Example replay_parse_quoted : parse "$1'#c11#t111#fragment1111'" = POk
  [EBind style_dollar 1 (mkPos 1 1); EPlain "'#c11#t111#fragment1111'" (mkPos 1 3)].
Proof. vm_compute. reflexivity. Qed.
Example replay_parse_join : parse "#join('#c=#argDollar', ',')" = POk
  [ECall "join" [LStr "#c=#argDollar"; LStr ","] (mkPos 1 1)].
Proof. vm_compute. reflexivity. Qed.
Example replay_parse_numbers : parse "#c1#t1#fragment1" = POk
  [ECall "c" [LNum one] (mkPos 1 1); ECall "t" [LNum one] (mkPos 1 4);
   ECall "fragment" [LNum one] (mkPos 1 7)].
Proof. vm_compute. reflexivity. Qed.

(* ------------------------------------------------------------------ *)
(** * util/args_test.go:10-43, util/example_test.go:13-40 *)

Definition ints (l : list Z) : value := VSlice "[]int" (Some (map int l)).
Definition strs (l : list string) : value := VSlice "[]string" (Some (map str l)).
Definition mystr (s : string) : value := VStr "str" s.
Definition str_ptr : value := VPtr "*str" 1%N (Some (mystr "a")).

Example replay_flat :
  args_flatted [int 1] = ROk [int 1]
  /\ args_flatted [ints [1; 2; 3]%Z] = ROk [int 1; int 2; int 3]
  /\ args_flatted [ints [1; 2]%Z; ints []; ints [3]%Z] = ROk [int 1; int 2; int 3]
  /\ args_flatted [strs ["a"; "b"; "c"]] = ROk [str "a"; str "b"; str "c"]
  /\ args_flatted [VSlice "[]str" (Some [mystr "a"; mystr "b"; mystr "c"])]
     = ROk [mystr "a"; mystr "b"; mystr "c"]
  /\ args_flatted [VSlice "[]*str" (Some [str_ptr])] = ROk [str_ptr]
  /\ args_flatted [VSlice "[]any" (Some [int 1; str "a"; int 2; str "b"; int 3; str "c"])]
     = ROk [int 1; str "a"; int 2; str "b"; int 3; str "c"]
  /\ args_flatted [int 0; ints [1; 2; 3]%Z; strs ["a"; "b"; "c"]]
     = ROk [int 0; int 1; int 2; int 3; str "a"; str "b"; str "c"].
Proof. repeat apply conj; vm_compute; reflexivity. Qed.
Example replay_args :
  args_flatted [int 1; int 2; int 3] = ROk [int 1; int 2; int 3]
  /\ args_flatted [VPtr "*[]int" 1%N (Some (ints [1; 2; 3]%Z))] = ROk [int 1; int 2; int 3]
  /\ args_flatted [VArray "[3]int" [int 1; int 2; int 3]] = ROk [int 1; int 2; int 3]
  /\ args_flatted [int 1; ints [2; 3]%Z; strs ["a"; "b"; "c"]]
     = ROk [int 1; int 2; int 3; str "a"; str "b"; str "c"].
Proof. repeat apply conj; vm_compute; reflexivity. Qed.
Example replay_interpolate :
  interpolate_with (fun _ _ => ("CST", 28800)%Z) [Some "2006-01-02 15:04:05"] "SELECT * FROM foo WHERE status = ? AND created_at > ?"
    [str "ok"; VTime (GoTime 62135596800000000000 0%N None)]
  = ROk "SELECT * FROM foo WHERE status = 'ok' AND created_at > '1970-01-01 08:00:00'".
Proof. vm_compute. reflexivity. Qed.

(* ------------------------------------------------------------------ *)
(** * sqlb/query_builder_test.go:12-59, sqlb/example_test.go *)

Definition made (ops : list qop) : qb := match apply_ops ops new_qb with ROk q => q | _ => new_qb end.
Definition users : tname := ("users", "u").
Definition foo : tname := ("foo", "f").
Definition bar : tname := ("bar", "b").
Definition barcte : tname := ("bar_type_1", "b1").

Definition test_query : list qb :=
  [made [ODistinct;
         OWith "users" (BFrag (Fa "SELECT * FROM users WHERE type=$1" [str "user"])) [];
         OWith "xxx" (BFrag (F "SELECT 1 AS whatever")) [];
         OSelect [acolumn foo "id"; acolumn foo "name"];
         OFrom users;
         OLeftJoinOptional foo (Some (Ff "#f1=#f2" [acolumn foo "user_id"; acolumn users "id"]));
         OLeftJoinOptional bar (Some (Ff "#f1=#f2" [acolumn bar "user_id"; acolumn users "id"]));
         OWhere2 (acolumn users "id") "=" (int 1);
         OUnion [BQuery (Some 1)]];
   made [OSelect [acolumn foo "id"; acolumn foo "name"]; OFrom foo;
         OWhere (Some (with_args (with_frags (F "#f1>$1 AND #f1<$2") [acolumn foo "id"]) [int 10; int 20]))]].
Example replay_query :
  bq style_dollar test_query (BQuery (Some 0))
  = ROk ("With users AS (SELECT * FROM users WHERE type=$1) SELECT DISTINCT f.id, f.name FROM users AS u LEFT JOIN foo AS f ON f.user_id=u.id WHERE u.id=$2 UNION (SELECT f.id, f.name FROM foo AS f WHERE f.id>$3 AND f.id<$4)",
         [str "user"; int 1; int 10; int 20]).
Proof. vm_compute. reflexivity. Qed.

(** sqlb/example_test.go:11-49: built twice, the second time on what the first
    build left behind *)
Definition twice_query : list qb :=
  [made [OSelect [acolumn foo "*"]; OFrom foo;
         OInnerJoin bar (Some (Ff "#f1=#f2" [acolumn bar "foo_id"; acolumn foo "id"]));
         OWhere (Some (with_args (with_frags (F "(#f1=$1 OR #f2=$1)") [acolumn foo "a"; acolumn foo "b"]) [int 1]));
         OWhere2 (acolumn bar "c") "=" (int 2)]].
Example replay_build_query :
  let '(r1, h1) := build_query 60 style_dollar twice_query (BQuery (Some 0)) in
  let '(r2, _) := build_query 60 style_question h1 (BQuery (Some 0)) in
  r1 = ROk ("SELECT f.* FROM foo AS f INNER JOIN bar AS b ON b.foo_id=f.id WHERE (f.a=$1 OR f.b=$1) AND b.c=$2",
            [int 1; int 2])
  /\ r2 = ROk ("SELECT f.* FROM foo AS f INNER JOIN bar AS b ON b.foo_id=f.id WHERE (f.a=? OR f.b=?) AND b.c=?",
               [int 1; int 1; int 2]).
Proof. vm_compute. apply conj; reflexivity. Qed.

(** sqlb/example_test.go:51-78 *)
Example replay_optional :
  bq style_dollar
    [made [ODistinct; OSelect [acolumn foo "*"]; OFrom foo;
           OLeftJoinOptional bar (Some (Ff "#f1=#f2" [acolumn bar "foo_id"; acolumn foo "id"]));
           OWhere2 (acolumn foo "id") ">" (int 1)]] (BQuery (Some 0))
  = ROk ("SELECT DISTINCT f.* FROM foo AS f WHERE f.id>$1", [int 1]).
Proof. vm_compute. reflexivity. Qed.

(** sqlb/example_test.go:80-115 *)
Example replay_with :
  bq style_dollar
    [made [OWith "bar_type_1"
             (BFrag (with_args (with_frags (F "SELECT * FROM #f1 AS #f2 WHERE #f3=$1")
                                  [BTable "bar"; BTable "b"; acolumn bar "type"]) [int 1])) [];
           OSelect [acolumn foo "*"; acolumn barcte "*"]; OFrom foo;
           OLeftJoinOptional barcte (Some (Ff "#f1=#f2" [acolumn barcte "foo_id"; acolumn foo "id"]))]]
    (BQuery (Some 0))
  = ROk ("With bar_type_1 AS (SELECT * FROM bar AS b WHERE b.type=$1) SELECT f.*, b1.* FROM foo AS f LEFT JOIN bar_type_1 AS b1 ON b1.foo_id=f.id",
         [int 1]).
Proof. vm_compute. reflexivity. Qed.

(** sqlb/example_test.go:117-140 *)
Example replay_union :
  bq style_dollar
    [made [OSelect [acolumn foo "*"]; OFrom foo; OWhere2 (acolumn foo "id") " = " (int 1);
           OUnion [BQuery (Some 1)]];
     made [OFrom foo; OWhereIn (acolumn foo "id") (VSlice "[]any" (Some [int 2; int 3; int 4]));
           OSelect [acolumn foo "*"]]] (BQuery (Some 0))
  = ROk ("SELECT f.* FROM foo AS f WHERE f.id = $1 UNION (SELECT f.* FROM foo AS f WHERE f.id IN ($2, $3, $4))",
         [int 1; int 2; int 3; int 4]).
Proof. vm_compute. reflexivity. Qed.
