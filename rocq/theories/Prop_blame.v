(** The texts of errors. *)
From Coq Require Import Strings.String Strings.Ascii NArith ZArith List Bool.
From Verif Require Import GoStr GoNum Syntax Value Util Model Sqlf Sqlb Spec_syntax Spec_base Spec_eval Spec_query Spec_blame Blame_proofs.
Import ListNotations.
Open Scope string_scope.

(** C83: an error says what is wrong and where. *)
Theorem c83_error : forall e, proper_env e -> forall n b st er st', build n e b st = (RErr er, st') -> fails e st b (err_text er).
Proof. exact blame_error. Qed.
Print Assumptions c83_error.
(** So does a panic. *)
Theorem c83_panic : forall e, proper_env e -> forall n b st er st', build n e b st = (RPanic er, st') -> panics e st b (err_text er).
Proof. exact blame_panic. Qed.
Print Assumptions c83_panic.
(** The errors of BuildQuery. *)
Theorem c83_query : forall n style h b er h', build_query n style h b = (RErr er, h') -> fails [builtins] (new_store style h) b (err_text er).
Proof. exact blame_query. Qed.
Print Assumptions c83_query.
(** Errors of a fragment begin with its template, whatever functions are in scope. *)
Theorem c83_where : forall n e f st er st', build n e (BFrag f) st = (RErr er, st') ->
  exists m, err_text er = "build '" ++ f_raw f ++ "': " ++ m \/ err_text er = "parse '" ++ f_raw f ++ "': " ++ m.
Proof. exact blame_where. Qed.
Print Assumptions c83_where.
(** Numbers of parameters in errors do not always count alike: with a context
    they start at 1, without one at 0. *)
Theorem c83_position_refuted : exists sf sg body, params (FnCustom sf body) = params (FnCustom sg body) /\
  let said s := match fst (build 9 [[("f", FnCustom s body)]] (BFrag (F "#f('x')")) (new_store style_question [])) with RErr er => err_text er | _ => "" end in
  said sf = "build '#f('x')': arg 0 has wrong type for #f: can't assign string to number" /\
  said sg = "build '#f('x')': arg 1 has wrong type for #f: can't assign string to number".
Proof.
  exists (mkSig [GNum] false [GStr false]), (mkSig [GCtx; GNum] false [GStr false]), (fun _ => PRet "" None).
  repeat apply conj; vm_compute; reflexivity.
Qed.
Print Assumptions c83_position_refuted.

Definition message (h : list qb) (b : builder) : string :=
  match fst (build_query 40 style_question h b) with RErr er => err_text er | _ => "" end.
Example c83_example :
  proper_env [builtins] /\
  message [] (BFrag (Frag "a #f1" [] [BFrag (Frag "b $1" [VInt "int" 1; VInt "int" 2] [] "" "")] "" "")) =
    "build 'a #f1': error calling #f: build 'b $1': args #2 unused" /\
  message [] (BFrag (Frag "$1 $3" [VInt "int" 1; VInt "int" 2] [] "" "")) = "build '$1 $3': invalid bind var index 3" /\
  message [] (BFrag (F "#f")) = "build '#f': unexpected function value, forgot to call it?" /\
  message [] (BFrag (F "a #f(1")) = "parse 'a #f(1': 6: syntax error: unexpected token EOF, want )".
Proof. apply conj; [exact proper_builtins|]. repeat apply conj; vm_compute; reflexivity. Qed.
Print Assumptions c83_example.
Definition described (os : list qop) : list qb := match apply_ops os new_qb with ROk q => [q] | _ => [] end.
Example c83_query_example :
  message (described [OSelect [column "b" "id"]; OFrom ("a", "")]) (BQuery (Some 0)) = "from undefined: 'b'" /\
  message (described [OSelect [column "a" "id"]; OFrom ("a", ""); OWith "a" (BFrag (F "$1")) []]) (BQuery (Some 0)) =
    "build CTE 'a': build '$1': invalid bind var index 1" /\
  message (described [OSelect [column "a" "id"]; OFrom ("a", ""); OLeftJoin ("b", "c") (Some (F "$2"))]) (BQuery (Some 0)) =
    "build FROM '{b c}': build 'LEFT JOIN b AS c #f1': error calling #f: build '$2': invalid bind var index 2" /\
  message (described [OFrom ("", ""); OJoin "JOIN" ("", "") None false]) (BQuery (Some 0)) =
    "collected errors: " ++ new_line ++ " - from table is empty" ++ new_line ++ " - join table name is empty" ++ new_line /\
  message (described [OFrom ("a", "")]) (BQuery (Some 0)) = "no columns selected".
Proof. repeat apply conj; vm_compute; reflexivity. Qed.
Print Assumptions c83_query_example.
