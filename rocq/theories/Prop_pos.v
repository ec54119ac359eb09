(** Properties C65: source positions of parsed expressions and of syntax errors. *)
From Coq Require Import Strings.String Strings.Ascii ZArith NArith List Bool.
From Verif Require Import GoStr GoNum Syntax Spec_syntax Spec_pos Lex_proofs Pos_proofs.
Import ListNotations.
Open Scope string_scope.

(** C65: the expressions of an accepted template are written one after the other
    in it, and each carries the position of its own text. *)
Theorem c65_positions : forall s es, no_nul s = true -> parse s = POk es ->
  exists srcs, Forall2 source (map strip es) srcs /\ concat_all srcs = s /\
    map expr_pos es = reported_all "" srcs.
Proof. exact positions. Qed.
Print Assumptions c65_positions.
Theorem c65_one_line : forall s es, no_nul s = true -> has_break s = false -> parse s = POk es ->
  exists srcs, Forall2 source (map strip es) srcs /\ concat_all srcs = s /\
    map expr_pos es = places "" srcs.
Proof. exact positions_flat. Qed.
Print Assumptions c65_one_line.
(** A text that begins with a line break is not given its place. *)
Theorem c65_line_break_refuted : exists s es, no_nul s = true /\ parse s = POk es /\
  forall srcs, map expr_pos es <> places "" srcs.
Proof. exact positions_break. Qed.
Print Assumptions c65_line_break_refuted.
(** A syntax error names an offset in the template (or its end). *)
Theorem c65_error_offset : forall s offset msg, parse s = PErr offset msg -> offset <= String.length s.
Proof. exact error_offset. Qed.
Print Assumptions c65_error_offset.
Definition c65_text : string := "a" ++ String (ascii_of_nat 195) (String (ascii_of_nat 164) "") ++ "b #f('x', 1)"
  ++ String (ascii_of_nat 10) " and #g" ++ String (ascii_of_nat 10) " = ?".
Example c65_example : no_nul c65_text = true /\
  match parse c65_text with
  | POk es => map expr_pos es = [mkPos 1 1; mkPos 1 5; mkPos 2 0; mkPos 2 6; mkPos 3 0; mkPos 3 4]
  | _ => False
  end /\
  place c65_text = mkPos 3 5.
Proof. apply conj; [|apply conj]; vm_compute; reflexivity. Qed.
Example c65_flat_example : has_break "id = $1 AND #join('#$', ',')" = false /\
  match parse "id = $1 AND #join('#$', ',')" with
  | POk es => map expr_pos es = [mkPos 1 1; mkPos 1 6; mkPos 1 8; mkPos 1 13]
  | _ => False
  end.
Proof. apply conj; vm_compute; reflexivity. Qed.
Example c65_error_example : exists m, parse "SELECT #f(1, 'a" = PErr 13 m.
Proof. eexists. vm_compute. reflexivity. Qed.
