(** C100: interpolated values read back as the literals they are.
    Example of the hypotheses at the end. *)
From Coq Require Import Strings.String Strings.Ascii NArith ZArith List Bool.
From Verif Require Import GoStr GoNum Syntax Value Util Spec_syntax Spec_util Sqltok_proofs Spec_sqltok.
Import ListNotations.
Open Scope string_scope.

(** A reader of the interpolated query finds the tokens of the query's texts
    and, in the place of each placeholder, exactly the tokens of its value. *)
Theorem c100_tokens : forall bs ft q args l out, parsed q = Some l -> alone bs l -> forallb (readable bs ft) args = true ->
  interpolate ft q args = ROk out -> shown bs ft args l (tokens bs out).
Proof. exact interpolated_tokens. Qed.
Print Assumptions c100_tokens.
(** These are determined by the query and the arguments. *)
Theorem c100_one : forall bs ft args l ts us, shown bs ft args l ts -> shown bs ft args l us -> ts = us.
Proof. exact shown_one. Qed.
Print Assumptions c100_one.
(** Other values of the same kinds change the content of literals only. *)
Theorem c100_shape : forall bs ft q args args' l out out', parsed q = Some l -> alone bs l ->
  forallb (readable bs ft) args = true -> forallb (readable bs ft) args' = true -> Forall2 alike args args' ->
  interpolate ft q args = ROk out -> interpolate ft q args' = ROk out' ->
  map shape (tokens bs out) = map shape (tokens bs out').
Proof. exact interpolated_shape. Qed.
Print Assumptions c100_shape.
(** One literal on its own. *)
Theorem c100_literal : forall bs ft v s, encode_value ft v = ROk s -> readable bs ft v = true -> stands ft v (tokens bs s).
Proof. exact literal_tokens. Qed.
Print Assumptions c100_literal.
(** The placeholders have to stand alone: a negative number after a minus
    sign begins a comment. *)
Theorem c100_alone_refuted : ~ forall ft q args l out, parsed q = Some l -> forallb (readable false ft) args = true ->
  interpolate ft q args = ROk out -> shown false ft args l (tokens false out).
Proof. exact not_alone. Qed.
Print Assumptions c100_alone_refuted.
(** Where a backslash escapes, a string with one can leave its literal. *)
Theorem c100_backslash_refuted : ~ forall ft q args l out, parsed q = Some l -> alone true l ->
  interpolate ft q args = ROk out -> shown true ft args l (tokens true out).
Proof. exact not_escaped. Qed.
Print Assumptions c100_backslash_refuted.
(** A time format with a quote can, too: formatted times are not escaped. *)
Theorem c100_time_refuted : ~ forall ft q args l out, parsed q = Some l -> alone false l ->
  interpolate ft q args = ROk out -> shown false ft args l (tokens false out).
Proof. exact not_quoted. Qed.
Print Assumptions c100_time_refuted.

Definition no_times (t : gotime) : string := "".
Definition attack : string := "x' OR 1=1 --".
Example c100_example :
  let args := [VStr "string" attack; VInt "int" (-5)%Z] in
  exists l, parsed "SELECT * FROM t WHERE a=$1 AND b>$2 -- x" = Some l /\ alone false l /\
    forallb (readable false no_times) args = true /\
    interpolate no_times "SELECT * FROM t WHERE a=$1 AND b>$2 -- x" args =
      ROk "SELECT * FROM t WHERE a='x'' OR 1=1 --' AND b>-5 -- x" /\
    tokens false "SELECT * FROM t WHERE a='x'' OR 1=1 --' AND b>-5 -- x" =
      [TWord "SELECT"; TOp "*"; TWord "FROM"; TWord "t"; TWord "WHERE"; TWord "a"; TOp "="; TStr attack;
       TWord "AND"; TWord "b"; TOp ">"; TOp "-"; TNum "5"; TComment " x"] /\
    Forall2 alike args [VStr "string" "y"; VInt "int64" (-7)%Z].
Proof.
  eexists. split; [vm_compute; reflexivity|]. split.
  - cbn [alone]. repeat split; try (right; vm_compute; reflexivity); try (vm_compute; reflexivity). left. reflexivity.
  - split; [reflexivity|]. split; [vm_compute; reflexivity|]. split; [vm_compute; reflexivity|]. repeat constructor.
Qed.
