(** Names in messages. *)
From Coq Require Import Strings.String Strings.Ascii NArith ZArith List Bool.
From Verif Require Import GoStr GoNum Letters Printable Quote Syntax Value Util Model Sqlf Sqlb Spec_syntax Spec_base Spec_eval Spec_utf8 Spec_quote Quote_proofs Quote2_proofs.
Import ListNotations.
Open Scope string_scope.

(** C92: quoting escapes exactly what it has to. *)
Theorem c92_quote : forall s q, quoted s q <-> q = quote s.
Proof. exact quote_quoted. Qed.
Print Assumptions c92_quote.
(** Different texts are quoted differently. *)
Theorem c92_injective : forall s s', quote s = quote s' -> s = s'.
Proof. exact quote_inj. Qed.
Print Assumptions c92_injective.
(** A quoted text is valid UTF-8 of printable characters, so it stays in one line. *)
Theorem c92_printable : forall s, exists rs, quote s = encoded rs /\ Forall (fun r => scalar r /\ printable r) rs.
Proof. exact quote_shown. Qed.
Print Assumptions c92_printable.
(** Printable text without double quotes and backslashes stays as it is. *)
Theorem c92_plain : forall rs, Forall (fun r => scalar r /\ printable r /\ r <> 34%N /\ r <> 92%N) rs -> quote (encoded rs) = """" ++ encoded rs ++ """".
Proof. exact quote_plain. Qed.
Print Assumptions c92_plain.
(** So do names that can be registered ... *)
Theorem c92_identifier : forall nm, identifier nm -> quote nm = """" ++ nm ++ """".
Proof. exact quote_identifier. Qed.
Print Assumptions c92_identifier.
(** ... and the names of calls in templates. *)
Theorem c92_template : forall s l nm a, parsed s = Some l -> In (ACall nm a) l -> identifier nm /\ quote nm = """" ++ nm ++ """".
Proof. exact template_call_quoted. Qed.
Print Assumptions c92_template.
(** The messages about names tell them apart. *)
Theorem c92_messages : forall nm nm',
  (err_text (not_defined nm) = err_text (not_defined nm') -> nm = nm') /\ (err_text (bad_name nm) = err_text (bad_name nm') -> nm = nm').
Proof. exact messages_differ. Qed.
Print Assumptions c92_messages.
(** The table of printable characters: in order, as many as Unicode 15.0 has
    letters, marks, numbers, punctuation, symbols and the space; it has all
    letters; Latin-1 written out. *)
Theorem c92_table : apart print_ranges /\ counted print_ranges = (136104 + 2450 + 1831 + 842 + 7770 + 1)%N /\ (forall r, letter r -> printable r) /\
  (forall r, (r < 256)%N -> (printable r <-> (32 <= r <= 126 \/ 161 <= r <= 255 /\ r <> 173)%N)).
Proof. exact print_table. Qed.
Print Assumptions c92_table.

Example c92_example :
  quote ("a""b\" ++ bytes [10; 1; 127; 255; 195; 169; 226; 128; 168; 243; 160; 128; 129; 195]%N) = """a\""b\\\n\x01\x7f\xffé\u2028\U000e0001\xc3""" /\
  quoted "é" """é""" /\ err_text (bad_name ("f" ++ bytes [10]%N)) = "function name ""f\n"" is not a valid identifier, only letters and underscore are allowed" /\
  parsed "x #größe(1)" = Some [APlain "x "; AFunc "gr"; APlain "öße(1)"] /\ (exists a, parsed "x #no_such(1)" = Some [APlain "x "; ACall "no_such" a]) /\
  fst (build 20 [builtins] (BFrag (Frag "#no_such(1)" [] [] "" "")) (new_store style_question [])) = RErr (EWrap "build '#no_such(1)'" (EMsg """no_such"" is not a defined function")).
Proof.
  split; [vm_compute; reflexivity|]. split; [apply c92_quote; vm_compute; reflexivity|]. split; [vm_compute; reflexivity|]. split; [vm_compute; reflexivity|].
  split; [eexists; vm_compute; reflexivity|vm_compute; reflexivity].
Qed.
