(** Property C90: decoding UTF-8, and which names can be registered.  The
    vocabulary is in Spec_utf8.v; the proofs are in Rune_proofs.v and Utf8_proofs.v. *)
From Coq Require Import Strings.String Strings.Ascii NArith ZArith List Bool Lia.
From Verif Require Import GoStr GoNum Letters Syntax Value Util Model Sqlf Register Spec_syntax Spec_eval Spec_base Spec_utf8 Rune_proofs Utf8_proofs.
Import ListNotations.
Open Scope string_scope.

(** C90: an encoded code point is decoded, from the front ... *)
Theorem c90_decode : forall r s, scalar r -> decode_rune (utf8 r ++ s) = (r, String.length (utf8 r)).
Proof. exact decode_encoded. Qed.
Print Assumptions c90_decode.
(** ... and from the end; *)
Theorem c90_decode_last : forall r s, scalar r -> decode_last_rune (str_rev (s ++ utf8 r)) = (r, String.length (utf8 r)).
Proof. exact decode_last_encoded. Qed.
Print Assumptions c90_decode_last.
(** anything else is one wrong byte. *)
Theorem c90_invalid : forall s, s <> "" -> (forall r t, scalar r -> s <> utf8 r ++ t) -> decode_rune s = (rune_error, 1).
Proof. exact decode_invalid. Qed.
Print Assumptions c90_invalid.
Theorem c90_invalid_last : forall s, s <> "" -> (forall r t, scalar r -> s <> t ++ utf8 r) -> decode_last_rune (str_rev s) = (rune_error, 1).
Proof. exact decode_last_invalid. Qed.
Print Assumptions c90_invalid_last.
(** The encoding is unique. *)
Theorem c90_unique : forall r q s t, scalar r -> scalar q -> utf8 r ++ s = utf8 q ++ t -> r = q /\ s = t.
Proof. exact encoding_unique. Qed.
Print Assumptions c90_unique.

(** A name is accepted exactly if it is the encoding of letters and
    underscores. *)
Theorem c90_names : forall nm, good_name nm = true <-> identifier nm.
Proof. exact names_exactly. Qed.
Print Assumptions c90_names.
(** The table of letters: up to U+024F it has those written out, and in all as
    many as Unicode 15.0 has (Lu + Ll + Lt + Lm + Lo), in separate ranges. *)
Theorem c90_latin : forall r, (r < 592)%N -> (letter r <-> In (utf8 r) latin_letters).
Proof. exact latin_table. Qed.
Print Assumptions c90_latin.
Theorem c90_table : apart letter_ranges /\ counted letter_ranges = (1831 + 2233 + 31 + 397 + 131612)%N /\ forall r, letter r -> scalar r.
Proof. exact table_shape. Qed.
Print Assumptions c90_table.
(** What can be registered, with any name (c64_registrable and c78_accepted are
    about ASCII names). *)
Theorem c90_registrable : forall fs, check_funcs fs = None <-> Forall registrable_any fs.
Proof. exact registrable_exactly. Qed.
Print Assumptions c90_registrable.
Theorem c90_accepted : forall m, NoDup (map fst m) -> (fst (add_value_funcs m []) = None <-> Forall registrable_any_value m).
Proof. exact accepted_exactly. Qed.
Print Assumptions c90_accepted.

Example c90_example : utf8 233 = "é" /\ utf8 8364 = "€" /\ utf8 128512 = "😀" /\ scalar 128512 /\
  decode_rune "€uro" = (8364%N, 3) /\ decode_last_rune (str_rev "caf€") = (8364%N, 3) /\
  good_name "prénom_имя_名前" = true /\ good_name "é1" = false /\ good_name "€" = false /\
  encoded [110; 233; 26085; 95; 1103]%N = "né日_я" /\ identifier "né日_я".
Proof.
  repeat apply conj; try (vm_compute; reflexivity).
  - unfold scalar. lia.
  - apply c90_names. vm_compute. reflexivity.
Qed.
(** Surrogates, over-long forms and cut encodings are not encodings; a name with
    such bytes is refused. *)
Example c90_invalid_example :
  decode_rune (bytes [237; 160; 128]%N) = (rune_error, 1) /\ decode_rune (bytes [192; 128]%N) = (rune_error, 1) /\
  decode_rune (bytes [224; 128; 128]%N) = (rune_error, 1) /\ decode_rune (bytes [244; 144; 128; 128]%N) = (rune_error, 1) /\
  decode_rune (bytes [226; 130]%N) = (rune_error, 1) /\ decode_last_rune (str_rev (bytes [97; 130; 172]%N)) = (rune_error, 1) /\
  good_name (bytes [97; 195]%N) = false.
Proof. repeat apply conj; vm_compute; reflexivity. Qed.
