(** UTF-8 and the names of functions.  The encoding is that of RFC 3629,
    written as an encoder; nothing here decodes. *)
From Coq Require Import Strings.String Strings.Ascii NArith List Bool.
From Verif Require Import Value Model Sqlf Letters Register Spec_eval Spec_base.
Import ListNotations.
Open Scope string_scope.

(** The code points that have an encoding: all but the surrogates. *)
Definition scalar (r : N) : Prop := (r < 55296 \/ 57344 <= r < 1114112)%N.
Definition utf8 (r : N) : string := (
  if r <? 128 then bytes [r]
  else if r <? 2048 then bytes [192 + r / 64; 128 + r mod 64]
  else if r <? 65536 then bytes [224 + r / 4096; 128 + (r / 64) mod 64; 128 + r mod 64]
  else bytes [240 + r / 262144; 128 + (r / 4096) mod 64; 128 + (r / 64) mod 64; 128 + r mod 64])%N.
Definition encoded (rs : list N) : string := String.concat "" (map utf8 rs).

(** The letters of Unicode are those of the table in Letters.v; those up to
    U+024F are written out here. *)
Definition letter (r : N) : Prop := exists lo hi, In (lo, hi) letter_ranges /\ (lo <= r <= hi)%N.
Definition latin_letters : list string :=
  ["A"; "B"; "C"; "D"; "E"; "F"; "G"; "H"; "I"; "J"; "K"; "L"; "M"; "N"; "O"; "P"; "Q"; "R"; "S";
   "T"; "U"; "V"; "W"; "X"; "Y"; "Z"; "a"; "b"; "c"; "d"; "e"; "f"; "g"; "h"; "i"; "j"; "k"; "l";
   "m"; "n"; "o"; "p"; "q"; "r"; "s"; "t"; "u"; "v"; "w"; "x"; "y"; "z"; "ª"; "µ"; "º"; "À"; "Á";
   "Â"; "Ã"; "Ä"; "Å"; "Æ"; "Ç"; "È"; "É"; "Ê"; "Ë"; "Ì"; "Í"; "Î"; "Ï"; "Ð"; "Ñ"; "Ò"; "Ó"; "Ô";
   "Õ"; "Ö"; "Ø"; "Ù"; "Ú"; "Û"; "Ü"; "Ý"; "Þ"; "ß"; "à"; "á"; "â"; "ã"; "ä"; "å"; "æ"; "ç"; "è";
   "é"; "ê"; "ë"; "ì"; "í"; "î"; "ï"; "ð"; "ñ"; "ò"; "ó"; "ô"; "õ"; "ö"; "ø"; "ù"; "ú"; "û"; "ü";
   "ý"; "þ"; "ÿ"; "Ā"; "ā"; "Ă"; "ă"; "Ą"; "ą"; "Ć"; "ć"; "Ĉ"; "ĉ"; "Ċ"; "ċ"; "Č"; "č"; "Ď"; "ď";
   "Đ"; "đ"; "Ē"; "ē"; "Ĕ"; "ĕ"; "Ė"; "ė"; "Ę"; "ę"; "Ě"; "ě"; "Ĝ"; "ĝ"; "Ğ"; "ğ"; "Ġ"; "ġ"; "Ģ";
   "ģ"; "Ĥ"; "ĥ"; "Ħ"; "ħ"; "Ĩ"; "ĩ"; "Ī"; "ī"; "Ĭ"; "ĭ"; "Į"; "į"; "İ"; "ı"; "Ĳ"; "ĳ"; "Ĵ"; "ĵ";
   "Ķ"; "ķ"; "ĸ"; "Ĺ"; "ĺ"; "Ļ"; "ļ"; "Ľ"; "ľ"; "Ŀ"; "ŀ"; "Ł"; "ł"; "Ń"; "ń"; "Ņ"; "ņ"; "Ň"; "ň";
   "ŉ"; "Ŋ"; "ŋ"; "Ō"; "ō"; "Ŏ"; "ŏ"; "Ő"; "ő"; "Œ"; "œ"; "Ŕ"; "ŕ"; "Ŗ"; "ŗ"; "Ř"; "ř"; "Ś"; "ś";
   "Ŝ"; "ŝ"; "Ş"; "ş"; "Š"; "š"; "Ţ"; "ţ"; "Ť"; "ť"; "Ŧ"; "ŧ"; "Ũ"; "ũ"; "Ū"; "ū"; "Ŭ"; "ŭ"; "Ů";
   "ů"; "Ű"; "ű"; "Ų"; "ų"; "Ŵ"; "ŵ"; "Ŷ"; "ŷ"; "Ÿ"; "Ź"; "ź"; "Ż"; "ż"; "Ž"; "ž"; "ſ"; "ƀ"; "Ɓ";
   "Ƃ"; "ƃ"; "Ƅ"; "ƅ"; "Ɔ"; "Ƈ"; "ƈ"; "Ɖ"; "Ɗ"; "Ƌ"; "ƌ"; "ƍ"; "Ǝ"; "Ə"; "Ɛ"; "Ƒ"; "ƒ"; "Ɠ"; "Ɣ";
   "ƕ"; "Ɩ"; "Ɨ"; "Ƙ"; "ƙ"; "ƚ"; "ƛ"; "Ɯ"; "Ɲ"; "ƞ"; "Ɵ"; "Ơ"; "ơ"; "Ƣ"; "ƣ"; "Ƥ"; "ƥ"; "Ʀ"; "Ƨ";
   "ƨ"; "Ʃ"; "ƪ"; "ƫ"; "Ƭ"; "ƭ"; "Ʈ"; "Ư"; "ư"; "Ʊ"; "Ʋ"; "Ƴ"; "ƴ"; "Ƶ"; "ƶ"; "Ʒ"; "Ƹ"; "ƹ"; "ƺ";
   "ƻ"; "Ƽ"; "ƽ"; "ƾ"; "ƿ"; "ǀ"; "ǁ"; "ǂ"; "ǃ"; "Ǆ"; "ǅ"; "ǆ"; "Ǉ"; "ǈ"; "ǉ"; "Ǌ"; "ǋ"; "ǌ"; "Ǎ";
   "ǎ"; "Ǐ"; "ǐ"; "Ǒ"; "ǒ"; "Ǔ"; "ǔ"; "Ǖ"; "ǖ"; "Ǘ"; "ǘ"; "Ǚ"; "ǚ"; "Ǜ"; "ǜ"; "ǝ"; "Ǟ"; "ǟ"; "Ǡ";
   "ǡ"; "Ǣ"; "ǣ"; "Ǥ"; "ǥ"; "Ǧ"; "ǧ"; "Ǩ"; "ǩ"; "Ǫ"; "ǫ"; "Ǭ"; "ǭ"; "Ǯ"; "ǯ"; "ǰ"; "Ǳ"; "ǲ"; "ǳ";
   "Ǵ"; "ǵ"; "Ƕ"; "Ƿ"; "Ǹ"; "ǹ"; "Ǻ"; "ǻ"; "Ǽ"; "ǽ"; "Ǿ"; "ǿ"; "Ȁ"; "ȁ"; "Ȃ"; "ȃ"; "Ȅ"; "ȅ"; "Ȇ";
   "ȇ"; "Ȉ"; "ȉ"; "Ȋ"; "ȋ"; "Ȍ"; "ȍ"; "Ȏ"; "ȏ"; "Ȑ"; "ȑ"; "Ȓ"; "ȓ"; "Ȕ"; "ȕ"; "Ȗ"; "ȗ"; "Ș"; "ș";
   "Ț"; "ț"; "Ȝ"; "ȝ"; "Ȟ"; "ȟ"; "Ƞ"; "ȡ"; "Ȣ"; "ȣ"; "Ȥ"; "ȥ"; "Ȧ"; "ȧ"; "Ȩ"; "ȩ"; "Ȫ"; "ȫ"; "Ȭ";
   "ȭ"; "Ȯ"; "ȯ"; "Ȱ"; "ȱ"; "Ȳ"; "ȳ"; "ȴ"; "ȵ"; "ȶ"; "ȷ"; "ȸ"; "ȹ"; "Ⱥ"; "Ȼ"; "ȼ"; "Ƚ"; "Ⱦ"; "ȿ";
   "ɀ"; "Ɂ"; "ɂ"; "Ƀ"; "Ʉ"; "Ʌ"; "Ɇ"; "ɇ"; "Ɉ"; "ɉ"; "Ɋ"; "ɋ"; "Ɍ"; "ɍ"; "Ɏ"; "ɏ"].
(** The ranges come in order, without touching one another. *)
Fixpoint apart (l : list (N * N)) : Prop :=
  match l with
  | [] => True
  | (lo, hi) :: l' => (lo <= hi)%N /\ match l' with [] => True | (lo', _) :: _ => (hi + 1 < lo')%N end /\ apart l'
  end.
Definition counted (l : list (N * N)) : N := fold_right (fun x n => (snd x - fst x + 1 + n)%N) 0%N l.

(** Names: letters and underscores, at least one. *)
Definition identifier (nm : string) : Prop :=
  exists rs, rs <> [] /\ nm = encoded rs /\ Forall (fun r => r = 95%N \/ letter r) rs.
Definition registrable_any (nf : string * func) : Prop :=
  identifier (fst nf) /\ results_ok (snd nf) /\ Forall plain_param (params (snd nf)).
Definition registrable_any_value (x : string * mapval) : Prop :=
  match snd x with MFunc f => registrable_any (fst x, f) | MOther => False end.
