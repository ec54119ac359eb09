(** Specification vocabulary for conditions with OR: what a condition means
    that is made of smaller ones with NOT, AND, OR and parentheses. *)
From Coq Require Import Strings.String Strings.Ascii NArith ZArith List Bool.
From Verif Require Import GoStr Spec_syntax Spec_sqltok Spec_read Spec_nread.
Import ListNotations.
Open Scope string_scope.

(** Keywords are written in any case. *)
Definition capital (c : ascii) : ascii := if in_range (code c) 97 122 then ascii_of_N (code c - 32) else c.
Fixpoint capitals (s : string) : string := match s with "" => "" | String c s' => String (capital c) (capitals s') end.

(** What a condition is made of: a token, or parentheses, with whether what
    stands in them holds. *)
Inductive item := Tok (t : token) | Par (inside : list item) (holds : bool).
Definition word_is (w : string) (x : item) : bool :=
  match x with Tok (TWord v) => String.eqb (capitals v) w | _ => false end.

(** OR binds less than AND, which binds less than NOT. *)
Fixpoint by_or (l : list item) : list (list item) :=
  match l with
  | [] => [[]]
  | x :: l' => if word_is "OR" x then [] :: by_or l' else match by_or l' with p :: ps => (x :: p) :: ps | [] => [[x]] end
  end.
(** [b]: the next AND belongs to a BETWEEN. *)
Fixpoint by_and (b : bool) (l : list item) : list (list item) :=
  match l with
  | [] => [[]]
  | x :: l' =>
    if word_is "AND" x && negb b then [] :: by_and false l' else
    match by_and (if word_is "AND" x then false else b || word_is "BETWEEN" x) l' with p :: ps => (x :: p) :: ps | [] => [[x]] end
  end.
Section Truth.
(** Whether the conditions without NOT, AND, OR hold. *)
Variable atom : list item -> bool.
Fixpoint factor (l : list item) : bool :=
  match l with
  | [] => atom []
  | x :: r => if word_is "NOT" x then negb (factor r) else match x, r with Par _ b, [] => b | _, _ => atom l end
  end.
Definition truth (l : list item) : bool := existsb (fun p => forallb factor (by_and false p)) (by_or l).
Fixpoint item_of (t : tree) : item :=
  match t with Leaf t => Tok t | Group g => let l := map item_of g in Par l (truth l) end.
(** Whether the condition of this text holds. *)
Definition holds (s : string) : option bool :=
  option_map (fun l => truth (map item_of l)) (pair_up (tokens false s) [] []).
End Truth.

(** ** Conditions that can be combined *)
(** The text ends outside of strings, quoted identifiers and comments. *)
Definition ends (s : string) : bool :=
  match fst (feed false Between s) with
  | InStr _ | InEsc _ | InQuoted _ | InLine _ | InBlock _ | AtStar _ => false
  | _ => true
  end.
(** Every BETWEEN has its AND. *)
Fixpoint pending (b : bool) (l : list tree) : bool :=
  match l with
  | [] => b
  | Leaf (TWord v) :: l' => pending (if String.eqb (capitals v) "AND" then false else b || String.eqb (capitals v) "BETWEEN") l'
  | _ :: l' => pending b l'
  end.
(** An OR outside of parentheses. *)
Definition has_or (l : list tree) : bool :=
  existsb (fun t => match t with Leaf (TWord v) => String.eqb (capitals v) "OR" | _ => false end) l.
Definition visible (c : ascii) : bool := (32 <? code c)%N && (code c <? 127)%N.
(** A complete condition, without outer blanks. *)
Definition complete (s : string) : Prop :=
  starts visible s = true /\ starts visible (str_rev s) = true /\ ends s = true /\
  exists l, pair_up (tokens false s) [] [] = Some l /\ pending false l = false.
(** Without OR outside of parentheses. *)
Definition conjunct (s : string) : Prop :=
  complete s /\ exists l, pair_up (tokens false s) [] [] = Some l /\ has_or l = false.
