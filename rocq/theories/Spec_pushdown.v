(** Vocabulary for conditions on the columns of a common table expression. *)
From Coq Require Import Strings.String ZArith List.
From Verif Require Import Spec_sql Spec_nest.
Import ListNotations.
Open Scope string_scope.

(** The condition for another column. *)
Definition moved (c : col) (x : cond) : cond :=
  match x with Compare _ o v => Compare c o v | Among _ l => Among c l | NotAmong _ l => NotAmong c l end.
(** Query [i] has no DISTINCT, groups, orders, bounds and unions.  Query [id] selects
    all its columns, named [w] in the With of [id] and known as [a], under conditions
    on these columns.  Query [k] is query [i] with these conditions instead. *)
Definition pushes (B : list xstmt) (id i k : nat) (w a : string) : Prop :=
  a <> "" /\ exists m ws cs ps deps,
    m_distinct m = false /\ m_groups m = [] /\ m_orders m = [] /\ m_limit m = 0%Z /\ m_offset m = 0%Z /\
    NoDup (map snd (m_cols m)) /\ (forall c x, In (c, x) ps -> In c (m_cols m)) /\
    nth_error B i = Some (mkX m ws cs []) /\
    nth_error B id = Some (mkX (mkStmt false (map (fun c => (a, snd c)) (m_cols m)) (w, a) [] [] [] [] 0 0) [mkWith w deps i true]
      (map (fun p => Plain (moved (a, snd (fst p)) (snd p))) ps) []) /\
    nth_error B k = Some (mkX m ws (cs ++ map (fun p => Plain (moved (fst p) (snd p))) ps) []).
