(** Reference semantics of building, with symbolic placeholders.

    The result text of a build is a [text]: literal pieces separated by
    placeholders, a placeholder being the number of a committed argument in the
    log of all commits.  Nothing is rendered: there is no bind variable style,
    no de-duplication and no string operation on a placeholder.  User code is
    not covered (functions and builders of the library only). *)
From Coq Require Import Strings.String Strings.Ascii NArith ZArith List Bool.
From Verif Require Import GoStr GoNum Syntax Value Util Model Sqlf Sqlb.
Import ListNotations.
Open Scope string_scope.

(* ------------------------------------------------------------------ *)
(** * Texts *)

(** s0 p1 s1 p2 s2 ... *)
Definition text : Type := string * list (nat * string).

Definition tlit (s : string) : text := (s, []).
Definition tph (j : nat) : text := ("", [(j, "")]).

Fixpoint tcat (a : string) (l : list (nat * string)) (y : text) : text :=
  match l with
  | [] => (a ++ fst y, snd y)
  | (j, s) :: l' => let r := tcat s l' y in (a, (j, fst r) :: snd r)
  end.
Definition tapp (x y : text) : text := tcat (fst x) (snd x) y.

Definition tempty (t : text) : bool :=
  is_empty (fst t) && match snd t with [] => true | _ => false end.

(** Trimming: placeholders are not white space. *)
Fixpoint trim_last (l : list (nat * string)) : list (nat * string) :=
  match l with
  | [] => []
  | [(j, s)] => [(j, trim_right s)]
  | x :: l' => x :: trim_last l'
  end.
Definition ttrim (t : text) : text :=
  match snd t with
  | [] => (trim_space (fst t), [])
  | l => (trim_left (fst t), trim_last l)
  end.

Fixpoint tjoin (sep : string) (ts : list text) : text :=
  match ts with
  | [] => tlit ""
  | [t] => t
  | t :: ts' => tapp t (tapp (tlit sep) (tjoin sep ts'))
  end.

(** [q j] is the string shown for placeholder [j]. *)
Definition render (q : nat -> string) (t : text) : string :=
  fst t ++ fold_right (fun x r => q (fst x) ++ snd x ++ r) "" (snd t).
Definition placeholders (t : text) : list nat := map fst (snd t).

(* ------------------------------------------------------------------ *)
(** * Building *)

(** The committed arguments and the query builders. *)
Record gst := mkG { g_log : list value; g_heap : list qb }.
Record gfs := mkGF { gf_g : gst; gf_ua : list bool; gf_uf : list bool }.

Definition gcommit (v : value) (g : gst) : outcome text * gst :=
  (ROk (tph (List.length (g_log g))), mkG (g_log g ++ [v])%list (g_heap g)).

Definition gfunc_arg (fc : frame) (i : Z) (S : gfs) : outcome text * gfs :=
  match nth1 (fr_args fc) i with
  | None => (RErr (EInvalidIndex i), S)
  | Some v =>
    let '(r, g') := gcommit v (gf_g S) in
    (r, mkGF g' (mark (Z.to_nat (i - 1)) (gf_ua S)) (gf_uf S))
  end.

Definition gsafe {A S} (name : string) (r : outcome A * S) : outcome A * S :=
  match r with
  | (RErr e, s) => (RErr (EWrap ("error calling #" ++ name) e), s)
  | (RPanic e, s) => (RErr (EWrap ("error calling #" ++ name) e), s)
  | _ => r
  end.

Section GClause.
Variable rb : env -> builder -> gst -> outcome text * gst.
Variable rc : env -> frame -> list expr -> gfs -> outcome text * gfs.
Variable jf : nat.

Definition gfunc_fragment (e : env) (fc : frame) (i : Z) (S : gfs) : outcome text * gfs :=
  match nth1 (fr_frags fc) i with
  | None => (RErr (EInvalidIndex i), S)
  | Some b =>
    let '(r, g') := rb e b (gf_g S) in
    (r, mkGF g' (gf_ua S) (mark (Z.to_nat (i - 1)) (gf_uf S)))
  end.

(** Library functions usable as function values in a join template. *)
Definition gcompat (f : func) : bool :=
  match f with FnArg | FnFragment => true | _ => false end.

Fixpoint gjoin_prep (e : env) (es : list expr) : outcome nat :=
  match es with
  | [] => ROk 0
  | EFunc name _ :: es' =>
    match lookup_fn e name with
    | None => RErr (EMsg ("unknown function #" ++ name))
    | Some f =>
      if gcompat f then
        match gjoin_prep e es' with ROk k => ROk (S k) | r => r end
      else RErr (incompatible name f)
    end
  | _ :: es' => gjoin_prep e es'
  end.

Fixpoint gjoin_loop (n : nat) (e : env) (fc : frame) (es : list expr) (sep : string)
  (from to i : Z) (acc : text) (S : gfs) : outcome text * gfs :=
  match n with
  | O => (RFuel, S)
  | Datatypes.S n' =>
    match rc e fc (set_index i es) S with
    | (RErr er, S') =>
      if is_invalid_index er then
        if ((0 <? from)%Z && (i =? from)%Z) || ((0 <? to)%Z && (i <=? to)%Z)
        then (RErr er, S') else (ROk acc, S')
      else (RErr er, S')
    | (ROk t, S') =>
      let acc' := if tempty t then acc
                  else if tempty acc then t else tapp acc (tapp (tlit sep) t) in
      if (0 <? to)%Z && (to <=? i)%Z then (ROk acc', S')
      else gjoin_loop n' e fc es sep from to (i + 1)%Z acc' S'
    | (RPanic er, S') => (RPanic er, S')
    | (RFuel, S') => (RFuel, S')
    end
  end.

Definition gfunc_join (e : env) (fc : frame) (tmpl sep : string) (idx : list Z) (S : gfs)
  : outcome text * gfs :=
  let go (from to : Z) :=
    if (0 <? to)%Z && (to <? from)%Z then (RErr (bad_range from to), S) else
    match parse tmpl with
    | PErr o m => (RErr (bad_template tmpl o m), S)
    | PPanic => (RPanic index_range, S)
    | PFuel => (RFuel, S)
    | POk es =>
      match gjoin_prep e es with
      | ROk O => (RErr (no_function tmpl), S)
      | ROk _ => gjoin_loop jf e fc es sep from to (if (from <=? 0)%Z then 1%Z else from) (tlit "") S
      | RErr er => (RErr er, S)
      | RPanic er => (RPanic er, S)
      | RFuel => (RFuel, S)
      end
    end in
  match idx with
  | [] => go 0%Z 0%Z
  | [a] => go a 0%Z
  | [a; b] => go a b
  | _ => (RErr (too_many (List.length idx)), S)
  end.

Definition gcall_fn (e : env) (fc : frame) (f : func) (args : list lit) (S : gfs)
  : outcome text * gfs :=
  match f with
  | FnArg => gfunc_arg fc (match args with a :: _ => lit_int a | [] => 0%Z end) S
  | FnFragment => gfunc_fragment e fc (match args with a :: _ => lit_int a | [] => 0%Z end) S
  | FnJoin =>
    match args with
    | LStr tmpl :: LStr sep :: idx => gfunc_join e fc tmpl sep (map lit_int idx) S
    | _ => (RPanic (EMsg "unreachable"), S)
    end
  | FnCustom _ _ => (RFuel, S)     (* not covered *)
  end.

Definition geval_call (e : env) (fc : frame) (name : string) (f : func) (args : list lit) (S : gfs)
  : outcome text * gfs :=
  let s := sig_of f in
  if arity_ok s (List.length args) then
    let ts := arg_types s (List.length args) in
    match eval_args ts args with
    | ROk _ =>
      if any_rejected ts args
      then gsafe name (RPanic (EMsg "reflect: Call using string as type"), S)
      else gsafe name (gcall_fn e fc f args S)
    | RErr er => (RErr (wrong_type name s ts args er), S)
    | RPanic er => (RPanic er, S)
    | RFuel => (RFuel, S)
    end
  else (RErr (wrong_number name s (List.length args)), S).

Definition geval_function (e : env) (fc : frame) (name : string) (args : list lit) (S : gfs)
  : outcome text * gfs :=
  match lookup_fn e name with
  | None => (RErr (not_defined name), S)
  | Some f => geval_call e fc name f args S
  end.

Definition geval_expr (e : env) (fc : frame) (x : expr) (S : gfs) : outcome text * gfs :=
  match x with
  | EPlain t _ => (ROk (tlit t), S)
  | EBind _ i _ =>
    match nth1 (fr_args fc) i with
    | None => (RErr (bad_bind i), S)
    | Some _ => gfunc_arg fc i S
    end
  | ECall name args _ => geval_function e fc name args S
  | EFunc _ _ => (RErr stray, S)
  end.

Fixpoint gclause (e : env) (fc : frame) (es : list expr) (S : gfs) : outcome text * gfs :=
  match es with
  | [] => (ROk (tlit ""), S)
  | x :: es' =>
    match geval_expr e fc x S with
    | (ROk s, S') =>
      match gclause e fc es' S' with
      | (ROk r, S2) => (ROk (tapp s r), S2)
      | o => o
      end
    | o => o
    end
  end.
End GClause.

Fixpoint gclause_n (n : nat) (rb : env -> builder -> gst -> outcome text * gst)
  (e : env) (fc : frame) (es : list expr) (S : gfs) : outcome text * gfs :=
  match n with
  | O => (RFuel, S)
  | Datatypes.S n' => gclause rb (gclause_n n' rb) n' e fc es S
  end.

Definition gwrap (f : fragment) (body : text) : text :=
  let body := ttrim body in
  if tempty body then tlit ""
  else tapp (tlit (if is_empty (f_prefix f) then "" else f_prefix f ++ " "))
         (tapp body (tlit (if is_empty (f_suffix f) then "" else " " ++ f_suffix f))).

Definition gbuild_frag (n : nat) (rb : env -> builder -> gst -> outcome text * gst)
  (e : env) (f : fragment) (g : gst) : outcome text * gst :=
  match parse (f_raw f) with
  | PErr o m => (RErr (not_parsed f o m), g)
  | PPanic => (RPanic index_range, g)
  | PFuel => (RFuel, g)
  | POk es =>
    let fc := mkFrame (f_args f) (f_frags f) in
    let S := mkGF g (map (fun _ => false) (f_args f)) (map (fun _ => false) (f_frags f)) in
    match gclause_n n rb e fc es S with
    | (ROk body, S') =>
      if all_used (gf_ua S') && all_used (gf_uf S') then (ROk (gwrap f body), gf_g S')
      else (RErr (in_frag f (unused (gf_ua S') (gf_uf S'))), gf_g S')
    | (RErr er, S') => (RErr (in_frag f er), gf_g S')
    | (RPanic er, S') => (RPanic er, gf_g S')
    | (RFuel, S') => (RFuel, gf_g S')
    end
  end.

(* ------------------------------------------------------------------ *)
(** * Query builders (without debug mode) *)

Definition gget (g : gst) (id : nat) : qb := nth id (g_heap g) new_qb.
Definition gset (g : gst) (id : nat) (q : qb) : gst := mkG (g_log g) (upd id q (g_heap g)).

Section GBuild.
Variable rb : builder -> gst -> outcome text * gst.

Fixpoint gctes_loop (cs : list cte) (d : deps) (g : gst) : outcome (list text) * gst :=
  match cs with
  | [] => (ROk [], g)
  | c :: cs' =>
    if dep_mem (c_name c, "") d then
      match rb (c_builder c) g with
      | (ROk s, g') =>
        match gctes_loop cs' d g' with
        | (ROk l, g2) =>
          (ROk (if tempty s then l else tapp (tlit (c_name c ++ " AS (")) (tapp s (tlit ")")) :: l), g2)
        | r => r
        end
      | (RErr e, g') => (RErr (in_cte c e), g')
      | (RPanic e, g') => (RPanic e, g')
      | (RFuel, g') => (RFuel, g')
      end
    else gctes_loop cs' d g
  end.
Definition gctes (cs : list cte) (d : deps) (g : gst) : outcome text * gst :=
  match gctes_loop cs d g with
  | (ROk [], g') => (ROk (tlit ""), g')
  | (ROk l, g') => (ROk (tapp (tlit "With ") (tjoin ", " l)), g')
  | (RErr e, g') => (RErr e, g')
  | (RPanic e, g') => (RPanic e, g')
  | (RFuel, g') => (RFuel, g')
  end.

Definition gofrag (f : option fragment) (g : gst) : outcome text * gst :=
  match f with None => rb BNilFrag g | Some f => rb (BFrag f) g end.

Fixpoint gfrom_loop (distinct : bool) (fts : list from_table) (d : deps) (g : gst)
  : outcome (list text) * gst :=
  match fts with
  | [] => (ROk [], g)
  | ft :: fts' =>
    if distinct && ft_optional ft && negb (dep_mem (ft_names ft) d)
    then gfrom_loop distinct fts' d g
    else
      match gofrag (ft_frag ft) g with
      | (ROk s, g') =>
        match gfrom_loop distinct fts' d g' with
        | (ROk l, g2) => (ROk (s :: l), g2)
        | r => r
        end
      | (RErr e, g') => (RErr (in_from ft e), g')
      | (RPanic e, g') => (RPanic e, g')
      | (RFuel, g') => (RFuel, g')
      end
  end.
Definition gfrom (q : qb) (d : deps) (g : gst) : outcome text * gst :=
  match gfrom_loop (q_distinct q) (from_tables q) d g with
  | (ROk l, g') => (ROk (tapp (tlit "FROM ") (tjoin " " l)), g')
  | (RErr e, g') => (RErr e, g')
  | (RPanic e, g') => (RPanic e, g')
  | (RFuel, g') => (RFuel, g')
  end.

Definition gorders (id : nat) (g : gst) : outcome text * gst :=
  let q := gget g id in
  let '(q', items) := orders_loop 0 (q_orders q) q [] in
  rb (BFrag (Frag join_comma [] items "ORDER BY" "")) (gset g id q').

Definition gselects (id : nat) (g : gst) : outcome text * gst :=
  let q := gget g id in
  let sel := with_prefix (q_selects q) (if q_distinct q then "SELECT DISTINCT" else "SELECT") in
  let g := gset g id (set_selects q sel) in
  match rb (BFrag sel) g with
  | (ROk s, g') =>
    match rb (BFrag (q_touches (gget g' id))) g' with
    | (ROk t, g2) =>
      if tempty s then (RErr (EMsg "no columns selected"), g2)
      else if tempty t then (ROk s, g2) else (ROk (tapp s (tapp (tlit ", ") t)), g2)
    | r => r
    end
  | r => r
  end.

Fixpoint gunion_loop (bs : list builder) (g : gst) : outcome (list text) * gst :=
  match bs with
  | [] => (ROk [], g)
  | b :: bs' =>
    match rb b g with
    | (ROk s, g') =>
      match gunion_loop bs' g' with
      | (ROk l, g2) => (ROk (if tempty s then l else s :: l), g2)
      | r => r
      end
    | (RErr e, g') => (RErr e, g')
    | (RPanic e, g') => (RPanic e, g')
    | (RFuel, g') => (RFuel, g')
    end
  end.
Definition gunion (bs : list builder) (g : gst) : outcome text * gst :=
  match gunion_loop bs g with
  | (ROk l, g') => (ROk (tapp (tlit "UNION (") (tapp (tjoin ") UNION (" l) (tlit ")"))), g')
  | (RErr e, g') => (RErr e, g')
  | (RPanic e, g') => (RPanic e, g')
  | (RFuel, g') => (RFuel, g')
  end.

Definition gbind (r : outcome text * gst) (k : text -> gst -> outcome text * gst)
  : outcome text * gst :=
  match r with (ROk s, g) => k s g | r => r end.

Definition tnonempty (s : text) : list text := if tempty s then [] else [s].

Definition ginternal (id : nat) (g : gst) : outcome text * gst :=
  let q := gget g id in
  match q_errors q with
  | _ :: _ => (RErr (collected (q_errors q)), g)
  | [] =>
    match collect_deps q with
    | RErr e => (RErr e, g)
    | RPanic e => (RPanic e, g)
    | RFuel => (RFuel, g)
    | ROk d =>
      gbind (gctes (q_ctes q) d g) (fun sq g =>
      gbind (gfrom (gget g id) d g) (fun from g =>
      gbind (rb (BFrag (q_conds (gget g id))) g) (fun wher g =>
      gbind (rb (BFrag (q_groups (gget g id))) g) (fun groupby g =>
      gbind (gorders id g) (fun order g =>
      let q := gget g id in
      let limit := if (0 <? q_limit q)%Z then [tlit ("LIMIT " ++ itoa (q_limit q))] else [] in
      let offset := if (0 <? q_offset q)%Z then [tlit ("OFFSET " ++ itoa (q_offset q))] else [] in
      gbind (gselects id g) (fun sel g =>
      let clauses := (tnonempty sq ++ [sel] ++ tnonempty from ++ tnonempty wher
                      ++ tnonempty groupby ++ tnonempty order ++ limit ++ offset)%list in
      let query := ttrim (tjoin " " clauses) in
      let q := gget g id in
      match q_unions q with
      | [] => (ROk query, g)
      | us => gbind (gunion us g) (fun u g => (ROk (ttrim (tapp query (tapp (tlit " ") u))), g))
      end))))))
    end
  end.
End GBuild.

Fixpoint gbuild (n : nat) (e : env) (b : builder) (g : gst) {struct n} : outcome text * gst :=
  match n with
  | O => (RFuel, g)
  | S n' =>
    match b with
    | BNil => (RPanic nil_deref, g)
    | BNilFrag => (ROk (tlit ""), g)
    | BFrag f => gbuild_frag n' (gbuild n') e f g
    | BNilCol => (RPanic nil_deref, g)
    | BCol None _ => (ROk (tlit ""), g)
    | BCol (Some f) _ => gbuild_frag n' (gbuild n') e f g
    | BTable t => (ROk (tlit t), g)
    | BTabAl x a => (ROk (tlit (applied (x, a))), g)
    | BQuery None => (ROk (tlit ""), g)
    | BQuery (Some id) => ginternal (gbuild n' e) id g
    | BCustom _ => (RFuel, g)         (* not covered *)
    end
  end.

(* ------------------------------------------------------------------ *)
(** * Trees built by the library only *)

(** No user code; every argument satisfies [P]. *)
Fixpoint lib (P : value -> bool) (b : builder) {struct b} : bool :=
  match b with
  | BFrag f => lib_frag P f
  | BCol (Some f) _ => lib_frag P f
  | BCustom _ => false
  | _ => true
  end
with lib_frag (P : value -> bool) (f : fragment) {struct f} : bool :=
  match f with
  | Frag _ args frags _ _ =>
    forallb P args &&
    (fix go (l : list builder) : bool :=
       match l with [] => true | b :: l' => lib P b && go l' end) frags
  end.

Definition lib_ofrag (P : value -> bool) (f : option fragment) : bool :=
  match f with None => true | Some f => lib_frag P f end.

(** A query builder made of such trees, not in debug mode. *)
Definition lib_qb (P : value -> bool) (q : qb) : bool :=
  forallb (fun c => lib P (c_builder c)) (q_ctes q)
  && forallb (fun ft => lib_ofrag P (ft_frag ft)) (q_tobjs q)
  && lib_frag P (q_selects q) && lib_frag P (q_touches q)
  && lib_frag P (q_conds q) && lib_frag P (q_groups q)
  && forallb (fun o => lib P (fst o)) (q_orders q)
  && forallb (lib P) (q_unions q)
  && negb (q_debug q).

Definition lib_fn (f : func) : bool := match f with FnCustom _ _ => false | _ => true end.
Definition lib_env (e : env) : bool := forallb (forallb (fun nf => lib_fn (snd nf))) e.

(** The same without query builders. *)
Fixpoint tree (P : value -> bool) (b : builder) {struct b} : bool :=
  match b with
  | BFrag f => tree_frag P f
  | BCol (Some f) _ => tree_frag P f
  | BCustom _ => false
  | BQuery (Some _) => false
  | _ => true
  end
with tree_frag (P : value -> bool) (f : fragment) {struct f} : bool :=
  match f with
  | Frag _ args frags _ _ =>
    forallb P args &&
    (fix go (l : list builder) : bool :=
       match l with [] => true | b :: l' => tree P b && go l' end) frags
  end.

(** Placeholders in the order of the commits. *)
Fixpoint increasing (lo : nat) (l : list nat) : Prop :=
  match l with [] => True | j :: l' => lo <= j /\ increasing (S j) l' end.
