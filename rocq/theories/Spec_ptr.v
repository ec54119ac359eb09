(** Specification vocabulary for fragments as objects. *)
From Coq Require Import Strings.String Strings.Ascii NArith ZArith List Bool.
From Verif Require Import GoStr GoNum Syntax Value Util Model Sqlf Sqlb Ptr.
Import ListNotations.
Open Scope string_scope.

(** The fragment a reference points to. *)
Inductive points : ref -> nat -> Prop :=
| pt_frag a : points (PFrag (Some a)) a
| pt_col a t : points (PCol (Some a) t) a.

(** Element [i] of a slice. *)
Definition elem {A} (arrs : list (list A)) (s : slice) (i : nat) (x : A) : Prop :=
  i < s_len s /\ nth_error (nth (s_arr s) arrs []) (s_off s + i) = Some x.
(** [l] is what the slice contains. *)
Definition contents {A} (arrs : list (list A)) (s : slice) (l : list A) : Prop :=
  List.length l = s_len s /\ forall i x, nth_error l i = Some x -> elem arrs s i x.

(** [r] is among the fragments of the object at [a]. *)
Definition child (h : fheap) (a : nat) (r : ref) : Prop :=
  exists i, elem (h_refs h) (o_frags (nth a (h_objs h) zero_obj)) i r.

(** One gets from [r] to the object at [a]. *)
Inductive reaches (h : fheap) : ref -> nat -> Prop :=
| rc_here r a : points r a -> reaches h r a
| rc_down r b r' a : points r b -> child h b r' -> reaches h r' a -> reaches h r a.

(** No fragment contains itself. *)
Definition no_cycle (h : fheap) : Prop :=
  exists rank : nat -> nat, forall a r b, child h a r -> points r b -> rank b < rank a.

(** The slices of a heap lie within their arrays. *)
Definition in_array {A} (arrs : list (list A)) (s : slice) : Prop :=
  s_len s <= s_cap s /\
  (s_cap s = 0 \/ s_arr s < List.length arrs /\ s_off s + s_cap s <= List.length (nth (s_arr s) arrs [])).
Definition sound_heap (h : fheap) : Prop :=
  Forall (fun o => in_array (h_vals h) (o_args o) /\ in_array (h_refs h) (o_frags o)) (h_objs h).

(** [b] is the finite tree behind [r]. *)
Inductive stands_for (h : fheap) : ref -> builder -> Prop :=
| sf_nil : stands_for h PNil BNil
| sf_nilcol : stands_for h PNilCol BNilCol
| sf_nilfrag : stands_for h (PFrag None) BNilFrag
| sf_emptycol t : stands_for h (PCol None t) (BCol None t)
| sf_other b : stands_for h (POther b) b
| sf_frag a f : stands_for_obj h a f -> stands_for h (PFrag (Some a)) (BFrag f)
| sf_col a t f : stands_for_obj h a f -> stands_for h (PCol (Some a) t) (BCol (Some f) t)
with stands_for_obj (h : fheap) : nat -> fragment -> Prop :=
| sf_obj a o args rs frags :
    nth a (h_objs h) zero_obj = o ->
    contents (h_vals h) (o_args o) args -> contents (h_refs h) (o_frags o) rs ->
    stand_for h rs frags ->
    stands_for_obj h a (Frag (o_raw o) args frags (o_prefix o) (o_suffix o))
with stand_for (h : fheap) : list ref -> list builder -> Prop :=
| sf_none : stand_for h [] []
| sf_cons r rs b bs : stands_for h r b -> stand_for h rs bs -> stand_for h (r :: rs) (b :: bs).

(** The methods that assign a field of the object at [a], and what they make
    of its tree. *)
Inductive sets : cmd -> nat -> Prop :=
| st_prefix a p : sets (CPrefix (Some a) p) a
| st_suffix a s : sets (CSuffix (Some a) s) a
| st_args a s : sets (CArgs (Some a) s) a
| st_frags a s : sets (CFrags (Some a) s) a.
(** The commands that are methods of a nil fragment. *)
Inductive nil_method : cmd -> Prop :=
| nm_prefix p : nil_method (CPrefix None p)
| nm_suffix s : nil_method (CSuffix None s)
| nm_args s : nil_method (CArgs None s)
| nm_frags s : nil_method (CFrags None s)
| nm_appargs vs x : nil_method (CAppArgs None vs x)
| nm_appfrags rs x : nil_method (CAppFrags None rs x).

(** The slice has no element among the [n] cells behind the end of [s]. *)
Definition apart (s' s : slice) (n : nat) : Prop :=
  s_arr s' <> s_arr s \/
  forall i, i < s_len s' -> ~ (s_off s + s_len s <= s_off s' + i < s_off s + s_len s + n).
(** Appending [n] elements to [s] does not touch [s']. *)
Definition untouched (s' s : slice) (n : nat) : Prop := s_cap s < s_len s + n \/ apart s' s n.

(** The slices a command brings in lie within their arrays. *)
Definition given_in_array (h : fheap) (c : cmd) : Prop :=
  match c with
  | CArgs _ s => in_array (h_vals h) s
  | CFrags _ s => in_array (h_refs h) s
  | CNew o => in_array (h_vals h) (o_args o) /\ in_array (h_refs h) (o_frags o)
  | _ => True
  end.

(** The fragments of the caller a builder call is given: the ON conditions of
    joins, and everything else. *)
Definition on_of (o : pop) : list nat :=
  match o with QJoin _ (String _ _, _) (Some a) _ => [a] | _ => [] end.
Definition refs_of (o : pop) : list ref :=
  match o with
  | QSelect l | QGroupBy l | QUnion l => l
  | QWhere f => [PFrag f]
  | QWhere2 c _ _ | QWhereIn c _ | QWhereNotIn c _ | QOrderBy c _ => [c]
  | QWith _ b _ => [b]
  | _ => []
  end.
(** The ON conditions are used for nothing else. *)
Definition on_apart (h : fheap) (os : list pop) : Prop :=
  forall a, In a (flat_map on_of os) ->
    a < List.length (h_objs h) /\
    (forall r, In r (flat_map refs_of os) -> ~ reaches h r a) /\
    (forall b r, In b (flat_map on_of os) -> child h b r -> ~ reaches h r a).

(** A template that begins by building fragment [k] of its own. *)
Inductive begins_with : list expr -> nat -> Prop :=
| bw_text t p es k : begins_with es k -> begins_with (EPlain t p :: es) k
| bw_frag name v p es k : name = "f" \/ name = "fragment" -> lit_int v = Z.of_nat (S k) ->
    (exists x, v = LNum x) ->
    begins_with (ECall name [v] p :: es) k.
(** Fragments that contain each other, at the beginning of their templates. *)
Definition endless_set (h : fheap) (C : nat -> Prop) : Prop :=
  forall a, C a -> exists es k r b,
    parse (o_raw (nth a (h_objs h) zero_obj)) = POk es /\ begins_with es k /\
    elem (h_refs h) (o_frags (nth a (h_objs h) zero_obj)) k r /\ points r b /\ C b.

(** The call [op] of Sqlb.v that the call [o] stands for: the trees of [h] in
    place of the pointers. *)
Inductive names (h : fheap) : pop -> qop -> Prop :=
| nm_distinct : names h QDistinct ODistinct
| nm_select rs bs : stand_for h rs bs -> names h (QSelect rs) (OSelect bs)
| nm_limit n : names h (QLimit n) (OLimit n)
| nm_offset n : names h (QOffset n) (OOffset n)
| nm_group rs bs : stand_for h rs bs -> names h (QGroupBy rs) (OGroupBy bs)
| nm_union rs bs : stand_for h rs bs -> names h (QUnion rs) (OUnion bs)
| nm_from t : names h (QFrom t) (OFrom t)
| nm_join kind t a f opt : stands_for_obj h a f -> names h (QJoin kind t (Some a) opt) (OJoin kind t (Some f) opt)
| nm_joinnil kind t opt : names h (QJoin kind t None opt) (OJoin kind t None opt)
| nm_where a f : stands_for_obj h a f -> names h (QWhere (Some a)) (OWhere (Some f))
| nm_wherenil : names h (QWhere None) (OWhere None)
| nm_where2 r b op v : stands_for h r b -> names h (QWhere2 r op v) (OWhere2 b op v)
| nm_wherein r b v : stands_for h r b -> names h (QWhereIn r v) (OWhereIn b v)
| nm_wherenotin r b v : stands_for h r b -> names h (QWhereNotIn r v) (OWhereNotIn b v)
| nm_order r b o : stands_for h r b -> names h (QOrderBy r o) (OOrderBy b o)
| nm_with nm r b deps : stands_for h r b -> names h (QWith nm r deps) (OWith nm b deps).
(** The condition of every join has the prefix ON. *)
Definition on_marked (op : qop) : Prop :=
  match op with OJoin _ t (Some f) _ => fst t = "" \/ f_prefix f = "ON" | _ => True end.
