(** Fragments as objects.  In the other model files a *Fragment is a finite
    tree; here it is a pointer to an object in a heap, its Args and Fragments
    are slices of arrays, and the methods of fragment.go change objects in
    place.  [unfold_ref] reads the tree off the heap. *)
From Coq Require Import Strings.String Strings.Ascii NArith ZArith List Bool.
From Verif Require Import GoStr GoNum Syntax Value Util Model Sqlf Sqlb.
Import ListNotations.
Open Scope string_scope.

(* ------------------------------------------------------------------ *)
(** * Slices (Go specification, "Slice types" and "Appending to and copying
      slices") *)

(** Array, offset, length, capacity. *)
Record slice := mkSlice { s_arr : nat; s_off : nat; s_len : nat; s_cap : nat }.
Definition nil_slice : slice := mkSlice 0 0 0 0.

Section Slices.
Context {A : Type}.
Variable zero : A.
Definition read (arrs : list (list A)) (s : slice) : list A :=
  firstn (s_len s) (skipn (s_off s) (nth (s_arr s) arrs [])).
(** [l] with [xs] written from index [i] on. *)
Fixpoint write (i : nat) (xs l : list A) : list A :=
  match xs with [] => l | x :: xs' => write (S i) xs' (upd i x l) end.
(** append(s, xs...): in place if the capacity suffices, otherwise in a new
    array; [extra] is the spare capacity the runtime chooses for it. *)
Definition append_slice (arrs : list (list A)) (s : slice) (xs : list A) (extra : nat) : list (list A) * slice :=
  let n := s_len s + List.length xs in
  if (n <=? s_cap s)%nat then
    (upd (s_arr s) (write (s_off s + s_len s) xs (nth (s_arr s) arrs [])) arrs,
     mkSlice (s_arr s) (s_off s) n (s_cap s))
  else
    ((arrs ++ [read arrs s ++ xs ++ repeat zero extra])%list,
     mkSlice (List.length arrs) 0 n (n + extra)).
End Slices.

(* ------------------------------------------------------------------ *)
(** * Objects *)

(** A FragmentBuilder: nil, a nil *Column, a *Fragment (nil or an address), a
    *Column (table_column.go:10-19; its fields never change, its fragment is a
    pointer), anything else. *)
Inductive ref :=
| PNil
| PNilCol
| PFrag (a : option nat)
| PCol (a : option nat) (table : string)
| POther (b : builder).

(** Fragment, fragment.go:5-11 *)
Record fobj := mkObj { o_raw : string; o_args : slice; o_frags : slice; o_prefix : string; o_suffix : string }.
Definition zero_obj : fobj := mkObj "" nil_slice nil_slice "" "".

Record fheap := mkFHeap { h_objs : list fobj; h_vals : list (list value); h_refs : list (list ref) }.
Definition get_obj (h : fheap) (a : nat) : fobj := nth a (h_objs h) zero_obj.
Definition set_obj (h : fheap) (a : nat) (o : fobj) : fheap := mkFHeap (upd a o (h_objs h)) (h_vals h) (h_refs h).
Definition args_of (h : fheap) (a : nat) : list value := read (h_vals h) (o_args (get_obj h a)).
Definition frags_of (h : fheap) (a : nat) : list ref := read (h_refs h) (o_frags (get_obj h a)).

(** The tree behind a reference, down to a depth. *)
Fixpoint unfold_ref (d : nat) (h : fheap) (r : ref) {struct d} : builder :=
  match r with
  | PNil => BNil
  | PNilCol => BNilCol
  | PFrag None => BNilFrag
  | PCol None t => BCol None t
  | POther b => b
  | PFrag (Some a) =>
    match d with
    | O => BNil
    | S d' => BFrag (Frag (o_raw (get_obj h a)) (args_of h a) (map (unfold_ref d' h) (frags_of h a))
                       (o_prefix (get_obj h a)) (o_suffix (get_obj h a)))
    end
  | PCol (Some a) t =>
    match d with
    | O => BNil
    | S d' => BCol (Some (Frag (o_raw (get_obj h a)) (args_of h a) (map (unfold_ref d' h) (frags_of h a))
                            (o_prefix (get_obj h a)) (o_suffix (get_obj h a)))) t
    end
  end.
(** Building what a reference points to: a build with fuel [n] looks at most
    [n] levels deep. *)
Definition build_ref (n : nat) (h : fheap) (e : env) (r : ref) (st : store) : outcome string * store :=
  build n e (unfold_ref n h r) st.

(* ------------------------------------------------------------------ *)
(** * What a program does with fragments *)

Inductive cmd :=
| CVals (l : list value) (spare : nat)        (* a new []any with contents and spare capacity *)
| CRefs (l : list ref) (spare : nat)          (* a new []FragmentBuilder *)
| CSetVal (arr i : nat) (v : value)           (* s[i] = v by the caller *)
| CSetRef (arr i : nat) (r : ref)
| CNew (o : fobj)                             (* &Fragment{...}; F, Fa, Ff: shortcut.go:4-24 *)
| CPrefix (a : option nat) (p : string)       (* WithPrefix, fragment.go:14-17 *)
| CSuffix (a : option nat) (s : string)       (* WithSuffix, fragment.go:20-23 *)
| CArgs (a : option nat) (s : slice)          (* WithArgs, fragment.go:26-29 *)
| CFrags (a : option nat) (s : slice)         (* WithFragments, fragment.go:32-35 *)
| CAppArgs (a : option nat) (vs : list value) (extra : nat)   (* AppendArgs, fragment.go:38-41 *)
| CAppFrags (a : option nat) (rs : list ref) (extra : nat).   (* AppendFragments, fragment.go:44-47 *)

(** Assignment to a field of a nil pointer is a run-time panic. *)
Definition on_obj (a : option nat) (h : fheap) (k : nat -> fobj -> fheap) : outcome fheap :=
  match a with None => RPanic nil_deref | Some a => ROk (k a (get_obj h a)) end.

Definition exec (c : cmd) (h : fheap) : outcome fheap :=
  match c with
  | CVals l spare => ROk (mkFHeap (h_objs h) (h_vals h ++ [l ++ repeat VNil spare])%list (h_refs h))
  | CRefs l spare => ROk (mkFHeap (h_objs h) (h_vals h) (h_refs h ++ [l ++ repeat PNil spare])%list)
  | CSetVal arr i v => ROk (mkFHeap (h_objs h) (upd arr (upd i v (nth arr (h_vals h) [])) (h_vals h)) (h_refs h))
  | CSetRef arr i r => ROk (mkFHeap (h_objs h) (h_vals h) (upd arr (upd i r (nth arr (h_refs h) [])) (h_refs h)))
  | CNew o => ROk (mkFHeap (h_objs h ++ [o])%list (h_vals h) (h_refs h))
  | CPrefix a p => on_obj a h (fun a o => set_obj h a (mkObj (o_raw o) (o_args o) (o_frags o) p (o_suffix o)))
  | CSuffix a s => on_obj a h (fun a o => set_obj h a (mkObj (o_raw o) (o_args o) (o_frags o) (o_prefix o) s))
  | CArgs a s => on_obj a h (fun a o => set_obj h a (mkObj (o_raw o) s (o_frags o) (o_prefix o) (o_suffix o)))
  | CFrags a s => on_obj a h (fun a o => set_obj h a (mkObj (o_raw o) (o_args o) s (o_prefix o) (o_suffix o)))
  | CAppArgs a vs extra =>
    on_obj a h (fun a o =>
      let '(vals, s) := append_slice VNil (h_vals h) (o_args o) vs extra in
      mkFHeap (upd a (mkObj (o_raw o) s (o_frags o) (o_prefix o) (o_suffix o)) (h_objs h)) vals (h_refs h))
  | CAppFrags a rs extra =>
    on_obj a h (fun a o =>
      let '(refs, s) := append_slice PNil (h_refs h) (o_frags o) rs extra in
      mkFHeap (upd a (mkObj (o_raw o) (o_args o) s (o_prefix o) (o_suffix o)) (h_objs h)) (h_vals h) refs)
  end.
Fixpoint exec_all (cs : list cmd) (h : fheap) : outcome fheap :=
  match cs with
  | [] => ROk h
  | c :: cs' => match exec c h with ROk h' => exec_all cs' h' | r => r end
  end.

(* ------------------------------------------------------------------ *)
(** * Query builders that hold pointers *)

(** The calls of Sqlb.v with references.  A builder stores the references and
    looks at them when it is built, so a call counts with the trees of that
    time ([papply] with the heap of that time).  The only call with an effect on fragments of the caller
    is join, which sets the prefix of [on] (query_builder_join.go:106). *)
Inductive pop :=
| QDistinct
| QSelect (cols : list ref)
| QLimit (n : Z)
| QOffset (n : Z)
| QGroupBy (cols : list ref)
| QUnion (bs : list ref)
| QFrom (t : tname)
| QJoin (kind : string) (t : tname) (on : option nat) (optional : bool)
| QWhere (f : option nat)
| QWhere2 (col : ref) (op : string) (v : value)
| QWhereIn (col : ref) (l : value)
| QWhereNotIn (col : ref) (l : value)
| QOrderBy (col : ref) (o : N)
| QWith (name : string) (b : ref) (deps : list string).

Definition tree_of (d : nat) (h : fheap) (a : nat) : fragment :=
  match unfold_ref (S d) h (PFrag (Some a)) with BFrag f => f | _ => F "" end.
(** The call with the trees of [h] in place of the pointers. *)
Definition at_build (d : nat) (h : fheap) (o : pop) : qop :=
  match o with
  | QDistinct => ODistinct
  | QSelect cols => OSelect (map (unfold_ref d h) cols)
  | QLimit n => OLimit n
  | QOffset n => OOffset n
  | QGroupBy cols => OGroupBy (map (unfold_ref d h) cols)
  | QUnion bs => OUnion (map (unfold_ref d h) bs)
  | QFrom t => OFrom t
  | QJoin kind t on opt => OJoin kind t (option_map (tree_of d h) on) opt
  | QWhere f => OWhere (option_map (tree_of d h) f)
  | QWhere2 col op v => OWhere2 (unfold_ref d h col) op v
  | QWhereIn col l => OWhereIn (unfold_ref d h col) l
  | QWhereNotIn col l => OWhereNotIn (unfold_ref d h col) l
  | QOrderBy col o => OOrderBy (unfold_ref d h col) o
  | QWith name b deps => OWith name (unfold_ref d h b) deps
  end.
(** join, query_builder_join.go:81-117, apart from the assignment to the prefix
    of [on] (line 106), which is an effect on the heap (below). *)
Definition join_kept (kind : string) (t : tname) (on : option fragment) (optional : bool) (q : qb)
  : outcome qb :=
  if is_empty (fst t) then ROk (push_error q (EMsg "join table name is empty")) else
  let q1 := match q_tables q with
            | [] => set_tables q (q_tobjs q ++ [mkFT ("", "") None false])%list
                      [List.length (q_tobjs q)] (q_tdict q)
            | _ => q
            end in
  match on with
  | None => RPanic nil_deref
  | Some on =>
    let ft := mkFT t (Some (Ff (join_raw kind t) [BFrag on])) optional in
    match assoc (applied t) (q_tdict q1) with
    | Some id => ROk (set_tables q1 (upd id ft (q_tobjs q1)) (q_tables q1) (q_tdict q1))
    | None =>
      let id := List.length (q_tobjs q1) in
      ROk (set_tables q1 (q_tobjs q1 ++ [ft])%list (q_tables q1 ++ [id])%list
             ((applied t, id) :: q_tdict q1))
    end
  end.
Definition papply (d : nat) (h : fheap) (o : pop) (q : qb) : outcome qb :=
  match o with
  | QJoin kind t on opt => join_kept kind t (option_map (tree_of d h) on) opt q
  | _ => apply_op (at_build d h o) q
  end.
Fixpoint papplys (d : nat) (h : fheap) (os : list pop) (q : qb) : outcome qb :=
  match os with
  | [] => ROk q
  | o :: os' => match papply d h o q with ROk q' => papplys d h os' q' | r => r end
  end.
Definition call_effect (o : pop) (h : fheap) : outcome fheap :=
  match o with
  | QJoin _ t on _ => if is_empty (fst t) then ROk h else exec (CPrefix on "ON") h
  | _ => ROk h
  end.
(** A program: builder calls and other commands in turn. *)
Inductive step := SCall (o : pop) | SCmd (c : cmd).
Fixpoint run_steps (l : list step) (h : fheap) : outcome fheap :=
  match l with
  | [] => ROk h
  | s :: l' =>
    match (match s with SCall o => call_effect o h | SCmd c => exec c h end) with
    | ROk h' => run_steps l' h'
    | r => r
    end
  end.
Definition calls_of (l : list step) : list pop := flat_map (fun s => match s with SCall o => [o] | SCmd _ => [] end) l.
(** The query builder after the program, as it is built. *)
Definition final_qb (d : nat) (l : list step) (h : fheap) : outcome qb :=
  match run_steps l h with
  | ROk h' => papplys d h' (calls_of l) new_qb
  | RErr e => RErr e | RPanic e => RPanic e | RFuel => RFuel
  end.
