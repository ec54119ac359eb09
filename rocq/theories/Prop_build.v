(** Properties C16-C19, C24, C30 (placeholders, arguments, locality).  The
    vocabulary is in RefSem.v ([text], [render], [placeholders], [lib],
    [tree]) and Spec_build.v; the proofs are in the *_proofs.v files. *)
From Coq Require Import Strings.String Strings.Ascii NArith ZArith List Bool Floats.SpecFloat.
From Verif Require Import GoStr GoNum Syntax Value Util Model Sqlf Sqlb Spec_syntax RefSem Spec_build
  Store_proofs Build_proofs Map2_proofs.
Import ListNotations.
Open Scope string_scope.

Definition I (z : Z) : value := VInt "int" z.
Definition T (s : string) : value := VStr "string" s.

(** A parent with two children sharing a value, one of them joined. *)
Definition sample : builder :=
  BFrag (Frag "SELECT * FROM t WHERE #join('#f', ' AND ') OR x = ? OR y = ?" [I 7; T "a"]
    [BFrag (Fa "a IN (#join('#arg', ','))" [I 1; I 7; I 2]); BCol (Some (F "")) "t"; BFrag (Fa "b = $1 OR c = $1" [T "a"])] "" "").
(** A query builder in the heap, referring to another one. *)
Definition sample_heap : list qb :=
  match apply_ops [OFrom ("foo", "f"); OSelect [acolumn ("foo", "f") "id"];
                   OWhere2 (acolumn ("foo", "f") "id") " = " (I 3); OUnion [BQuery (Some 1)]] new_qb,
        apply_ops [OFrom ("bar", ""); OSelect [acolumn ("bar", "") "*"]; ODistinct;
                   OOrderBy (acolumn ("bar", "") "n") 3;
                   OWhereIn (acolumn ("bar", "") "id") (VSlice "[]int" (Some [I 3; I 4]))] new_qb with
  | ROk a, ROk b => [a; b]
  | _, _ => []
  end.

(** C16: committing hashable values in Dollar style keeps each value once, in
    order of first use, and two commits get the same placeholder iff their
    values are equal. *)
Theorem c16_dedup : forall h vs i j v w ri rj, forallb hashable vs = true ->
  let r := commit_all vs (new_store style_dollar h) in
  st_args (snd r) = firsts [] vs /\
  (nth_error vs i = Some v -> nth_error vs j = Some w -> nth_error (fst r) i = Some ri -> nth_error (fst r) j = Some rj ->
   (ri = rj <-> i = j \/ go_eq v w = true)).
Proof. exact commits_dedup. Qed.
Print Assumptions c16_dedup.
(** The equality is an equivalence except that NaN is not equal to itself. *)
Theorem c16_equality : (forall v w, go_eq v w = go_eq w v) /\
  (forall u v w, go_eq u v = true -> go_eq v w = true -> go_eq u w = true).
Proof. split; [exact go_eq_sym|exact go_eq_trans]. Qed.
Print Assumptions c16_equality.
Example c16_example :
  let vs := [I 1; T "a"; VInt "int64" 1; I 1; VFloat "float64" S754_nan; VFloat "float64" S754_nan; T "a"] in
  forallb hashable vs = true /\
  fst (commit_all vs (new_store style_dollar [])) = map ROk ["$1"; "$2"; "$3"; "$1"; "$4"; "$5"; "$2"] /\
  firsts [] vs = [I 1; T "a"; VInt "int64" 1; VFloat "float64" S754_nan; VFloat "float64" S754_nan].
Proof. repeat apply conj; vm_compute; reflexivity. Qed.

(** C17: both styles fail alike, leave the query builders alike, and on success
    show the same text [t] with placeholders for equal values. *)
Theorem c17_styles_agree : forall n h b, lib hashable b = true -> forallb (lib_qb hashable) h = true ->
  let d := build_query n style_dollar h b in
  let q := build_query n style_question h b in
  snd d = snd q /\
  match fst q with
  | ROk (sq, aq) => exists t p ad, sq = render qmark t /\ fst d = ROk (render p t, ad) /\
      forall j, In j (placeholders t) -> exists v, nth_error aq j = Some v /\ dollar_denotes ad (p j) v
  | RErr er => fst d = RErr er
  | RPanic er => fst d = RPanic er
  | RFuel => fst d = RFuel
  end.
Proof. exact both_styles. Qed.
Print Assumptions c17_styles_agree.
Example c17_example : forallb (lib_qb hashable) sample_heap = true /\
  fst (build_query 20 style_question sample_heap (BQuery (Some 0))) =
    ROk ("SELECT f.id FROM foo AS f WHERE f.id = ? UNION (SELECT DISTINCT bar.*, bar.n AS _order_1 FROM bar WHERE bar.id IN (?, ?) ORDER BY _order_1 DESC)",
         [I 3; I 3; I 4]) /\
  fst (build_query 20 style_dollar sample_heap (BQuery (Some 0))) =
    ROk ("SELECT f.id FROM foo AS f WHERE f.id = $1 UNION (SELECT DISTINCT bar.*, bar.n AS _order_1 FROM bar WHERE bar.id IN ($1, $2) ORDER BY _order_1 DESC)",
         [I 3; I 4]).
Proof. repeat apply conj; vm_compute; reflexivity. Qed.

(** C18: replacing every argument value [v] by [m v] changes nothing but the
    argument list. *)
Theorem c18_values_inert : forall m n style h b,
  style <> style_dollar -> lib all_values b = true -> forallb (lib_qb all_values) h = true ->
  build_query n style (map (map_qb m) h) (map_b m b) =
  (match fst (build_query n style h b) with
   | ROk (s, args) => ROk (s, map m args)
   | RErr er => RErr er | RPanic er => RPanic er | RFuel => RFuel
   end, map (map_qb m) (snd (build_query n style h b))).
Proof. exact values_inert. Qed.
Print Assumptions c18_values_inert.
Example c18_example :
  let m := fun _ => T "'; DROP TABLE users --" in
  fst (build_query 20 style_question (map (map_qb m) sample_heap) (BQuery (Some 0))) =
    ROk ("SELECT f.id FROM foo AS f WHERE f.id = ? UNION (SELECT DISTINCT bar.*, bar.n AS _order_1 FROM bar WHERE bar.id IN (?, ?) ORDER BY _order_1 DESC)",
         map m [I 3; I 3; I 4]).
Proof. vm_compute. reflexivity. Qed.

(** In Dollar style the text depends on the values only through which of them
    are equal ([P] holds of the values that occur). *)
Theorem c18_dollar : forall m (P : value -> bool), (forall v, P v = true -> hashable v = true /\ hashable (m v) = true) ->
  (forall v w, P v = true -> P w = true -> go_eq (m v) (m w) = go_eq v w) ->
  forall n h b, lib P b = true -> forallb (lib_qb P) h = true ->
  build_query n style_dollar (map (map_qb m) h) (map_b m b) =
  (match fst (build_query n style_dollar h b) with
   | ROk (s, args) => ROk (s, map m args)
   | RErr er => RErr er | RPanic er => RPanic er | RFuel => RFuel
   end, map (map_qb m) (snd (build_query n style_dollar h b))).
Proof. exact values_pattern. Qed.
Print Assumptions c18_dollar.
(** Making different values equal changes it. *)
Theorem c18_merged_refuted : exists m b n s s' a a', lib hashable b = true /\ (forall v, hashable (m v) = true) /\
  fst (build_query n style_dollar [] b) = ROk (s, a) /\ fst (build_query n style_dollar [] (map_b m b)) = ROk (s', a') /\ s <> s'.
Proof.
  exists (fun _ => I 1), (BFrag (Fa "a=? AND b=?" [I 1; I 2])), 9. do 4 eexists. apply conj; [reflexivity|]. apply conj; [reflexivity|].
  apply conj; [vm_compute; reflexivity|]. apply conj; [vm_compute; reflexivity|]. discriminate.
Qed.
Print Assumptions c18_merged_refuted.
Example c18_dollar_example :
  let P := fun v => existsb (go_eq v) [I 3; I 4] in
  let m := fun v => if go_eq v (I 3) then T "'; DROP TABLE users --" else T "$1" in
  lib P (BQuery (Some 0)) = true /\ forallb (lib_qb P) sample_heap = true /\
  fst (build_query 20 style_dollar (map (map_qb m) sample_heap) (BQuery (Some 0))) =
    ROk ("SELECT f.id FROM foo AS f WHERE f.id = $1 UNION (SELECT DISTINCT bar.*, bar.n AS _order_1 FROM bar WHERE bar.id IN ($1, $2) ORDER BY _order_1 DESC)",
         map m [I 3; I 4]).
Proof. repeat apply conj; vm_compute; reflexivity. Qed.

(** C19: any build, with any user code, only appends to the arguments, and
    values known to the Dollar store keep their number. *)
Theorem c19_args_grow : forall n e b st,
  let st' := snd (build n e b st) in
  st_dollar st' = st_dollar st /\
  (exists x, st_args st' = (st_args st ++ x)%list) /\
  (forall v k, dict_find v (st_dict st) = Some k -> dict_find v (st_dict st') = Some k).
Proof. exact store_grows. Qed.
Print Assumptions c19_args_grow.
(** User code that commits, reads the arguments, builds and fails. *)
Example c19_example :
  let p := PCommit (I 1) (fun s => PBuild [] (BFrag (Fa "?" [I 2])) (fun r =>
             match r with ROk t => PArgs (fun a => if Nat.eqb (List.length a) 3 then PPanicU (EMsg (s ++ t)) else PRet "" None)
             | _ => PRet "" None end)) in
  build 9 [builtins] (BCustom p) (mkStore true [T "x"] [(T "x", 1)] []) =
    (RPanic (EMsg "$2$3"), mkStore true [T "x"; I 1; I 2] [(I 2, 3); (I 1, 2); (T "x", 1)] []).
Proof. vm_compute. reflexivity. Qed.

(** C24: building inside any store (any arguments committed before, either
    style) gives the text of building alone, up to the placeholders, which stand
    for the same values; the query builders end in the same state. *)
Theorem c24_local : forall n e b st, lib_env e = true ->
  lib (okv (st_dollar st)) b = true -> forallb (lib_qb (okv (st_dollar st))) (st_heap st) = true ->
  sound_store st ->
  let alone := build n e b (new_store style_question (st_heap st)) in
  let inside := build n e b st in
  st_heap (snd inside) = st_heap (snd alone) /\
  (st_dollar st = false -> st_args (snd inside) = (st_args st ++ st_args (snd alone))%list) /\
  match fst alone with
  | ROk s0 => exists t q, s0 = render qmark t /\ fst inside = ROk (render q t) /\
      forall j, In j (placeholders t) -> exists v,
        nth_error (st_args (snd alone)) j = Some v /\
        denotes (st_dollar st) (st_args (snd inside)) (q j) v
  | RErr er => fst inside = RErr er
  | RPanic er => fst inside = RPanic er
  | RFuel => fst inside = RFuel
  end.
Proof. exact local_refs. Qed.
Print Assumptions c24_local.
Example c24_example :
  let st := mkStore true [I 2; T "z"] [(T "z", 2); (I 2, 1)] [] in
  let b := BFrag (Fa "x = $1 AND y = $2 AND z = $1" [I 1; I 2]) in
  lib (okv true) b = true /\
  fst (build 9 [builtins] b (new_store style_question [])) = ROk "x = ? AND y = ? AND z = ?" /\
  fst (build 9 [builtins] b st) = ROk "x = $3 AND y = $1 AND z = $3".
Proof. repeat apply conj; vm_compute; reflexivity. Qed.
(** Every store reached from a new one is sound. *)
Theorem c24_sound : forall n e b style h, sound_store (snd (build n e b (new_store style h))).
Proof. exact reached_sound. Qed.
Print Assumptions c24_sound.

(** C30: more time (fuel) never changes a result, for all builders. *)
Theorem c30_fuel_irrelevant : forall n m e b st, n <= m -> fst (build n e b st) <> RFuel ->
  build m e b st = build n e b st.
Proof. exact fuel_irrelevant. Qed.
Print Assumptions c30_fuel_irrelevant.
