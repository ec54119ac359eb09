(** Properties of the primitives the other specifications use: C62 (texts),
    C63 (arguments of functions), C64 (registering functions), and parts of C16,
    C22, C27, C29, C31 and C32. *)
From Coq Require Import Strings.String Strings.Ascii NArith ZArith List Bool Floats.SpecFloat.
From Verif Require Import GoStr GoNum Syntax Value Util Model Sqlf Sqlb Spec_syntax Spec_eval Spec_base Use_proofs Base_proofs.
Import ListNotations.
Open Scope string_scope.

(** C62: the text functions. *)
Theorem c62_trim : forall s, trimmed s (trim_space s).
Proof. exact trim_space_trimmed. Qed.
Print Assumptions c62_trim.
Theorem c62_join : forall sep l s, str_join sep l = s <-> joined sep l s.
Proof. exact str_join_joined. Qed.
Print Assumptions c62_join.
Theorem c62_decimal : forall n s, itoa (Z.of_N n) = s <-> decimal n s.
Proof. exact itoa_decimal. Qed.
Print Assumptions c62_decimal.
Theorem c62_negative : forall p, itoa (Z.neg p) = "-" ++ itoa (Z.pos p).
Proof. exact itoa_negative. Qed.
Print Assumptions c62_negative.
(** Leading zeros are allowed, the value must be below 2^64. *)
Theorem c62_parse : forall s n, parse_uint64 s = Some n <->
  (n < 18446744073709551616)%N /\ exists z t, s = z ++ t /\ all (fun a => Ascii.eqb a "0") z = true /\ decimal n t.
Proof. exact parse_uint64_decimal. Qed.
Print Assumptions c62_parse.
Theorem c62_halve : forall s t, undouble_quotes s = t <-> quotes_halved s t.
Proof. exact undouble_halved. Qed.
Print Assumptions c62_halve.
Theorem c62_double : forall s t, double_quotes s = t <-> quotes_doubled s t.
Proof. exact double_doubled. Qed.
Print Assumptions c62_double.
Example c62_example :
  let nbsp := bytes [194; 160]%N in
  trim_space (" " ++ nbsp ++ " a  b" ++ bytes [226; 128; 131; 10]%N) = "a  b" /\ In nbsp whites /\ trim_space (bytes [160]%N) = bytes [160]%N /\
  str_join ", " ["a"; "b"; "c"] = "a, b, c" /\ itoa 120 = "120" /\ itoa (-7) = "-7" /\ parse_uint64 "007" = Some 7%N /\ parse_uint64 "18446744073709551616" = None /\
  undouble_quotes "it''s'x''''" = "it's'x''" /\ double_quotes "it's" = "it''s".
Proof. repeat apply conj; vm_compute; try reflexivity. tauto. Qed.

(** C16, what equal and hashable mean. *)
Theorem c16_equal : forall v w, go_eq v w = true <-> same v w.
Proof. exact go_eq_same. Qed.
Print Assumptions c16_equal.
Theorem c16_unhashable : forall v, hashable v = false <-> unhashable v.
Proof. exact hashable_iff. Qed.
Print Assumptions c16_unhashable.
Example c16_equal_example :
  let f x := VStruct "T" [VFloat "float64" x; VPtr "*int" 5 (Some (VInt "int" 1))] in
  go_eq (f (S754_zero true)) (f (S754_zero false)) = true /\ go_eq (f S754_nan) (f S754_nan) = false /\
  go_eq (VInt "int" 1) (VInt "int64" 1) = false /\ hashable (VArray "[1]any" [VSlice "[]int" None]) = false.
Proof. repeat apply conj; vm_compute; reflexivity. Qed.

(** C22, marking an argument or fragment as used. *)
Theorem c22_marked : forall l i j, nth_error (mark i l) j = if Nat.eqb j i then option_map (fun _ => true) (nth_error l j) else nth_error l j.
Proof. exact mark_iff. Qed.
Print Assumptions c22_marked.
Example c22_marked_example : mark 1 [false; false; true] = [false; true; true] /\ mark 3 [false] = [false].
Proof. apply conj; reflexivity. Qed.

(** C27, errors that are or wrap ErrInvalidIndex. *)
Theorem c27_by_index : forall e, is_invalid_index e = true <-> by_index e.
Proof. exact invalid_index_iff. Qed.
Print Assumptions c27_by_index.
Example c27_by_index_example : is_invalid_index (EWrap "a" (EWrap "b" (EInvalidIndex 2))) = true /\ is_invalid_index (EWrap "a" (EMsg "invalid index")) = false.
Proof. apply conj; reflexivity. Qed.

(** C29, indexes count from 1. *)
Theorem c29_in_range : forall A (l : list A) i x, nth1 l i = Some x <-> exists k, i = Z.of_nat (S k) /\ nth_error l k = Some x.
Proof. exact nth1_iff. Qed.
Print Assumptions c29_in_range.
Example c29_in_range_example : nth1 ["a"; "b"] 2 = Some "b" /\ nth1 ["a"; "b"] 0 = None /\ nth1 ["a"; "b"] 3 = None /\ nth1 ["a"; "b"] (-1) = None.
Proof. repeat apply conj; reflexivity. Qed.

(** C31, the number of arguments. *)
Theorem c31_arity : forall f n, arity_ok (sig_of f) n = true <-> takes f n.
Proof. exact arity_takes. Qed.
Print Assumptions c31_arity.
Example c31_arity_example : takes FnArg 1 /\ ~ takes FnArg 2 /\ takes FnJoin 2 /\ takes FnJoin 5 /\ ~ takes FnJoin 1 /\
  takes (FnCustom (mkSig [GCtx; GNum] true []) (fun _ => PRet "" None)) 0.
Proof. unfold takes. cbn. repeat apply conj; repeat constructor; intros H; repeat apply le_S_n in H; inversion H; discriminate. Qed.

(** C32, ASCII names. *)
Theorem c32_names : forall nm, ascii_only nm = true -> (good_name nm = true <-> nm <> "" /\ Forall name_char (chars nm)).
Proof. exact good_name_chars. Qed.
Print Assumptions c32_names.
Example c32_names_example : good_name "a_B" = true /\ good_name "a1" = false /\ good_name "" = false /\ good_name "a b" = false.
Proof. repeat apply conj; vm_compute; reflexivity. Qed.

(** C63: the arguments of a call are checked before the function runs.  A
    wrong number of arguments, or an argument of the wrong kind, is an error
    and nothing happens, ... *)
Theorem c63_checked : forall rb rc jf e fc name f args S, proper f ->
  let r := eval_call rb rc jf e fc name f args S in
  (~ takes f (List.length args) -> exists er, r = (RErr er, S)) /\
  (takes f (List.length args) ->
    (all_fit f args \/ exists i, first_misfit f args i) /\
    (forall i a, first_misfit f args i -> nth_error args i = Some a ->
      (number a -> exists er, r = (RPanic er, S)) /\ (~ number a -> exists er, r = (RErr er, S))) /\
    (all_fit f args -> some_defined f (List.length args) -> exists er, r = (RErr er, S)) /\
    (all_fit f args -> ~ some_defined f (List.length args) -> r = caught name (call_fn rb rc jf e fc f args S))).
Proof. exact call_checked. Qed.
Print Assumptions c63_checked.
(** ... except that a number where a string or boolean is expected is a panic
    of the build. *)
Theorem c63_number_refuted : forall n e raw nm f l rest i x args fs p s st,
  parsed raw = Some (ACall nm l :: rest) -> lookup_fn e nm = Some f -> proper f -> takes f (List.length l) ->
  first_misfit f l i -> nth_error l i = Some x -> number x ->
  exists er, build (S (S n)) e (BFrag (Frag raw args fs p s)) st = (RPanic er, st).
Proof. exact number_panics. Qed.
Print Assumptions c63_number_refuted.
Definition shout : func := FnCustom (mkSig [GCtx; GStr false; GBool true] true [GStr false]) (fun l => PRet "shouted" None).
Example c63_example :
  let run raw := fst (build 9 [[("shout", shout)]; builtins] (BFrag (F raw)) (new_store style_question [])) in
  proper shout /\ takes shout 1 /\ takes shout 3 /\
  run "#shout('a')" = ROk "shouted" /\ (exists er, run "#shout()" = RErr er) /\ (exists er, run "#shout(true)" = RErr er) /\
  (exists er, run "#shout('a', true)" = RErr er) /\ (exists er, run "#shout(1)" = RPanic er) /\
  first_misfit shout [LStr "a"; LInt 1; LBool true] 1.
Proof.
  repeat apply conj; try (vm_compute; reflexivity); try (eexists; vm_compute; reflexivity); try (unfold takes; cbn; repeat constructor; fail).
  - intros _. discriminate.
  - exists (LInt 1), (GBool true). repeat apply conj; try reflexivity. intros H. inversion H.
  - intros [|j] a Hj H; [injection H as <-; exists (GStr false); split; [reflexivity|constructor]|inversion Hj as [|? K]; inversion K].
Qed.

(** C64: what can be registered. *)
Theorem c64_registrable : forall fs, Forall (fun nf => ascii_only (fst nf) = true) fs -> (check_funcs fs = None <-> Forall registrable fs).
Proof. exact check_registrable. Qed.
Print Assumptions c64_registrable.
(** Otherwise the user code gets an error and nothing is built. *)
Theorem c64_refused : forall rb e fs b k st, check_funcs fs <> None -> exists er, run_prog rb e (PBuild fs b k) st = run_prog rb e (k (RErr er)) st.
Proof. exact register_refused. Qed.
Print Assumptions c64_refused.
Example c64_example : let f ins outs := FnCustom (mkSig ins false outs) (fun _ => PRet "" None) in
  check_funcs [("ok", f [GCtx; GNum; GStr true] [GStr false; GError]); ("fine", f [] [])] = None /\
  check_funcs [("ok", f [] []); ("bad1", f [] [])] <> None /\ check_funcs [("bad", f [GNum; GCtx] [])] <> None /\ check_funcs [("bad", f [] [GStr true])] <> None.
Proof. repeat apply conj; vm_compute; congruence. Qed.
