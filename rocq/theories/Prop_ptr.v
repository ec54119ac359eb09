(** Properties C67-C70: fragments as objects. *)
From Coq Require Import Strings.String Strings.Ascii NArith ZArith List Bool Lia.
From Verif Require Import GoStr GoNum Syntax Value Util Model Sqlf Sqlb Ptr Spec_query Spec_term Spec_ptr Ptr_proofs.
Import ListNotations.
Open Scope string_scope.

(* ------------------------------------------------------------------ *)
(** * C67: builds of shared, nested and cyclic fragments *)

(** What a fragment builds depends on its fragments only through what they
    build. *)
Theorem c67_compositional : forall n e raw args fr fr' p s st,
  Forall2 (fun b b' => forall e st, build n e b st = build n e b' st) fr fr' ->
  build (S n) e (BFrag (Frag raw args fr p s)) st = build (S n) e (BFrag (Frag raw args fr' p s)) st.
Proof. exact frag_compositional. Qed.
Print Assumptions c67_compositional.
Theorem c67_column_compositional : forall n e raw args fr fr' p s t st,
  Forall2 (fun b b' => forall e st, build n e b st = build n e b' st) fr fr' ->
  build (S n) e (BCol (Some (Frag raw args fr p s)) t) st = build (S n) e (BCol (Some (Frag raw args fr' p s)) t) st.
Proof. exact col_compositional. Qed.
Print Assumptions c67_column_compositional.
(** So a build may look at the heap as deep as it likes. *)
Theorem c67_depth : forall n d d' h e r st, n <= d -> n <= d' ->
  build n e (unfold_ref d h r) st = build n e (unfold_ref d' h r) st.
Proof. exact unfold_deep. Qed.
Print Assumptions c67_depth.
(** Without cycles every reference stands for one finite tree, *)
Theorem c67_tree : forall h r, sound_heap h -> no_cycle h -> exists b, stands_for h r b.
Proof. exact acyclic_tree. Qed.
Print Assumptions c67_tree.
Theorem c67_one_tree : forall h r b, stands_for h r b -> forall b', stands_for h r b' -> b = b'.
Proof. exact stands_det. Qed.
Print Assumptions c67_one_tree.
(** and builds as this tree, however the parts are shared. *)
Theorem c67_sharing : forall n h e r b st, stands_for h r b -> build_ref n h e r st = build n e b st.
Proof. exact build_tree. Qed.
Print Assumptions c67_sharing.
(** The build ends. *)
Theorem c67_terminates : forall rank k h e r st, sound_heap h -> no_cycle h ->
  (forall b, (r = POther b \/ exists l, In l (h_refs h) /\ In (POther b) l) -> below rank k b) ->
  acyclic rank (st_heap st) -> bounded_env e ->
  exists n, fst (build_ref n h e r st) <> RFuel /\ forall m, n <= m -> build_ref m h e r st = build_ref n h e r st.
Proof. exact ref_halts. Qed.
Print Assumptions c67_terminates.
(** Fragments that contain themselves at the beginning of their templates do
    not build in any number of steps. *)
Theorem c67_cycle_refuted : forall h C, endless_set h C -> forall n r a st, points r a -> C a ->
  fst (build_ref n h [builtins] r st) = RFuel.
Proof. exact endless_never_ptr. Qed.
Print Assumptions c67_cycle_refuted.

(** x := Fa("x = $1", 1); Ff("#f1 OR #f2", x, x) *)
Definition empty_heap : fheap := mkFHeap [] [] [].
Definition twice : list cmd :=
  [CVals [VInt "int" 1] 0; CNew (mkObj "x = $1" (mkSlice 0 0 1 1) nil_slice "" "");
   CRefs [PFrag (Some 0); PCol (Some 0) "t"] 0; CNew (mkObj "#f1 OR #f2" nil_slice (mkSlice 0 0 2 2) "" "")].
Definition twice_heap : fheap := match exec_all twice empty_heap with ROk h => h | _ => empty_heap end.
Example c67_example :
  sound_heap twice_heap /\ no_cycle twice_heap /\
  (exists b, stands_for twice_heap (PFrag (Some 1)) b /\
     fst (build_query 9 style_dollar [] b) = ROk ("x = $1 OR x = $1", [VInt "int" 1])).
Proof.
  assert (Hs : sound_heap twice_heap).
  { repeat constructor; cbn; lia. }
  assert (Hc : no_cycle twice_heap).
  { exists (fun a => a). intros a r b [i [Hi He]] Hp. destruct a as [|[|[|a]]]; cbn in Hi, He; try lia.
    destruct i as [|[|i]]; cbn in He; [injection He as <-|injection He as <-|lia]; inversion Hp; subst; lia. }
  apply conj; [exact Hs|]. apply conj; [exact Hc|].
  exists (BFrag (Frag "#f1 OR #f2" [] [BFrag (Frag "x = $1" [VInt "int" 1] [] "" ""); BCol (Some (Frag "x = $1" [VInt "int" 1] [] "" "")) "t"] "" "")).
  apply conj; [|vm_compute; reflexivity].
  destruct (c67_tree twice_heap (PFrag (Some 1)) Hs Hc) as [b Hb].
  destruct (proj1 (tree_unfold twice_heap) _ _ Hb) as [d D]. specialize (D (d + 2) ltac:(lia)).
  replace (d + 2) with (S (S d)) in D by lia. cbn in D. subst b. exact Hb.
Qed.
(** f := F("a #f1"); f.AppendFragments(f) *)
Definition own : list cmd := [CNew (mkObj "a #f1" nil_slice nil_slice "" ""); CAppFrags (Some 0) [PFrag (Some 0)] 0].
Definition own_heap : fheap := match exec_all own empty_heap with ROk h => h | _ => empty_heap end.
Example c67_cycle_example : exec_all own empty_heap = ROk own_heap /\ sound_heap own_heap /\ endless_set own_heap (fun a => a = 0) /\ ~ no_cycle own_heap.
Proof.
  assert (Hc : child own_heap 0 (PFrag (Some 0))). { exists 0. split; [cbn; lia|reflexivity]. }
  apply conj; [reflexivity|]. apply conj; [repeat constructor; cbn; lia|]. apply conj.
  - intros a ->. eexists. exists 0, (PFrag (Some 0)), 0.
    apply conj; [vm_compute; reflexivity|]. apply conj; [|apply conj; [|apply conj; [constructor|reflexivity]]].
    + constructor. apply bw_frag; [left; reflexivity|vm_compute; reflexivity|eexists; reflexivity].
    + split; [cbn; lia|reflexivity].
  - intros [rank H]. specialize (H 0 _ 0 Hc (pt_frag 0)). lia.
Qed.

(* ------------------------------------------------------------------ *)
(** * C68: methods change the object they are called on *)

(** Only what leads to the object is affected. *)
Theorem c68_local : forall c a h h' r b, sets c a -> exec c h = ROk h' -> ~ reaches h r a -> stands_for h r b -> stands_for h' r b.
Proof. exact method_local. Qed.
Print Assumptions c68_local.
Theorem c68_prefix : forall h h' a raw args frags p0 s p, a < List.length (h_objs h) -> stands_for_obj h a (Frag raw args frags p0 s) ->
  exec (CPrefix (Some a) p) h = ROk h' -> stands_for_obj h' a (Frag raw args frags p s).
Proof. exact prefix_seen. Qed.
Print Assumptions c68_prefix.
Theorem c68_suffix : forall h h' a raw args frags p s0 s, a < List.length (h_objs h) -> stands_for_obj h a (Frag raw args frags p s0) ->
  exec (CSuffix (Some a) s) h = ROk h' -> stands_for_obj h' a (Frag raw args frags p s).
Proof. exact suffix_seen. Qed.
Print Assumptions c68_suffix.
Theorem c68_args : forall h h' a raw args0 args frags p s sl, a < List.length (h_objs h) -> stands_for_obj h a (Frag raw args0 frags p s) ->
  contents (h_vals h) sl args -> exec (CArgs (Some a) sl) h = ROk h' -> stands_for_obj h' a (Frag raw args frags p s).
Proof. exact args_seen. Qed.
Print Assumptions c68_args.
Theorem c68_frags : forall h h' a raw args frags0 frags p s sl rs, a < List.length (h_objs h) -> stands_for_obj h a (Frag raw args frags0 p s) ->
  contents (h_refs h) sl rs -> stand_for h rs frags -> (forall r, In r rs -> ~ reaches h r a) ->
  exec (CFrags (Some a) sl) h = ROk h' -> stands_for_obj h' a (Frag raw args frags p s).
Proof. exact frags_seen. Qed.
Print Assumptions c68_frags.
(** Whoever holds the fragment holds its current tree. *)
Theorem c68_holder : forall h a i b f raw args frags p s, elem (h_refs h) (o_frags (nth b (h_objs h) zero_obj)) i (PFrag (Some a)) ->
  stands_for_obj h a f -> stands_for_obj h b (Frag raw args frags p s) -> nth_error frags i = Some (BFrag f).
Proof. exact holder_sees. Qed.
Print Assumptions c68_holder.
(** The methods of a nil fragment panic. *)
Theorem c68_nil : forall c h, nil_method c -> exec c h = RPanic nil_deref.
Proof. exact nil_panics. Qed.
Print Assumptions c68_nil.
(** x.WithPrefix("NOT") after x was used twice. *)
Example c68_example : exists h', exec (CPrefix (Some 0) "NOT") twice_heap = ROk h' /\
  fst (build_query 9 style_dollar [] (unfold_ref 9 h' (PFrag (Some 1)))) = ROk ("NOT x = $1 OR NOT x = $1", [VInt "int" 1]) /\
  ~ reaches twice_heap (PFrag (Some 0)) 1.
Proof.
  eexists. apply conj; [reflexivity|]. apply conj; [vm_compute; reflexivity|].
  intros H. inversion H as [r a Hp E1 E2|r b r' a Hp Hc Hr E1 E2]; subst; [inversion Hp|]. inversion Hp. subst.
  destruct Hc as [i [Hi _]]. cbn in Hi. lia.
Qed.

(** Example_update of example_test.go:86-116. *)
Definition update_cmds : list cmd :=
  let users name := POther (anonymous_column "users" name) in
  [CNew (mkObj "UPDATE #f1" nil_slice nil_slice "" ""); CNew (mkObj "SET #join('#fragment=#arg', ', ')" nil_slice nil_slice "" "");
   CNew (mkObj "#join('#fragment', ' AND ')" nil_slice nil_slice "" ""); CPrefix (Some 2) "WHERE";
   CRefs [PFrag (Some 0); PFrag (Some 1); PFrag (Some 2)] 0; CNew (mkObj "#join('#fragment', ' ')" nil_slice (mkSlice 0 0 3 3) "" "");
   CRefs [POther (BTable "users")] 0; CFrags (Some 0) (mkSlice 1 0 1 1);
   CRefs [users "name"; users "email"] 0; CFrags (Some 1) (mkSlice 2 0 2 2);
   CVals [VStr "string" "alice"; VStr "string" "alice@example.org"] 0; CArgs (Some 1) (mkSlice 0 0 2 2);
   CNew (mkObj "#f1=$1" nil_slice nil_slice "" ""); CRefs [users "id"] 0; CFrags (Some 4) (mkSlice 3 0 1 1);
   CVals [VInt "int" 1] 0; CArgs (Some 4) (mkSlice 1 0 1 1); CAppFrags (Some 2) [PFrag (Some 4)] 0].
Example c68_update : exists h, exec_all update_cmds empty_heap = ROk h /\
  fst (build_query 20 style_dollar [] (unfold_ref 20 h (PFrag (Some 3)))) =
    ROk ("UPDATE users SET name=$1, email=$2 WHERE id=$3", [VStr "string" "alice"; VStr "string" "alice@example.org"; VInt "int" 1]).
Proof. eexists. apply conj; [vm_compute; reflexivity|vm_compute; reflexivity]. Qed.

(* ------------------------------------------------------------------ *)
(** * C69: conditions of joins *)

(** A join marks the condition it is given with ON. *)
Theorem c69_marks : forall kind t a opt h h', fst t <> "" -> a < List.length (h_objs h) ->
  run_steps [SCall (QJoin kind t (Some a) opt)] h = ROk h' -> o_prefix (nth a (h_objs h') zero_obj) = "ON".
Proof. exact join_marks. Qed.
Print Assumptions c69_marks.
(** If the conditions are used for nothing else, the builder is the one the
    calls describe with the trees of the beginning (which all the other
    properties are about). *)
Theorem c69_adequate : forall d os h q, on_apart h os ->
  (final_qb d (map SCall os) h = ROk q <-> apply_ops (map (at_build d h) os) new_qb = ROk q).
Proof. exact program_sound. Qed.
Print Assumptions c69_adequate.
(** Said with the trees the pointers stand for: *)
Theorem c69_trees : forall os ops h, Forall2 (names h) os ops -> on_apart h os ->
  exists d0, forall d q, d0 <= d -> (final_qb d (map SCall os) h = ROk q <-> apply_ops ops new_qb = ROk q).
Proof. exact program_trees. Qed.
Print Assumptions c69_trees.
(** For any program, with changes of fragments between and after the calls, it
    is the trees at the end that count, as long as the conditions of the joins
    still have their mark. *)
Theorem c69_final : forall l h h' ops, run_steps l h = ROk h' -> Forall2 (names h') (calls_of l) ops -> Forall on_marked ops ->
  exists d0, forall d, d0 <= d -> final_qb d l h = apply_ops ops new_qb.
Proof. exact program_final. Qed.
Print Assumptions c69_final.
(** on := F("a.id = b.id") for a join, and a second fragment for WHERE. *)
Definition cond_heap : fheap := mkFHeap [mkObj "a.id = b.id" nil_slice nil_slice "" ""; mkObj "a.x > 0" nil_slice nil_slice "" ""] [] [].
Definition with_where (w : nat) : list pop :=
  [QSelect [POther (BFrag (F "a.id"))]; QFrom ("a", ""); QJoin "INNER JOIN" ("b", "") (Some 0) false; QWhere (Some w)].
Definition text_of (o : outcome qb) : outcome (string * list value) :=
  match o with ROk q => fst (build_query 9 style_dollar [q] (BQuery (Some 0))) | RErr e => RErr e | RPanic e => RPanic e | RFuel => RFuel end.
Example c69_example : on_apart cond_heap (with_where 1) /\
  text_of (final_qb 9 (map SCall (with_where 1)) cond_heap) = ROk ("SELECT a.id FROM a INNER JOIN b ON a.id = b.id WHERE a.x > 0", []).
Proof.
  assert (NC : forall b r, ~ child cond_heap b r).
  { intros b r [i [Hi _]]. destruct b as [|[|[|b]]]; cbn in Hi; lia. }
  apply conj; [|vm_compute; reflexivity].
  intros a [<-|[]]. apply conj; [cbn; lia|]. apply conj; [|intros b r _ Hc; destruct (NC b r Hc)].
  intros r [<-|[<-|[]]] H; inversion H as [r' a' Hp|r' b r2 a' Hp Hc]; subst; try (inversion Hp; fail); destruct (NC _ _ Hc).
Qed.
(** w := F("a.x > 0") is changed after it was given to Where. *)
Example c69_final_example : exists h', let l := (map SCall (with_where 1) ++ [SCmd (CSuffix (Some 1) "OR TRUE")])%list in
  let on := Frag "a.id = b.id" [] [] "ON" "" in let w := Frag "a.x > 0" [] [] "" "OR TRUE" in
  let ops := [OSelect [BFrag (F "a.id")]; OFrom ("a", ""); OJoin "INNER JOIN" ("b", "") (Some on) false; OWhere (Some w)] in
  run_steps l cond_heap = ROk h' /\ Forall2 (names h') (calls_of l) ops /\ Forall on_marked ops /\
  text_of (apply_ops ops new_qb) = ROk ("SELECT a.id FROM a INNER JOIN b ON a.id = b.id WHERE a.x > 0 OR TRUE", []).
Proof.
  eexists. cbv zeta. apply conj; [reflexivity|]. apply conj; [|apply conj; [|vm_compute; reflexivity]].
  2: { do 2 (apply Forall_cons; [exact Logic.I|]). apply Forall_cons; [right; reflexivity|]. apply Forall_cons; [exact Logic.I|constructor]. }
  assert (K : forall h s, s_len s = 0 -> contents h s (@nil value)). { intros h s Hs. split; [symmetry; exact Hs|]. intros [|i] x Hx; discriminate Hx. }
  assert (K' : forall h s, s_len s = 0 -> contents h s (@nil ref)). { intros h s Hs. split; [symmetry; exact Hs|]. intros [|i] x Hx; discriminate Hx. }
  cbn [calls_of flat_map map app with_where]. constructor; [repeat constructor|]. constructor; [constructor|]. constructor.
  - apply nm_join. eapply sf_obj with (o := mkObj _ nil_slice nil_slice _ _) (rs := []); [reflexivity|apply K; reflexivity|apply K'; reflexivity|constructor].
  - constructor; [|constructor]. apply nm_where. eapply sf_obj with (o := mkObj _ nil_slice nil_slice _ _) (rs := []); [reflexivity|apply K; reflexivity|apply K'; reflexivity|constructor].
Qed.
(** Otherwise the mark shows up where the condition is used again, *)
Theorem c69_reuse_refuted :
  exists os h q, final_qb 9 (map SCall os) h = ROk q /\ apply_ops (map (at_build 9 h) os) new_qb <> ROk q /\
    text_of (final_qb 9 (map SCall os) h) = ROk ("SELECT a.id FROM a INNER JOIN b ON a.id = b.id WHERE ON a.id = b.id", []) /\
    text_of (apply_ops (map (at_build 9 h) os) new_qb) = ROk ("SELECT a.id FROM a INNER JOIN b ON a.id = b.id WHERE a.id = b.id", []).
Proof.
  exists (with_where 0), cond_heap. eexists. apply conj; [vm_compute; reflexivity|]. apply conj; [vm_compute; discriminate|].
  apply conj; vm_compute; reflexivity.
Qed.
Print Assumptions c69_reuse_refuted.
(** and a prefix the program gives the condition afterwards replaces ON. *)
Theorem c69_overwrite_refuted :
  text_of (final_qb 9 (map SCall (with_where 1) ++ [SCmd (CPrefix (Some 0) "X")]) cond_heap)
  = ROk ("SELECT a.id FROM a INNER JOIN b X a.id = b.id WHERE a.x > 0", []).
Proof. vm_compute. reflexivity. Qed.
Print Assumptions c69_overwrite_refuted.

(* ------------------------------------------------------------------ *)
(** * C70: appending *)

(** All commands keep the slices within their arrays. *)
Theorem c70_sound : forall c h h', sound_heap h -> given_in_array h c -> exec c h = ROk h' -> sound_heap h'.
Proof. exact exec_sound. Qed.
Print Assumptions c70_sound.
(** The fragment has the new arguments after the old ones, *)
Theorem c70_args : forall h h' a vs x l, sound_heap h -> a < List.length (h_objs h) -> exec (CAppArgs (Some a) vs x) h = ROk h' ->
  contents (h_vals h) (o_args (nth a (h_objs h) zero_obj)) l ->
  contents (h_vals h') (o_args (nth a (h_objs h') zero_obj)) (l ++ vs)%list.
Proof. exact app_args_own. Qed.
Print Assumptions c70_args.
Theorem c70_frags : forall h h' a rs x l, sound_heap h -> a < List.length (h_objs h) -> exec (CAppFrags (Some a) rs x) h = ROk h' ->
  contents (h_refs h) (o_frags (nth a (h_objs h) zero_obj)) l ->
  contents (h_refs h') (o_frags (nth a (h_objs h') zero_obj)) (l ++ rs)%list.
Proof. exact app_frags_own. Qed.
Print Assumptions c70_frags.
(** slices that have no element in the cells behind the end keep their
    contents, *)
Theorem c70_args_others : forall h h' a vs x t m, sound_heap h -> exec (CAppArgs (Some a) vs x) h = ROk h' ->
  in_array (h_vals h) t -> untouched t (o_args (nth a (h_objs h) zero_obj)) (List.length vs) ->
  contents (h_vals h) t m -> contents (h_vals h') t m.
Proof. exact app_args_others. Qed.
Print Assumptions c70_args_others.
Theorem c70_frags_others : forall h h' a rs x t m, sound_heap h -> exec (CAppFrags (Some a) rs x) h = ROk h' ->
  in_array (h_refs h) t -> untouched t (o_frags (nth a (h_objs h) zero_obj)) (List.length rs) ->
  contents (h_refs h) t m -> contents (h_refs h') t m.
Proof. exact app_frags_others. Qed.
Print Assumptions c70_frags_others.
(** and if this holds of all fragments, the methods do to the trees what they
    say. *)
Theorem c70_args_tree : forall h h' a vs x raw args frags p s, sound_heap h -> a < List.length (h_objs h) -> exec (CAppArgs (Some a) vs x) h = ROk h' ->
  (forall b, b <> a -> untouched (o_args (nth b (h_objs h) zero_obj)) (o_args (nth a (h_objs h) zero_obj)) (List.length vs)) ->
  stands_for_obj h a (Frag raw args frags p s) ->
  stands_for_obj h' a (Frag raw (args ++ vs)%list frags p s) /\
  forall r b, ~ reaches h r a -> stands_for h r b -> stands_for h' r b.
Proof. exact app_args_tree. Qed.
Print Assumptions c70_args_tree.
Theorem c70_frags_tree : forall h h' a rs bs x raw args frags p s, sound_heap h -> a < List.length (h_objs h) -> exec (CAppFrags (Some a) rs x) h = ROk h' ->
  (forall b, b <> a -> untouched (o_frags (nth b (h_objs h) zero_obj)) (o_frags (nth a (h_objs h) zero_obj)) (List.length rs)) ->
  stands_for_obj h a (Frag raw args frags p s) -> stand_for h rs bs -> (forall r, In r rs -> ~ reaches h r a) ->
  stands_for_obj h' a (Frag raw args (frags ++ bs)%list p s) /\
  forall r b, ~ reaches h r a -> stands_for h r b -> stands_for h' r b.
Proof. exact app_frags_tree. Qed.
Print Assumptions c70_frags_tree.
(** A fragment made from a slice of the caller shares it. *)
Theorem c70_shared_write : forall h h' arr i v s j, exec (CSetVal arr i v) h = ROk h' -> s_arr s = arr -> s_off s + j = i ->
  arr < List.length (h_vals h) -> i < List.length (nth arr (h_vals h) []) -> j < s_len s -> elem (h_vals h') s j v.
Proof. exact write_seen. Qed.
Print Assumptions c70_shared_write.

(** s := append(make([]any, 0, cap), 1); f := Fa("$1, $2", s...); g := Fa("$1, $2", s...);
    f.AppendArgs(2); g.AppendArgs(3) *)
Definition pair_cmds (spare : nat) : list cmd :=
  [CVals [VInt "int" 1] spare;
   CNew (mkObj "$1, $2" (mkSlice 0 0 1 (1 + spare)) nil_slice "" "");
   CNew (mkObj "$1, $2" (mkSlice 0 0 1 (1 + spare)) nil_slice "" "");
   CAppArgs (Some 0) [VInt "int" 2] 3].
Definition pair_heap (spare : nat) : fheap := match exec_all (pair_cmds spare) empty_heap with ROk h => h | _ => empty_heap end.
(** Without spare capacity they do not get in each other's way, *)
Example c70_example : sound_heap (pair_heap 0) /\
  untouched (o_args (nth 0 (h_objs (pair_heap 0)) zero_obj)) (o_args (nth 1 (h_objs (pair_heap 0)) zero_obj)) 1 /\
  stands_for_obj (pair_heap 0) 0 (Frag "$1, $2" [VInt "int" 1; VInt "int" 2] [] "" "") /\
  exists h', exec (CAppArgs (Some 1) [VInt "int" 3] 0) (pair_heap 0) = ROk h' /\
    args_of h' 0 = [VInt "int" 1; VInt "int" 2] /\ args_of h' 1 = [VInt "int" 1; VInt "int" 3].
Proof.
  apply conj; [repeat constructor; cbn; lia|]. apply conj; [left; cbn; lia|]. apply conj.
  - apply (sf_obj (pair_heap 0) 0 (nth 0 (h_objs (pair_heap 0)) zero_obj) [VInt "int" 1; VInt "int" 2] [] []); [reflexivity| | |constructor].
    + split; [reflexivity|]. intros [|[|[|i]]] x Hx; cbn in Hx; try discriminate Hx; injection Hx as <-; (split; [cbn; lia|reflexivity]).
    + split; [reflexivity|]. intros [|i] x Hx; discriminate Hx.
  - eexists. apply conj; [reflexivity|]. apply conj; reflexivity.
Qed.
(** with it the second one overwrites the argument of the first. *)
Theorem c70_independent_refuted : exists h h', sound_heap h /\
  exec (CAppArgs (Some 1) [VInt "int" 3] 0) h = ROk h' /\
  stands_for_obj h 0 (Frag "$1, $2" [VInt "int" 1; VInt "int" 2] [] "" "") /\
  stands_for_obj h' 0 (Frag "$1, $2" [VInt "int" 1; VInt "int" 3] [] "" "") /\
  ~ reaches h (PFrag (Some 0)) 1.
Proof.
  exists (pair_heap 1). eexists. apply conj; [repeat constructor; cbn; lia|]. apply conj; [reflexivity|]. apply conj; [|apply conj].
  - apply (sf_obj (pair_heap 1) 0 (nth 0 (h_objs (pair_heap 1)) zero_obj) [VInt "int" 1; VInt "int" 2] [] []); [reflexivity| | |constructor].
    + split; [reflexivity|]. intros [|[|[|i]]] x Hx; cbn in Hx; try discriminate Hx; injection Hx as <-; (split; [cbn; lia|reflexivity]).
    + split; [reflexivity|]. intros [|i] x Hx; discriminate Hx.
  - match goal with |- stands_for_obj ?h _ _ =>
      apply (sf_obj h 0 (nth 0 (h_objs h) zero_obj) [VInt "int" 1; VInt "int" 3] [] []); [reflexivity| | |constructor] end.
    + split; [reflexivity|]. intros [|[|[|i]]] x Hx; cbn in Hx; try discriminate Hx; injection Hx as <-; (split; [cbn; lia|reflexivity]).
    + split; [reflexivity|]. intros [|i] x Hx; discriminate Hx.
  - intros H. inversion H as [r a Hp E1 E2|r b r' a Hp Hc Hr E1 E2]; subst; [inversion Hp|]. inversion Hp. subst.
    destruct Hc as [i [Hi _]]. cbn in Hi. lia.
Qed.
Print Assumptions c70_independent_refuted.
