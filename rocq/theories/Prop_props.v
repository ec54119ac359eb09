(** Property C71 (shared properties). *)
From Coq Require Import Strings.String Strings.Ascii NArith ZArith List Bool Floats.SpecFloat.
From Verif Require Import GoStr GoNum Syntax Value Util Model Sqlf Sqlb Props Spec_syntax RefSem Spec_build Spec_eval Props_proofs.
Import ListNotations.
Open Scope string_scope.

(** A function backed by properties is accepted under every good name. *)
Theorem c71_registers : forall nm props, check_funcs [(nm, props_fn props)] = None <-> good_name nm = true.
Proof. exact props_registers. Qed.
Print Assumptions c71_registers.

(** #nm(i) stands for the i-th property ... *)
Theorem c71_arg : forall n e raw nm a vs i v p s st r st', lookup_fn e nm = Some (props_fn (args_build vs)) -> is_num a ->
  parsed raw = Some [ACall nm [a]] -> lit_int a = Z.of_nat (S i) -> nth_error vs i = Some v -> commit v st = (ROk r, st') ->
  build (S (S n)) e (BFrag (Frag raw [] [] p s)) st = (ROk (wrapped p (trim_space r) s), st').
Proof. exact one_props_arg. Qed.
Print Assumptions c71_arg.
Theorem c71_fragment : forall n e raw nm a bs i b p s st r st', lookup_fn e nm = Some (props_fn (frags_build bs)) -> is_num a ->
  parsed raw = Some [ACall nm [a]] -> lit_int a = Z.of_nat (S i) -> nth_error bs i = Some b -> build (S n) e b st = (ROk r, st') ->
  build (S (S n)) e (BFrag (Frag raw [] [] p s)) st = (ROk (wrapped p (trim_space r) s), st').
Proof. exact one_props_frag. Qed.
Print Assumptions c71_fragment.
(** ... and is an invalid index elsewhere. *)
Theorem c71_outside : forall n e raw nm a (len : nat) props p s st, lookup_fn e nm = Some (props_fn props) -> is_num a ->
  (exists vs, props = args_build vs /\ List.length vs = len) \/ (exists bs, props = frags_build bs /\ List.length bs = len) ->
  parsed raw = Some [ACall nm [a]] -> (lit_int a < 1 \/ Z.of_nat len < lit_int a)%Z ->
  exists er, build (S (S n)) e (BFrag (Frag raw [] [] p s)) st = (RErr er, st) /\ is_invalid_index er = true.
Proof. exact no_props. Qed.
Print Assumptions c71_outside.

(** #join('#nm', sep) joins all of them, in order, ... *)
Theorem c71_join_args : forall n e raw jn nm sep p s st st' ss,
  lookup_fn e jn = Some FnJoin -> wf_name nm = true -> parsed raw = Some [ACall jn [LStr ("#" ++ nm); LStr sep]] ->
  forall vs, lookup_fn e nm = Some (props_fn (args_build vs)) ->
  do_all commit vs st = (ROk ss, st') -> List.length vs <= n ->
  build (S (S (S n))) e (BFrag (Frag raw [] [] p s)) st = (ROk (wrapped p (trim_space (str_join sep (nonempty_items ss))) s), st').
Proof. exact joined_props_args. Qed.
Print Assumptions c71_join_args.
Theorem c71_join_fragments : forall n e raw jn nm sep p s st st' ss,
  lookup_fn e jn = Some FnJoin -> wf_name nm = true -> parsed raw = Some [ACall jn [LStr ("#" ++ nm); LStr sep]] ->
  forall bs, lookup_fn e nm = Some (props_fn (frags_build bs)) ->
  do_all (build (S (S n)) e) bs st = (ROk ss, st') -> List.length bs <= n ->
  build (S (S (S n))) e (BFrag (Frag raw [] [] p s)) st = (ROk (wrapped p (trim_space (str_join sep (nonempty_items ss))) s), st').
Proof. exact joined_props_frags. Qed.
Print Assumptions c71_join_fragments.
(** ... or a range of them. *)
Theorem c71_range_args : forall n e raw jn nm sep p s st st' ss nums from to,
  lookup_fn e jn = Some FnJoin -> wf_name nm = true -> parsed raw = Some [ACall jn (LStr ("#" ++ nm) :: LStr sep :: nums)] ->
  Forall is_num nums -> (1 <= from <= to)%Z -> forall vs, lookup_fn e nm = Some (props_fn (args_build vs)) ->
  range (map lit_int nums) (Z.of_nat (List.length vs)) from to -> (to <= Z.of_nat (List.length vs))%Z ->
  do_all commit (slice from to vs) st = (ROk ss, st') -> List.length vs <= n ->
  build (S (S (S n))) e (BFrag (Frag raw [] [] p s)) st = (ROk (wrapped p (trim_space (str_join sep (nonempty_items ss))) s), st').
Proof. exact range_props_args. Qed.
Print Assumptions c71_range_args.
Theorem c71_range_fragments : forall n e raw jn nm sep p s st st' ss nums from to,
  lookup_fn e jn = Some FnJoin -> wf_name nm = true -> parsed raw = Some [ACall jn (LStr ("#" ++ nm) :: LStr sep :: nums)] ->
  Forall is_num nums -> (1 <= from <= to)%Z -> forall bs, lookup_fn e nm = Some (props_fn (frags_build bs)) ->
  range (map lit_int nums) (Z.of_nat (List.length bs)) from to -> (to <= Z.of_nat (List.length bs))%Z ->
  do_all (build (S (S n)) e) (slice from to bs) st = (ROk ss, st') -> List.length bs <= n ->
  build (S (S (S n))) e (BFrag (Frag raw [] [] p s)) st = (ROk (wrapped p (trim_space (str_join sep (nonempty_items ss))) s), st').
Proof. exact range_props_frags. Qed.
Print Assumptions c71_range_fragments.

(** In the dollar style the same arguments keep their placeholders: after
    anything else was built, the text is the same and no argument is added. *)
Theorem c71_shared : forall n e raw jn nm sep p s st vs,
  lookup_fn e jn = Some FnJoin -> wf_name nm = true -> parsed raw = Some [ACall jn [LStr ("#" ++ nm); LStr sep]] ->
  lookup_fn e nm = Some (props_fn (args_build vs)) -> st_dollar st = true -> forallb (fun v => hashable v && go_eq v v) vs = true ->
  List.length vs <= n ->
  exists t, let r := build (S (S (S n))) e (BFrag (Frag raw [] [] p s)) st in
    fst r = ROk t /\
    forall k e' b m, List.length vs <= m -> let st2 := snd (build k e' b (snd r)) in
      build (S (S (S m))) e (BFrag (Frag raw [] [] p s)) st2 = (ROk t, st2).
Proof. exact shared_props. Qed.
Print Assumptions c71_shared.
(** In the question style they are added again; so is a NaN in the dollar style. *)
Theorem c71_shared_refuted :
  (let e := [[("_id", props_fn (args_build [VInt "int" 7]))]; builtins] in
   let f := BFrag (Frag "#join('#_id', ', ')" [] [] "" "") in
   let r := build 9 e f (new_store style_question []) in
   fst r = ROk "?" /\ st_args (snd (build 9 e f (snd r))) = [VInt "int" 7; VInt "int" 7]) /\
  (let e := [[("_id", props_fn (args_build [VFloat "float64" S754_nan]))]; builtins] in
   let f := BFrag (Frag "#join('#_id', ', ')" [] [] "" "") in
   let r := build 9 e f (new_store style_dollar []) in
   fst r = ROk "$1" /\ fst (build 9 e f (snd r)) = ROk "$2").
Proof. repeat apply conj; vm_compute; reflexivity. Qed.
Print Assumptions c71_shared_refuted.

(** example_test.go:118-150. *)
Definition ids : list value := [VInt "int" 1; VInt "int" 2; VInt "int" 3].
Definition ids_env : env := [[("_id", props_fn (args_build ids))]; builtins].
Definition cols : list builder := [BFrag (F "a"); BFrag (Fa "coalesce(b, ?)" [VInt "int" 9]); BFrag (F "c")].
Definition cols_env : env := [[("col", props_fn (frags_build cols))]; builtins].
Example c71_example :
  lookup_fn ids_env "_id" = Some (props_fn (args_build ids)) /\ lookup_fn ids_env "join" = Some FnJoin /\ wf_name "_id" = true /\
  parsed "#join('#_id', ', ')" = Some [ACall "join" [LStr "#_id"; LStr ", "]] /\
  option_map (map (fun x => match x with ACall _ l => map lit_int (skipn 2 l) | _ => [] end)) (parsed "#join('#col', ', ', 2)") = Some [[2%Z]] /\
  option_map (map (fun x => match x with ACall nm l => (nm, map lit_int l) | _ => ("", []) end)) (parsed "#_id(4)") = Some [("_id", [4%Z])] /\
  forallb (fun v => hashable v && go_eq v v) ids = true /\
  do_all commit ids (new_store style_dollar []) = (ROk ["$1"; "$2"; "$3"], snd (do_all commit ids (new_store style_dollar []))) /\
  (let r := build 19 ids_env (BFrag (Ff "#join('#fragment', ' UNION ')"
      [BFrag (F "SELECT id, 'foo' typ, count FROM foo WHERE id IN (#join('#_id', ', '))");
       BFrag (F "SELECT id, 'bar' typ, count FROM bar WHERE id IN (#join('#_id', ', '))")])) (new_store style_dollar []) in
   fst r = ROk "SELECT id, 'foo' typ, count FROM foo WHERE id IN ($1, $2, $3) UNION SELECT id, 'bar' typ, count FROM bar WHERE id IN ($1, $2, $3)" /\
   st_args (snd r) = ids) /\
  (let r := build 19 cols_env (BFrag (F "#join('#col', ', ', 2) FROM t ORDER BY #col(1)")) (new_store style_question []) in
   fst r = ROk "coalesce(b, ?), c FROM t ORDER BY a" /\ st_args (snd r) = [VInt "int" 9]).
Proof. apply conj; [reflexivity|]. repeat apply conj; vm_compute; reflexivity. Qed.
