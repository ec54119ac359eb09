(** Properties C02, C04, C05, C20-C23, C25-C29, C31-C34 (evaluation of
    templates).  The vocabulary is in Spec_syntax.v and Spec_eval.v; the proofs
    are in the *_proofs.v files. *)
From Coq Require Import Strings.String Strings.Ascii NArith ZArith List Bool Floats.SpecFloat.
From Verif Require Import GoStr GoNum Syntax Value Util Model Sqlf Sqlb Spec_syntax RefSem Spec_build Spec_eval
  Eval_proofs Use_proofs Join_proofs Join2_proofs.
Import ListNotations.
Open Scope string_scope.

Definition Int (z : Z) : value := VInt "int" z.
Definition Str (s : string) : value := VStr "string" s.
Definition nl : string := String (ascii_of_nat 10) "".

(** C02: text without special characters. *)
Theorem c02_plain_text : forall n style h s, plain_text s = true ->
  build_query (S (S n)) style h (BFrag (F s)) = (ROk (trim_space s, []), h).
Proof. exact plain_query. Qed.
Print Assumptions c02_plain_text.
Example c02_example : plain_text (" SELECT a+b/* c */ FROM t" ++ nl) = true /\
  trim_space (" SELECT a+b/* c */ FROM t" ++ nl) = "SELECT a+b/* c */ FROM t".
Proof. apply conj; vm_compute; reflexivity. Qed.

(** C04: templates of plain text, quoted text and doubled markers build to
    themselves. *)
Theorem c04_quoted_verbatim : forall n style h l, forallb is_inert l = true -> forallb wf1 l = true ->
  build_query (S (S n)) style h (BFrag (F (print l))) = (ROk (trim_space (print l), []), h).
Proof. exact inert_query. Qed.
Print Assumptions c04_quoted_verbatim.
(** Inserted anywhere in a template, such a part is copied into the result and
    has no other effect. *)
Theorem c04_quoted_inert : forall n e l1 l2 args frags st, style_ok false (l1 ++ l2) = true ->
  exists (r : (string * string) + outcome string) st',
  forall p, is_inert p = true -> wf (l1 ++ p :: l2) = true ->
    build n e (BFrag (Frag (print (l1 ++ p :: l2)) args frags "" "")) st =
    (match r with
     | inl (a, z) => ROk (trim_space (a ++ print1 p ++ z))
     | inr (RErr er) => RErr (EWrap ("build '" ++ print (l1 ++ p :: l2) ++ "'") er)
     | inr o => o
     end, st').
Proof. exact inert_insert. Qed.
Print Assumptions c04_quoted_inert.
Example c04_example :
  let l := [Text "SELECT "; Quoted "'" "a=? #join('#f', ''x'') $1"; Text ", "; Quoted """" "c?"; Esc true; Quoted "`" "#d"] in
  forallb is_inert l = true /\ (forallb wf1 [Text "a"; Quoted """" "c?'"; Esc true; Quoted "`" "#d"] = true) /\
  wf1 (Quoted "'" "it''s ? $1 #f(") = true /\
  wf ([Text "x = "; Quest; Text " and y = "] ++ Quoted "'" "it''s ? $1 #f(" :: [Text " and z="; Quest]) = true /\
  fst (build_query 9 style_dollar [] (BFrag (Fa (print ([Text "x = "; Quest; Text " and y = "] ++ Quoted "'" "it''s ? $1 #f(" :: [Text " and z="; Quest])) [Int 1; Int 2])))
  = ROk ("x = $1 and y = 'it''s ? $1 #f(' and z=$2", [Int 1; Int 2]).
Proof. repeat apply conj; vm_compute; reflexivity. Qed.

(** C05: doubled markers. *)
Theorem c05_doubled : forall n style h l, forallb is_text_or_esc l = true -> forallb wf1 l = true ->
  build_query (S (S n)) style h (BFrag (F (print l))) = (ROk (trim_space (print l), []), h).
Proof. exact doubled_query. Qed.
Print Assumptions c05_doubled.
Example c05_example : let l := [Text "a ->> "; Esc false; Esc false; Text "x"; Esc true; Text "1"] in
  forallb is_text_or_esc l = true /\ forallb wf1 l = true /\ print l = "a ->> ????x$$1".
Proof. repeat apply conj; vm_compute; reflexivity. Qed.

(** C20 is false: these builds panic. *)
Theorem c20_no_panic_refuted :
  (exists er, fst (build_query 9 style_dollar [] (BFrag (Fa "a = ?" [VSlice "[]int" (Some [Int 1])]))) = RPanic er) /\
  (exists er, fst (build_query 9 style_question [] (BFrag (F "#join(1, 2)"))) = RPanic er) /\
  (exists er, fst (build_query 9 style_question [] BNilCol) = RPanic er).
Proof. repeat apply conj; eexists; vm_compute; reflexivity. Qed.
Print Assumptions c20_no_panic_refuted.
(** A fragment panics only for those reasons: a bind variable naming an
    unhashable argument in Dollar style, or a number literal passed to a
    parameter that is not a number.  (Nothing its children do can make it panic.) *)
Theorem c20_fragment_panics : forall n e raw args frags p s st er st',
  build n e (BFrag (Frag raw args frags p s)) st = (RPanic er, st') ->
  exists l x, parsed raw = Some l /\ In x l /\ panics e (st_dollar st) args x.
Proof. exact frag_panics. Qed.
Print Assumptions c20_fragment_panics.
Example c20_example : exists l, parsed "a = ? AND #join(1, 2)" = Some l /\
  In (ABind style_question 1) l /\ panics [builtins] true [VSlice "[]int" None] (ABind style_question 1).
Proof. eexists. split; [vm_compute; reflexivity|]. split; [cbn; auto|]. split; [reflexivity|]. eexists. split; vm_compute; reflexivity. Qed.

(** C21: prefix and suffix. *)
Theorem c21_prefix_suffix : forall n e raw args frags p s st,
  build n e (BFrag (Frag raw args frags p s)) st =
  match build n e (BFrag (Frag raw args frags "" "")) st with
  | (ROk b, st') => (ROk (wrapped p b s), st')
  | o => o
  end.
Proof. exact prefix_suffix. Qed.
Print Assumptions c21_prefix_suffix.
Theorem c21_body_trimmed : forall n e raw args frags st b st',
  build n e (BFrag (Frag raw args frags "" "")) st = (ROk b, st') -> trim_space b = b.
Proof. exact body_trimmed. Qed.
Print Assumptions c21_body_trimmed.
Theorem c21_nil : forall n e st, build (S n) e BNilFrag st = (ROk "", st).
Proof. reflexivity. Qed.
Print Assumptions c21_nil.
Example c21_example :
  fst (build 9 [builtins] (BFrag (Frag " #join('#f', ' AND ') " [] [BFrag (F "a"); BFrag (F " "); BNilFrag; BFrag (F "b")] "WHERE" ";")) (new_store style_question []))
    = ROk "WHERE a AND b ;" /\
  fst (build 9 [builtins] (BFrag (Frag " #join('#f', ' AND ') " [] [BFrag (F " "); BNilFrag] "WHERE" ";")) (new_store style_question [])) = ROk "".
Proof. apply conj; vm_compute; reflexivity. Qed.

(** C22: every argument of a successfully built fragment was committed; it is
    then among the arguments of the query. *)
Theorem c22_args_used : forall n e raw args frags p s st t st',
  build n e (BFrag (Frag raw args frags p s)) st = (ROk t, st') ->
  forall v, In v args -> committed v st st'.
Proof. exact args_used. Qed.
Print Assumptions c22_args_used.
Theorem c22_committed_question : forall v st st', committed v st st' -> st_dollar st = false ->
  exists a b, st_args st' = (st_args st ++ a ++ v :: b)%list.
Proof. exact committed_question. Qed.
Print Assumptions c22_committed_question.
Theorem c22_committed_dollar : forall v st st', committed v st st' -> sound_store st' ->
  exists w, In w (st_args st') /\ same_value v w.
Proof. exact committed_args. Qed.
Print Assumptions c22_committed_dollar.
Theorem c22_unreached_fails : forall n e raw args frags p s st l i,
  parsed raw = Some l -> i < List.length args -> (forall x, In x l -> ~ reaches_arg e (Z.of_nat i + 1) x) ->
  forall t st', build n e (BFrag (Frag raw args frags p s)) st <> (ROk t, st').
Proof. exact unreached_arg_fails. Qed.
Print Assumptions c22_unreached_fails.
Example c22_example :
  (exists t st', build 9 [builtins] (BFrag (Fa "a=$2 AND b=$1 OR c=$2" [Int 1; Int 2])) (new_store style_dollar []) = (ROk t, st')) /\
  (exists l, parsed "a=$2 AND #f1" = Some l /\ forall x, In x l -> ~ reaches_arg [builtins] (Z.of_nat 0 + 1) x).
Proof.
  apply conj; [eexists _, _; vm_compute; reflexivity|]. eexists. split; [vm_compute; reflexivity|].
  intros x [<-|[<-|[<-|[<-|[]]]]]; vm_compute; intros H; try exact H; try discriminate H. destruct H as [H|[H _]]; discriminate.
Qed.

(** C23: every child of a successfully built fragment was built. *)
Theorem c23_frags_built : forall n e raw args frags p s st t st',
  build (S n) e (BFrag (Frag raw args frags p s)) st = (ROk t, st') ->
  forall b, In b frags -> built n e b st st'.
Proof. exact frags_used. Qed.
Print Assumptions c23_frags_built.
Theorem c23_unreached_fails : forall n e raw args frags p s st l i,
  parsed raw = Some l -> i < List.length frags -> (forall x, In x l -> ~ reaches_frag e (Z.of_nat i + 1) x) ->
  forall t st', build n e (BFrag (Frag raw args frags p s)) st <> (ROk t, st').
Proof. exact unreached_frag_fails. Qed.
Print Assumptions c23_unreached_fails.
Example c23_example :
  (exists t st', build 9 [builtins] (BFrag (Ff "#f2, #join('#f', ',', 1, 1)" [BFrag (F "a"); BFrag (Fa "?" [Int 1])])) (new_store style_question []) = (ROk t, st')) /\
  (exists l, parsed "#f2 ?" = Some l /\ forall x, In x l -> ~ reaches_frag [builtins] (Z.of_nat 0 + 1) x).
Proof.
  apply conj; [eexists _, _; vm_compute; reflexivity|]. eexists. split; [vm_compute; reflexivity|].
  intros x [<-|[<-|[<-|[]]]]; vm_compute; intros H; try exact H. destruct H as [H|[_ H]]; discriminate.
Qed.

(** C25: #join over all children: their builds in order, the empty ones left out. *)
Theorem c25_join_fragments : forall n e raw jn nm sep bs p s st ss st',
  lookup_fn e jn = Some FnJoin -> lookup_fn e nm = Some FnFragment ->
  parsed raw = Some [ACall jn [LStr ("#" ++ nm); LStr sep]] -> wf_name nm = true ->
  do_all (build (S (S n)) e) bs st = (ROk ss, st') -> List.length bs <= n ->
  build (S (S (S n))) e (BFrag (Frag raw [] bs p s)) st = (ROk (wrapped p (trim_space (str_join sep (nonempty_items ss))) s), st').
Proof. exact joined_frags. Qed.
Print Assumptions c25_join_fragments.
Theorem c25_join_args : forall n e raw jn nm sep vs p s st ss st',
  lookup_fn e jn = Some FnJoin -> lookup_fn e nm = Some FnArg ->
  parsed raw = Some [ACall jn [LStr ("#" ++ nm); LStr sep]] -> wf_name nm = true ->
  do_all commit vs st = (ROk ss, st') -> List.length vs <= n ->
  build (S (S (S n))) e (BFrag (Frag raw vs [] p s)) st = (ROk (wrapped p (trim_space (str_join sep (nonempty_items ss))) s), st').
Proof. exact joined_args. Qed.
Print Assumptions c25_join_args.
Theorem c25_join_args_question : forall n style h raw sep vs, style <> style_dollar ->
  parsed raw = Some [ACall "join" [LStr "#arg"; LStr sep]] -> List.length vs <= n ->
  build_query (S (S (S n))) style h (BFrag (Frag raw vs [] "" "")) =
  (ROk (trim_space (str_join sep (map (fun _ => "?") vs)), vs), h).
Proof. exact joined_question. Qed.
Print Assumptions c25_join_args_question.
Example c25_example :
  parsed "#join('#fragment', ' AND ')" = Some [ACall "join" [LStr ("#" ++ "fragment"); LStr " AND "]] /\
  do_all (build 9 [builtins]) [BFrag (Fa "a = ?" [Int 1]); BFrag (F ""); BFrag (Fa "b = ?" [Int 2])] (new_store style_dollar [])
    = (ROk ["a = $1"; ""; "b = $2"], snd (do_all commit [Int 1; Int 2] (new_store style_dollar []))) /\
  nonempty_items ["a = $1"; ""; "b = $2"] = ["a = $1"; "b = $2"] /\
  parsed "#join('#arg', ',')" = Some [ACall "join" [LStr "#arg"; LStr ","]].
Proof. repeat apply conj; vm_compute; reflexivity. Qed.

(** C26: a range within the items joins exactly them and uses exactly them. *)
Theorem c26_range_fragments : forall rb k jf e fc jn nm sep,
  lookup_fn e jn = Some FnJoin -> wf_name nm = true -> lookup_fn e nm = Some FnFragment ->
  forall nums from to X ss st', Forall is_num nums ->
  range (map lit_int nums) (Z.of_nat (List.length (fr_frags fc))) from to ->
  (1 <= from <= to)%Z -> (to <= Z.of_nat (List.length (fr_frags fc)))%Z ->
  do_all (rb e) (slice from to (fr_frags fc)) (fs_st X) = (ROk ss, st') -> Z.to_nat (to - from + 1) < jf ->
  join_call rb k jf e fc jn nm sep nums X = (ROk (str_join sep (nonempty_items ss)),
    mkFS st' (fs_ua X) (mark_from (Z.to_nat (from - 1)) (Z.to_nat (to - from + 1)) (fs_uf X))).
Proof. exact frags_range. Qed.
Print Assumptions c26_range_fragments.
Theorem c26_range_args : forall rb k jf e fc jn nm sep,
  lookup_fn e jn = Some FnJoin -> wf_name nm = true -> lookup_fn e nm = Some FnArg ->
  forall nums from to X ss st', Forall is_num nums ->
  range (map lit_int nums) (Z.of_nat (List.length (fr_args fc))) from to ->
  (1 <= from <= to)%Z -> (to <= Z.of_nat (List.length (fr_args fc)))%Z ->
  do_all commit (slice from to (fr_args fc)) (fs_st X) = (ROk ss, st') -> Z.to_nat (to - from + 1) < jf ->
  join_call rb k jf e fc jn nm sep nums X = (ROk (str_join sep (nonempty_items ss)),
    mkFS st' (mark_from (Z.to_nat (from - 1)) (Z.to_nat (to - from + 1)) (fs_ua X)) (fs_uf X)).
Proof. exact args_range. Qed.
Print Assumptions c26_range_args.
(** A range with a bound beyond the items of any function of the template, or
    with from > to, fails the build, whatever else the template contains. *)
Theorem c26_range_checked : forall n e raw args frags p s st l jn tmpl sep nums tl nm len,
  parsed raw = Some l -> In (ACall jn (LStr tmpl :: LStr sep :: nums)) l -> lookup_fn e jn = Some FnJoin ->
  Forall is_num nums -> parsed tmpl = Some tl -> In (AFunc nm) tl ->
  item_count e nm (List.length args) (List.length frags) = Some len -> beyond nums len ->
  forall t st', build n e (BFrag (Frag raw args frags p s)) st <> (ROk t, st').
Proof. exact beyond_fails. Qed.
Print Assumptions c26_range_checked.
(** The error names the first index beyond the items. *)
Theorem c26_range_error : forall rb k jf e fc jn nm sep,
  lookup_fn e jn = Some FnJoin -> wf_name nm = true -> lookup_fn e nm = Some FnFragment ->
  forall a b X ss st', is_num a -> is_num b -> let from := Z.max 1 (lit_int a) in
  let len := Z.of_nat (List.length (fr_frags fc)) in
  (from <= len + 1)%Z -> (len < lit_int b)%Z -> (lit_int a <= lit_int b)%Z -> (0 < lit_int b)%Z ->
  do_all (rb e) (slice from len (fr_frags fc)) (fs_st X) = (ROk ss, st') -> Z.to_nat (len - from + 1) < jf ->
  join_call rb k jf e fc jn nm sep [a; b] X = (RErr (index_error jn nm (len + 1)),
    mkFS st' (fs_ua X) (mark_from (Z.to_nat (from - 1)) (Z.to_nat (len - from + 1)) (fs_uf X))).
Proof. exact frags_beyond. Qed.
Print Assumptions c26_range_error.
Example c26_example :
  range (map lit_int [LNum (float_of_N 2); LNum (float_of_N 3)]) 4 2 3 /\
  slice 2 3 ["a"; "b"; "c"; "d"] = ["b"; "c"] /\
  fst (build 9 [builtins] (BFrag (Fa "#join('#arg', ',', 2, 3), #join('#arg', ',', 3), #join('#arg', ',', 0, 1)" [Int 1; Int 2; Int 3; Int 4])) (new_store style_dollar []))
    = ROk "$1,$2, $2,$3, $4" /\
  parsed "x #join('#arg', ',', 2, 5)" = Some [APlain "x "; ACall "join" [LStr "#arg"; LStr ","; LNum (float_of_N 2); LNum (float_of_N 5)]] /\
  parsed "#arg" = Some [AFunc "arg"] /\ item_count [builtins] "arg" 4 0 = Some 4 /\
  beyond [LNum (float_of_N 2); LNum (float_of_N 5)] 4 /\ beyond [LNum (float_of_N 3); LNum (float_of_N 2)] 4 /\ beyond [LNum (float_of_N 5)] 4.
Proof. repeat apply conj; try (vm_compute; reflexivity). right; left. vm_compute. reflexivity. right; right. split; vm_compute; reflexivity. Qed.

(** C27: a child failing with anything but an invalid index fails the build ... *)
Theorem c27_child_error : forall n e raw jn nm sep bs p s st o er st',
  lookup_fn e jn = Some FnJoin -> lookup_fn e nm = Some FnFragment ->
  parsed raw = Some [ACall jn [LStr ("#" ++ nm); LStr sep]] -> wf_name nm = true ->
  do_all (build (S (S n)) e) bs st = (o, st') -> o = RErr er \/ o = RPanic er -> is_invalid_index er = false ->
  List.length bs <= n ->
  exists er2, build (S (S (S n))) e (BFrag (Frag raw [] bs p s)) st = (RErr er2, st') /\ is_invalid_index er2 = false.
Proof. exact joined_fails. Qed.
Print Assumptions c27_child_error.
(** ... but the last child failing with an invalid index is dropped silently
    (and the arguments it committed stay). *)
Theorem c27_child_error_refuted : forall n e raw jn nm sep pre x post p s st ss st1 o er st2,
  lookup_fn e jn = Some FnJoin -> lookup_fn e nm = Some FnFragment ->
  parsed raw = Some [ACall jn [LStr ("#" ++ nm); LStr sep]] -> wf_name nm = true ->
  do_all (build (S (S n)) e) pre st = (ROk ss, st1) -> build (S (S n)) e x st1 = (o, st2) ->
  o = RErr er \/ o = RPanic er -> is_invalid_index er = true -> List.length pre <= n ->
  build (S (S (S n))) e (BFrag (Frag raw [] (pre ++ x :: post) p s)) st =
  (match post with
   | [] => ROk (wrapped p (trim_space (str_join sep (nonempty_items ss))) s)
   | _ => RErr (EWrap ("build '" ++ raw ++ "'") (EMsg ("properties #" ++ itoa_nat (List.length pre + 2) ++ " unused")))
   end, st2).
Proof. exact joined_swallows. Qed.
Print Assumptions c27_child_error_refuted.
(** Here the condition on the tenant disappears and its argument remains. *)
Example c27_example :
  let cond := BFrag (Frag "tenant = ? AND #f2" [Int 7] [BFrag (F "x")] "" "") in
  (exists er, fst (build 9 [builtins] cond (new_store style_question [])) = RErr er /\ is_invalid_index er = true) /\
  fst (build_query 9 style_question [] (BFrag (Frag "#join('#f', ' AND ')" [] [BFrag (F "1 = 1"); cond] "WHERE" "")))
    = ROk ("WHERE 1 = 1", [Int 7]) /\
  (exists er, fst (build 9 [builtins] (BFrag (F "#nope()")) (new_store style_question [])) = RErr er /\ is_invalid_index er = false).
Proof. apply conj; [|apply conj]; [eexists; apply conj; vm_compute; reflexivity|vm_compute; reflexivity|eexists; apply conj; vm_compute; reflexivity]. Qed.

(** C28: zipping equally many fragments and arguments. *)
Theorem c28_zip : forall n e raw jn f a mid tmpl sep bs vs p s st ss st',
  lookup_fn e jn = Some FnJoin -> lookup_fn e f = Some FnFragment -> lookup_fn e a = Some FnArg ->
  parsed raw = Some [ACall jn [LStr tmpl; LStr sep]] -> parsed tmpl = Some (AFunc f :: cons_text mid [AFunc a]) ->
  List.length bs = List.length vs ->
  do_all (zip_step (build (S (S n)) e) mid) (combine bs vs) st = (ROk ss, st') -> List.length bs <= n ->
  build (S (S (S n))) e (BFrag (Frag raw vs bs p s)) st = (ROk (wrapped p (trim_space (str_join sep (nonempty_items ss))) s), st').
Proof. exact joined_zip. Qed.
Print Assumptions c28_zip.
(** Any success has equal lengths or exactly one fragment more ... *)
Theorem c28_zip_lengths : forall n e raw jn f a mid tmpl sep bs vs p s st t st',
  lookup_fn e jn = Some FnJoin -> lookup_fn e f = Some FnFragment -> lookup_fn e a = Some FnArg ->
  parsed raw = Some [ACall jn [LStr tmpl; LStr sep]] -> parsed tmpl = Some (AFunc f :: cons_text mid [AFunc a]) ->
  build n e (BFrag (Frag raw vs bs p s)) st = (ROk t, st') ->
  List.length bs = List.length vs \/ List.length bs = S (List.length vs).
Proof. exact zip_lengths. Qed.
Print Assumptions c28_zip_lengths.
(** ... which is built and then dropped. *)
Theorem c28_zip_refuted : forall n e raw jn f a mid tmpl sep bs b vs p s st ss st1 t st2,
  lookup_fn e jn = Some FnJoin -> lookup_fn e f = Some FnFragment -> lookup_fn e a = Some FnArg ->
  parsed raw = Some [ACall jn [LStr tmpl; LStr sep]] -> parsed tmpl = Some (AFunc f :: cons_text mid [AFunc a]) ->
  List.length bs = List.length vs ->
  do_all (zip_step (build (S (S n)) e) mid) (combine bs vs) st = (ROk ss, st1) ->
  build (S (S n)) e b st1 = (ROk t, st2) -> List.length bs <= n ->
  build (S (S (S n))) e (BFrag (Frag raw vs (bs ++ [b]) p s)) st =
  (ROk (wrapped p (trim_space (str_join sep (nonempty_items ss))) s), st2).
Proof. exact joined_zip_drops. Qed.
Print Assumptions c28_zip_refuted.
Example c28_example :
  parsed "#join('#fragment=#arg', ', ')" = Some [ACall "join" [LStr "#fragment=#arg"; LStr ", "]] /\
  parsed "#fragment=#arg" = Some (AFunc "fragment" :: cons_text "=" [AFunc "arg"]) /\
  fst (build_query 9 style_dollar [] (BFrag (Frag "#join('#fragment=#arg', ', ')" [Int 1; Int 2] [BFrag (F "a"); BFrag (F "b")] "SET" "")))
    = ROk ("SET a=$1, b=$2", [Int 1; Int 2]) /\
  fst (build_query 9 style_dollar [] (BFrag (Frag "#join('#fragment=#arg', ', ')" [Int 1; Int 2] [BFrag (F "a"); BFrag (F "b"); BFrag (F "c")] "SET" "")))
    = ROk ("SET a=$1, b=$2", [Int 1; Int 2]).
Proof. repeat apply conj; vm_compute; reflexivity. Qed.

(** C29: indices out of range. *)
Theorem c29_dangling : forall n e raw args frags p s st l x,
  parsed raw = Some l -> In x l -> dangling e (List.length args) (List.length frags) x ->
  forall t st', build n e (BFrag (Frag raw args frags p s)) st <> (ROk t, st').
Proof. exact dangling_fails. Qed.
Print Assumptions c29_dangling.
Example c29_example :
  (exists l, parsed "a = $3" = Some l /\ In (ABind style_dollar 3) l /\ dangling [builtins] 2 0 (ABind style_dollar 3)) /\
  (exists l, parsed "#f0" = Some l /\ exists x, In x l /\ dangling [builtins] 0 2 x).
Proof.
  apply conj; eexists; (split; [vm_compute; reflexivity|]).
  - split; [cbn; auto|]. right. reflexivity.
  - eexists. split; [left; reflexivity|]. right. split; [reflexivity|]. left. vm_compute. reflexivity.
Qed.

(** C31: function lookup. *)
Theorem c31_innermost : forall e nm f, lookup_fn e nm = Some f <-> innermost e nm f.
Proof. exact lookup_innermost. Qed.
Print Assumptions c31_innermost.
Theorem c31_bad_call_fails : forall n e raw args frags p s st l x,
  parsed raw = Some l -> In x l -> bad_call e x ->
  forall t st', build n e (BFrag (Frag raw args frags p s)) st <> (ROk t, st').
Proof. exact bad_call_fails. Qed.
Print Assumptions c31_bad_call_fails.
(** The function is not called: nothing changes. *)
Theorem c31_bad_call_inert : forall rb rc jf e fc x S, bad_call e x ->
  exists er, eval_expr rb rc jf e fc (unstrip x) S = (RErr er, S).
Proof. exact bad_call_expr. Qed.
Print Assumptions c31_bad_call_inert.
Example c31_example :
  innermost [[("a", FnArg)]; [("f", FnJoin); ("f", FnArg)]; builtins] "f" FnJoin /\
  bad_call [builtins] (ACall "f" [LInt 1; LInt 2]) /\ bad_call [builtins] (ACall "nope" []).
Proof.
  repeat apply conj; try (vm_compute; try reflexivity; exact I).
  exists [[("a", FnArg)]], [("f", FnJoin); ("f", FnArg)], [builtins], [], [("f", FnArg)].
  repeat apply conj; try reflexivity; [intros l g [<-|[]] [H|[]]; discriminate|intros g []].
Qed.

(** C32: a name accepted for registration whose characters are ASCII can be
    called ... *)
Theorem c32_callable : forall nm, good_name nm = true -> ascii_only nm = true ->
  parsed ("#" ++ nm ++ "()") = Some [ACall nm []].
Proof. exact callable. Qed.
Print Assumptions c32_callable.
Theorem c32_called : forall n e nm outs body st, good_name nm = true -> ascii_only nm = true ->
  lookup_fn e nm = Some (FnCustom (mkSig [GCtx] false outs) body) ->
  build (S (S n)) e (BFrag (F ("#" ++ nm ++ "()"))) st =
  match run_prog (build (S n)) e (body []) st with
  | (r, st') =>
    (match norm_outs outs r with
     | ROk t => ROk (trim_space t)
     | RErr er | RPanic er => RErr (EWrap ("build '#" ++ nm ++ "()'") (EWrap ("error calling #" ++ nm) er))
     | RFuel => RFuel
     end, st')
  end.
Proof. exact call_registered. Qed.
Print Assumptions c32_called.
(** ... but no template calls a function whose name has another character,
    although such names are accepted. *)
Theorem c32_only_ascii : forall raw l nm args, parsed raw = Some l -> In (ACall nm args) l -> wf_name nm = true.
Proof. exact called_names. Qed.
Print Assumptions c32_only_ascii.
Definition eacute : string := String (ascii_of_nat 195) (String (ascii_of_nat 169) "").
Theorem c32_accepted_refuted : good_name eacute = true /\ wf_name eacute = false /\
  parsed ("#" ++ eacute ++ "()") = None.
Proof. repeat apply conj; vm_compute; reflexivity. Qed.
Print Assumptions c32_accepted_refuted.
Example c32_example : good_name "my_Func" = true /\ ascii_only "my_Func" = true.
Proof. apply conj; vm_compute; reflexivity. Qed.

(** C33: panics inside functions. *)
Theorem c33_called_panic : forall rb rc jf e fc name f args S er S',
  arity_ok (sig_of f) (List.length args) = true ->
  eval_args (arg_types (sig_of f) (List.length args)) args = ROk tt ->
  any_rejected (arg_types (sig_of f) (List.length args)) args = false ->
  call_fn rb rc jf e fc f args S = (RPanic er, S') ->
  eval_call rb rc jf e fc name f args S = (RErr (EWrap ("error calling #" ++ name) er), S').
Proof. exact called_panic. Qed.
Print Assumptions c33_called_panic.
Example c33_example :
  let boom := FnCustom (mkSig [GCtx; GStr false] false [GStr false; GError]) (fun _ => PPanicU (EMsg "boom")) in
  let run := fun b => fst (build 9 [[("boom", boom)]; builtins] b (new_store style_question [])) in
  run (BFrag (F "#boom('x')")) = RErr (EWrap "build '#boom('x')'" (EWrap "error calling #boom" (EMsg "boom"))) /\
  run (BFrag (Ff "#f1" [BNilCol])) = RErr (EWrap "build '#f1'" (EWrap "error calling #f" nil_deref)).
Proof. apply conj; vm_compute; reflexivity. Qed.

(** C34: testing the functions of a join template leaves the arguments, the
    numbering and the usage flags of the running build alone, and its outcome
    does not depend on them. *)
Theorem c34_prep_no_effect : forall rb e es st, exists h, snd (join_prep rb e es st) = set_heap st h.
Proof. exact prep_store. Qed.
Print Assumptions c34_prep_no_effect.
Theorem c34_test_independent : forall rb name f st st2, st_heap st = st_heap st2 ->
  fst (join_compat rb name f st) = fst (join_compat rb name f st2) /\
  st_heap (snd (join_compat rb name f st)) = st_heap (snd (join_compat rb name f st2)).
Proof. exact compat_fresh. Qed.
Print Assumptions c34_test_independent.
Theorem c34_refused_no_effect : forall rb rc jf e fc tmpl sep idx S o S' es er st',
  parse tmpl = POk es -> join_prep rb e es (fs_st S) = (RErr er, st') ->
  func_join rb rc jf e fc tmpl sep idx S = (o, S') ->
  fs_ua S' = fs_ua S /\ fs_uf S' = fs_uf S /\ exists h, fs_st S' = set_heap (fs_st S) h.
Proof. exact join_refused. Qed.
Print Assumptions c34_refused_no_effect.
Example c34_example :
  let f := FnCustom (mkSig [GCtx; GNum] false [GStr false; GError])
    (fun l => PCommit (Int 9) (fun s => match l with [LInt 0] => PRet "" (Some (EInvalidIndex 0)) | [LInt 1] => PRet s None | _ => PRet "" (Some (EInvalidIndex 2)) end)) in
  fst (build_query 9 style_question [] (BCustom (PBuild [("g", f)] (BFrag (F "#join('#g', ',')")) (fun r => match r with ROk s => PRet s None | _ => PRet "" (Some (EMsg "x")) end))))
    = ROk ("?", [Int 9; Int 9]) /\
  (exists es er st', parse "#g" = POk es /\ join_prep (build 5) [[("g", FnJoin)]] es (new_store style_question []) = (RErr er, st')).
Proof. apply conj; [vm_compute; reflexivity|]. eexists _, _, _. apply conj; [vm_compute; reflexivity|]. vm_compute. reflexivity. Qed.
