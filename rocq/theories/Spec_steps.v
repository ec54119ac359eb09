(** What a template comes to, without reference to the way it is computed: the
    steps of its parts, of a whole template and of the rounds of a #join. *)
From Coq Require Import Strings.String ZArith List Bool.
From Verif Require Import GoStr GoNum Syntax Value Util Model Sqlf Sqlb Spec_syntax Spec_eval Spec_base.
Import ListNotations.
Open Scope string_scope.

(** Building a builder, running user code: with enough time. *)
Definition finishes (e : env) (b : builder) (st : store) (o : outcome string) (st' : store) : Prop :=
  exists n, build n e b st = (o, st') /\ o <> RFuel.
Definition returns (e : env) (p : prog) (st : store) (o : outcome string) (st' : store) : Prop :=
  exists n, run_prog (build n) e p st = (o, st') /\ o <> RFuel.
(** A failure for want of an argument or fragment. *)
Definition wanting (o : outcome string) : Prop := exists er, (o = RErr er \/ o = RPanic er) /\ by_index er.

(** A text, or the report that there is no argument or fragment of the number
    asked for. *)
Inductive result := Gives (s : string) | Lacks.

(** The arguments of a call suit the function. *)
Definition suits (f : func) (l : list lit) : Prop :=
  takes f (List.length l) /\ all_fit f l /\ ~ some_defined f (List.length l).
Definition proper_env (e : env) : Prop := forall nm f, lookup_fn e nm = Some f -> proper f.

(** The functions of a template, and the template of round [i]. *)
Definition functions_of (l : list aexpr) : list string :=
  flat_map (fun x => match x with AFunc nm => [nm] | _ => [] end) l.
Definition at_round (i : Z) (x : aexpr) : aexpr := match x with AFunc nm => ACall nm [LInt i] | _ => x end.
(** The limits of a #join; 0 means none. *)
Definition limits (idx : list Z) (from to : Z) : Prop :=
  match idx with
  | [] => from = 0%Z /\ to = 0%Z
  | [a] => from = a /\ to = 0%Z
  | [a; b] => from = a /\ to = b /\ ~ (0 < b < a)%Z
  | _ => False
  end.
(** Functions #join takes: func(number) (string, error), with or without a
    leading context, reporting that there is no index 0. *)
Definition joinable (s : fsig) : Prop :=
  (exists t, fs_outs s = [t; GError]) /\ (fs_ins s = [GNum] \/ fs_ins s = [GCtx; GNum]).

Inductive accepts (e : env) : list string -> store -> store -> Prop :=
| ac_none st : accepts e [] st st
| ac_builtin nm l st st' : lookup_fn e nm = Some FnArg \/ lookup_fn e nm = Some FnFragment ->
    accepts e l st st' -> accepts e (nm :: l) st st'
| ac_custom nm sg body l st o st1 st' : lookup_fn e nm = Some (FnCustom sg body) -> joinable sg ->
    returns [[]] (body [LInt 0]) (new_store style_question (st_heap st)) o st1 -> wanting o ->
    accepts e l (set_heap st (st_heap st1)) st' -> accepts e (nm :: l) st st'.

Section Steps.
Variable e : env.
Variable args : list value.
Variable frags : list builder.

(** [steps x st r ua uf st']: the part [x] in the state [st] comes to [r] and
    leaves the state [st'], having used the arguments [ua] and the fragments [uf]. *)
Inductive steps : aexpr -> store -> result -> list Z -> list Z -> store -> Prop :=
| st_text t st : steps (APlain t) st (Gives t) [] [] st
| st_bind sty i v st s st' : nth1 args i = Some v -> commit v st = (ROk s, st') ->
    steps (ABind sty i) st (Gives s) [i] [] st'
| st_arg nm a v st s st' : lookup_fn e nm = Some FnArg -> is_num a -> nth1 args (lit_int a) = Some v ->
    commit v st = (ROk s, st') -> steps (ACall nm [a]) st (Gives s) [lit_int a] [] st'
| st_no_arg nm a st : lookup_fn e nm = Some FnArg -> is_num a -> nth1 args (lit_int a) = None ->
    steps (ACall nm [a]) st Lacks [] [] st
| st_frag nm a b st s st' : lookup_fn e nm = Some FnFragment -> is_num a -> nth1 frags (lit_int a) = Some b ->
    finishes e b st (ROk s) st' -> steps (ACall nm [a]) st (Gives s) [] [lit_int a] st'
| st_no_frag nm a st : lookup_fn e nm = Some FnFragment -> is_num a -> nth1 frags (lit_int a) = None ->
    steps (ACall nm [a]) st Lacks [] [] st
| st_frag_lacks nm a b st o st' : lookup_fn e nm = Some FnFragment -> is_num a -> nth1 frags (lit_int a) = Some b ->
    finishes e b st o st' -> wanting o -> steps (ACall nm [a]) st Lacks [] [lit_int a] st'
| st_custom nm sg body l st o s st' : lookup_fn e nm = Some (FnCustom sg body) -> suits (FnCustom sg body) l ->
    returns e (body l) st o st' -> norm_outs (fs_outs sg) o = ROk s -> steps (ACall nm l) st (Gives s) [] [] st'
| st_custom_lacks nm sg body l st o st' : lookup_fn e nm = Some (FnCustom sg body) -> suits (FnCustom sg body) l ->
    returns e (body l) st o st' -> wanting (norm_outs (fs_outs sg) o) -> steps (ACall nm l) st Lacks [] [] st'
| st_join nm tmpl sep nums tl from to st st1 ss ua uf st' : lookup_fn e nm = Some FnJoin -> Forall is_num nums ->
    limits (map lit_int nums) from to -> parsed tmpl = Some tl -> functions_of tl <> [] -> accepts e (functions_of tl) st st1 ->
    rounds tl from to (Z.max 1 from) st1 (Some ss) ua uf st' ->
    steps (ACall nm (LStr tmpl :: LStr sep :: nums)) st (Gives (str_join sep (nonempty_items ss))) ua uf st'
| st_join_lacks nm tmpl sep nums tl from to st st1 ua uf st' : lookup_fn e nm = Some FnJoin -> Forall is_num nums ->
    limits (map lit_int nums) from to -> parsed tmpl = Some tl -> functions_of tl <> [] -> accepts e (functions_of tl) st st1 ->
    rounds tl from to (Z.max 1 from) st1 None ua uf st' ->
    steps (ACall nm (LStr tmpl :: LStr sep :: nums)) st Lacks ua uf st'
(** The parts of a template from left to right. *)
with steps_all : list aexpr -> store -> result -> list Z -> list Z -> store -> Prop :=
| sa_nil st : steps_all [] st (Gives "") [] [] st
| sa_cons x l st s ua uf st1 s2 ua2 uf2 st2 : steps x st (Gives s) ua uf st1 -> steps_all l st1 (Gives s2) ua2 uf2 st2 ->
    steps_all (x :: l) st (Gives (s ++ s2)) (ua ++ ua2) (uf ++ uf2) st2
| sa_here x l st ua uf st1 : steps x st Lacks ua uf st1 -> steps_all (x :: l) st Lacks ua uf st1
| sa_later x l st s ua uf st1 ua2 uf2 st2 : steps x st (Gives s) ua uf st1 -> steps_all l st1 Lacks ua2 uf2 st2 ->
    steps_all (x :: l) st Lacks (ua ++ ua2) (uf ++ uf2) st2
(** The rounds from [i] on: the last is the upper limit if there is one;
    otherwise the one before something is lacking, which must not be lacking in
    the first round if a lower limit was given. *)
with rounds : list aexpr -> Z -> Z -> Z -> store -> option (list string) -> list Z -> list Z -> store -> Prop :=
| rd_last tl from to i st s ua uf st' : (0 < to)%Z -> (to <= i)%Z ->
    steps_all (map (at_round i) tl) st (Gives s) ua uf st' -> rounds tl from to i st (Some [s]) ua uf st'
| rd_more tl from to i st s ua uf st1 r ua2 uf2 st2 : ~ (0 < to <= i)%Z ->
    steps_all (map (at_round i) tl) st (Gives s) ua uf st1 -> rounds tl from to (i + 1) st1 r ua2 uf2 st2 ->
    rounds tl from to i st (option_map (cons s) r) (ua ++ ua2) (uf ++ uf2) st2
| rd_end tl from to i st ua uf st' : ~ (0 < from /\ i = from)%Z -> ~ (0 < to /\ i <= to)%Z ->
    steps_all (map (at_round i) tl) st Lacks ua uf st' -> rounds tl from to i st (Some []) ua uf st'
| rd_lacks tl from to i st ua uf st' : (0 < from /\ i = from)%Z \/ (0 < to /\ i <= to)%Z ->
    steps_all (map (at_round i) tl) st Lacks ua uf st' -> rounds tl from to i st None ua uf st'.
End Steps.

(** Every item is among those used. *)
Definition covers {A} (used : list Z) (l : list A) : Prop :=
  forall k, 1 <= k <= List.length l -> In (Z.of_nat k) used.
