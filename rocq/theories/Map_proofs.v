(** Building commutes with replacing argument values. *)
From Coq Require Import Strings.String Strings.Ascii NArith ZArith List Bool Lia.
From Verif Require Import GoStr GoNum Syntax Value Util Model Sqlf Sqlb Spec_syntax RefSem Spec_build.
Import ListNotations.
Open Scope string_scope.

Section Map.
Variable m : value -> value.

Definition mapg (g : gst) : gst := mkG (map m (g_log g)) (map (map_qb m) (g_heap g)).
Definition mapF (S : gfs) : gfs := mkGF (mapg (gf_g S)) (gf_ua S) (gf_uf S).
Definition mapfc (fc : frame) : frame := mkFrame (map m (fr_args fc)) (map (map_b m) (fr_frags fc)).
Definition mr {A} (r : outcome A * gst) : outcome A * gst := (fst r, mapg (snd r)).
Definition mrF (r : outcome text * gfs) : outcome text * gfs := (fst r, mapF (snd r)).

Lemma map_frag_eq : forall f, map_frag m f =
  Frag (f_raw f) (map m (f_args f)) (map (map_b m) (f_frags f)) (f_prefix f) (f_suffix f).
Proof. intros [raw args frags p s]. reflexivity. Qed.

Lemma nth1_map : forall A B (f : A -> B) l i, nth1 (map f l) i = option_map f (nth1 l i).
Proof.
  intros A B f l i. unfold nth1. rewrite map_length. destruct (_ && _); [|reflexivity].
  apply nth_error_map.
Qed.

Section Clause.
Variable rb : env -> builder -> gst -> outcome text * gst.
Hypothesis Hrb : forall e b g, rb e (map_b m b) (mapg g) = mr (rb e b g).
Variable rc : env -> frame -> list expr -> gfs -> outcome text * gfs.
Hypothesis Hrc : forall e fc es S, rc e (mapfc fc) es (mapF S) = mrF (rc e fc es S).
Variable jf : nat.

Lemma map_arg : forall fc i S, gfunc_arg (mapfc fc) i (mapF S) = mrF (gfunc_arg fc i S).
Proof.
  intros fc i S. unfold gfunc_arg. cbn [mapfc fr_args]. rewrite nth1_map.
  destruct (nth1 (fr_args fc) i) as [v|]; [|reflexivity]. cbn [option_map].
  unfold gcommit, mrF, mapF, mapg. cbn [fst snd gf_g gf_ua gf_uf g_log g_heap]. rewrite map_length, map_app. reflexivity.
Qed.
Lemma map_fragment : forall e fc i S, gfunc_fragment rb e (mapfc fc) i (mapF S) = mrF (gfunc_fragment rb e fc i S).
Proof.
  intros e fc i S. unfold gfunc_fragment. cbn [mapfc fr_frags]. rewrite nth1_map.
  destruct (nth1 (fr_frags fc) i) as [b|]; [|reflexivity]. cbn [option_map].
  cbn [mapF gf_g]. rewrite Hrb. destruct (rb e b (gf_g S)) as [o g']. reflexivity.
Qed.
Lemma map_loop : forall n e fc es sep from to i acc S,
  gjoin_loop rc n e (mapfc fc) es sep from to i acc (mapF S) = mrF (gjoin_loop rc n e fc es sep from to i acc S).
Proof.
  induction n as [|n IH]; intros e fc es sep from to i acc S; [reflexivity|]. cbn [gjoin_loop].
  rewrite Hrc. destruct (rc e fc (set_index i es) S) as [[t|er|er|] S']; unfold mrF at 1; cbn [fst snd]; try reflexivity.
  - destruct (_ && _); [reflexivity|]. apply IH.
  - destruct (is_invalid_index er); [destruct (_ || _)|]; reflexivity.
Qed.
Lemma map_join : forall e fc tmpl sep idx S,
  gfunc_join rc jf e (mapfc fc) tmpl sep idx (mapF S) = mrF (gfunc_join rc jf e fc tmpl sep idx S).
Proof.
  intros e fc tmpl sep idx S. unfold gfunc_join.
  destruct idx as [|a [|b [|c idx]]]; try reflexivity.
  all: destruct (_ && _); [reflexivity|]; destruct (parse tmpl) as [es|p s| |]; try reflexivity;
    destruct (gjoin_prep e es) as [[|k]|er|er|]; try reflexivity; apply map_loop.
Qed.
Lemma map_safe : forall name r, gsafe name (mrF r) = mrF (gsafe name r).
Proof. intros name [[] S]; reflexivity. Qed.
Lemma map_call : forall e fc f args S, gcall_fn rb rc jf e (mapfc fc) f args (mapF S) = mrF (gcall_fn rb rc jf e fc f args S).
Proof.
  intros e fc f args S. destruct f as [| | |sg body]; cbn [gcall_fn]; [apply map_arg|apply map_fragment| |reflexivity].
  destruct args as [|[] [|[] idx]]; try reflexivity. apply map_join.
Qed.
Lemma map_expr : forall e fc x S, geval_expr rb rc jf e (mapfc fc) x (mapF S) = mrF (geval_expr rb rc jf e fc x S).
Proof.
  intros e fc x S. destruct x as [t p|a i p|name args p|name p]; cbn [geval_expr]; try reflexivity.
  - cbn [mapfc fr_args]. rewrite nth1_map. destruct (nth1 (fr_args fc) i) as [v|]; [|reflexivity].
    cbn [option_map]. apply map_arg.
  - unfold geval_function. destruct (lookup_fn e name) as [f|]; [|reflexivity]. unfold geval_call.
    destruct (arity_ok _ _); [|reflexivity]. destruct (eval_args _ _); try reflexivity.
    destruct (any_rejected _ _); [reflexivity|]. rewrite map_call. apply map_safe.
Qed.
Lemma map_clause : forall e fc es S, gclause rb rc jf e (mapfc fc) es (mapF S) = mrF (gclause rb rc jf e fc es S).
Proof.
  intros e fc es. induction es as [|x es IH]; intros S; [reflexivity|]. cbn [gclause].
  rewrite map_expr. destruct (geval_expr rb rc jf e fc x S) as [[t|er|er|] S']; unfold mrF at 1; cbn [fst snd]; try reflexivity.
  rewrite IH. destruct (gclause rb rc jf e fc es S') as [[] S2]; reflexivity.
Qed.
End Clause.

Lemma map_clause_n : forall rb, (forall e b g, rb e (map_b m b) (mapg g) = mr (rb e b g)) ->
  forall n e fc es S, gclause_n n rb e (mapfc fc) es (mapF S) = mrF (gclause_n n rb e fc es S).
Proof.
  intros rb Hrb. induction n as [|n IH]; intros e fc es S; [reflexivity|]. cbn [gclause_n].
  apply map_clause; assumption.
Qed.

Lemma map_build_frag : forall rb, (forall e b g, rb e (map_b m b) (mapg g) = mr (rb e b g)) ->
  forall n e f g, gbuild_frag n rb e (map_frag m f) (mapg g) = mr (gbuild_frag n rb e f g).
Proof.
  intros rb Hrb n e f g. unfold gbuild_frag. rewrite map_frag_eq. cbn [f_raw f_args f_frags].
  destruct (parse (f_raw f)) as [es|p s| |]; try reflexivity. rewrite !map_map.
  change (mkFrame (map m (f_args f)) (map (map_b m) (f_frags f))) with (mapfc (mkFrame (f_args f) (f_frags f))).
  match goal with |- context [gclause_n n rb e (mapfc ?fc) es (mkGF (mapg g) ?u ?v)] =>
    change (mkGF (mapg g) u v) with (mapF (mkGF g u v)); rewrite (map_clause_n rb Hrb);
    destruct (gclause_n n rb e fc es (mkGF g u v)) as [[] S'] end; unfold mrF; cbn [fst snd mapF gf_ua gf_uf gf_g]; try reflexivity.
  destruct (_ && _); [|reflexivity]. unfold gwrap. reflexivity.
Qed.

(* ------------------------------------------------------------------ *)
(** * Query builders *)

Lemma map_upd : forall A B (f : A -> B) i x l, upd i (f x) (map f l) = map f (upd i x l).
Proof. intros A B f. induction i as [|i IH]; intros x [|y l]; cbn; try reflexivity. rewrite IH. reflexivity. Qed.
Lemma map_new_qb : map_qb m new_qb = new_qb.
Proof. reflexivity. Qed.
Lemma map_gget : forall g id, gget (mapg g) id = map_qb m (gget g id).
Proof.
  intros g id. unfold gget, mapg. cbn [g_heap].
  transitivity (nth id (map (map_qb m) (g_heap g)) (map_qb m new_qb)); [rewrite map_new_qb; reflexivity|apply map_nth].
Qed.
Lemma map_gset : forall g id q, gset (mapg g) id (map_qb m q) = mapg (gset g id q).
Proof. intros g id q. unfold gset, mapg. cbn [g_heap g_log]. rewrite map_upd. reflexivity. Qed.

Lemma extract_frag_eq : forall f acc, extract_frag f acc = extract_list (f_frags f) acc.
Proof.
  intros [raw args frags p s]. cbn [f_frags]. cbn [extract_frag].
  induction frags as [|b l IH]; intros acc; [reflexivity|]. cbn [extract_list].
  destruct (extract1 b acc); [apply IH|reflexivity].
Qed.
Lemma map_extract1 : forall b acc, extract1 (map_b m b) acc = extract1 b acc.
Proof.
  fix IH 1. intros b acc.
  assert (L : forall l, (forall c, In c l -> forall acc, extract1 (map_b m c) acc = extract1 c acc) ->
    forall acc, extract_list (map (map_b m) l) acc = extract_list l acc).
  { clear. induction l as [|c l IHl]; intros H acc; [reflexivity|]. cbn [map extract_list].
    rewrite (H c) by (left; reflexivity). destruct (extract1 c acc); [|reflexivity].
    apply IHl. intros d Hd. apply H. right. exact Hd. }
  assert (G : forall f, (forall c, In c (f_frags f) -> forall acc, extract1 (map_b m c) acc = extract1 c acc) ->
    extract_frag (map_frag m f) acc = extract_frag f acc).
  { intros f H. rewrite !extract_frag_eq. rewrite map_frag_eq. cbn [f_frags]. apply L. exact H. }
  destruct b as [| |f| |[f|] t|t|x a|[id|]|p]; try reflexivity.
  - change (extract_frag (map_frag m f) acc = extract_frag f acc). apply G.
    destruct f as [raw args frags pre suf]. cbn [f_frags].
    induction frags as [|c l IHl]; [intros c []|]. intros d [<-|Hd]; [apply IH|apply IHl; exact Hd].
  - change (extract1 (BCol (Some (map_frag m f)) t) acc = extract1 (BCol (Some f) t) acc). cbn [extract1].
    destruct (is_empty t); [|reflexivity]. apply G.
    destruct f as [raw args frags pre suf]. cbn [f_frags].
    induction frags as [|c l IHl]; [intros c []|]. intros d [<-|Hd]; [apply IH|apply IHl; exact Hd].
Qed.
Lemma map_extract_list : forall l acc, extract_list (map (map_b m) l) acc = extract_list l acc.
Proof.
  induction l as [|b l IH]; intros acc; [reflexivity|]. cbn [map extract_list]. rewrite map_extract1.
  destruct (extract1 b acc); [apply IH|reflexivity].
Qed.
Lemma map_extract_frag : forall f acc, extract_frag (map_frag m f) acc = extract_frag f acc.
Proof. intros f acc. rewrite !extract_frag_eq, map_frag_eq. apply map_extract_list. Qed.

Lemma map_assoc : forall A B (f : A -> B) l k,
  assoc k (map (fun x => (fst x, f (snd x))) l) = option_map f (assoc k l).
Proof. intros A B f l k. induction l as [|[k' v] l IH]; [reflexivity|]. cbn. destruct (String.eqb k k'); [reflexivity|exact IH]. Qed.

Lemma map_deps_table : forall n q t d, deps_table n (map_qb m q) t d = deps_table n q t d.
Proof.
  induction n as [|n IH]; intros q t d; [reflexivity|]. cbn [deps_table].
  change (q_tdict (map_qb m q)) with (q_tdict q).
  destruct (assoc t (q_tdict q)) as [id|]; [|reflexivity].
  change (q_tobjs (map_qb m q)) with (map (map_ft m) (q_tobjs q)). rewrite nth_error_map.
  destruct (nth_error (q_tobjs q) id) as [ft|]; [|reflexivity]. cbn [option_map map_ft ft_names ft_frag].
  destruct (dep_mem _ _); [reflexivity|]. destruct (ft_frag ft) as [f|]; [|reflexivity]. cbn [option_map].
  rewrite map_extract_frag. destruct (extract_frag f []) as [ts|]; [|reflexivity].
  generalize (ft_names ft :: d). induction ts as [|x ts IHts]; intros d'; [reflexivity|].
  destruct (String.eqb x t); [apply IHts|]. rewrite IH. destruct (deps_table n q x d'); try reflexivity. apply IHts.
Qed.
Lemma map_deps_tables : forall n q ts d, deps_tables n (map_qb m q) ts d = deps_tables n q ts d.
Proof.
  intros n q. induction ts as [|t ts IH]; intros d; [reflexivity|]. cbn [deps_tables]. rewrite map_deps_table.
  destruct (deps_table n q t d); try reflexivity. apply IH.
Qed.
Lemma map_deps_cte : forall n q c d, deps_cte n (map_qb m q) (map_cte m c) d = deps_cte n q c d.
Proof.
  induction n as [|n IH]; intros q c d; [reflexivity|]. cbn [deps_cte map_cte c_name c_deps].
  destruct (dep_mem _ _); [reflexivity|]. generalize ((c_name c, "") :: d).
  induction (c_deps c) as [|x l IHl]; intros d'; [reflexivity|].
  change (q_cdict (map_qb m q)) with (map (fun x => (fst x, map_cte m (snd x))) (q_cdict q)).
  rewrite map_assoc. destruct (assoc x (q_cdict q)) as [c'|]; cbn [option_map]; [|apply IHl].
  rewrite IH. destruct (deps_cte n q c' d'); try reflexivity. apply IHl.
Qed.
Lemma map_deps_ctes : forall n q ids d, deps_ctes n (map_qb m q) ids d = deps_ctes n q ids d.
Proof.
  intros n q. induction ids as [|id ids IH]; intros d; [reflexivity|]. cbn [deps_ctes].
  change (q_tobjs (map_qb m q)) with (map (map_ft m) (q_tobjs q)). rewrite nth_error_map.
  destruct (nth_error (q_tobjs q) id) as [ft|]; [|reflexivity]. cbn [option_map map_ft ft_names ft_optional].
  change (q_distinct (map_qb m q)) with (q_distinct q). destruct (_ && _); [apply IH|].
  change (q_cdict (map_qb m q)) with (map (fun x => (fst x, map_cte m (snd x))) (q_cdict q)).
  rewrite map_assoc. destruct (assoc _ (q_cdict q)) as [c'|]; cbn [option_map]; [|apply IH].
  rewrite map_deps_cte. destruct (deps_cte n q c' d); try reflexivity. apply IH.
Qed.
Lemma map_collect : forall q, collect_deps (map_qb m q) = collect_deps q.
Proof.
  intros q. unfold collect_deps.
  assert (E : ([BFrag (q_selects (map_qb m q)); BFrag (q_touches (map_qb m q)); BFrag (q_conds (map_qb m q)); BFrag (q_groups (map_qb m q))]
             ++ map fst (q_orders (map_qb m q)))%list
    = map (map_b m) ([BFrag (q_selects q); BFrag (q_touches q); BFrag (q_conds q); BFrag (q_groups q)] ++ map fst (q_orders q))%list).
  { rewrite map_app. cbn [map app]. unfold map_qb. cbn [q_selects q_touches q_conds q_groups q_orders].
    rewrite !map_map. reflexivity. }
  rewrite E. unfold extract_tables. rewrite map_extract_list.
  destruct (extract_list _ []) as [ts|]; [|reflexivity].
  change (q_tables (map_qb m q)) with (q_tables q). destruct (q_tables q) as [|id ids] eqn:Et; [reflexivity|].
  change (q_tobjs (map_qb m q)) with (map (map_ft m) (q_tobjs q)). rewrite nth_error_map.
  destruct (nth_error (q_tobjs q) id) as [ft|]; [|reflexivity]. cbn [option_map map_ft ft_names].
  assert (Ef : deps_fuel (map_qb m q) = deps_fuel q).
  { unfold deps_fuel, map_qb. cbn [q_tobjs q_cdict]. rewrite !map_length. reflexivity. }
  rewrite Ef, map_deps_tables. destruct (deps_tables _ _ _ _); try reflexivity.
  apply map_deps_ctes.
Qed.

Lemma map_orders_loop : forall os i q items,
  orders_loop i (map (fun x => (map_b m (fst x), snd x)) os) (map_qb m q) (map (map_b m) items)
  = (map_qb m (fst (orders_loop i os q items)), map (map_b m) (snd (orders_loop i os q items))).
Proof.
  induction os as [|[col o] os IH]; intros i q items; [reflexivity|]. cbn [map orders_loop fst snd].
  destruct (N.ltb max_order o).
  - rewrite <- IH. reflexivity.
  - change (q_distinct (map_qb m q)) with (q_distinct q). destruct (q_distinct q).
    + rewrite <- IH. f_equal.
      * unfold map_qb, set_touches. cbn [q_touches q_ctes q_cdict q_tobjs q_tables q_tdict q_selects q_conds q_orders q_groups q_distinct q_limit q_offset q_unions q_errors q_debug].
        rewrite !map_frag_eq. cbn [f_raw f_args f_frags f_prefix f_suffix append_frags with_frags].
        rewrite map_app. reflexivity.
      * rewrite map_app. reflexivity.
    + rewrite <- IH. f_equal. rewrite map_app. reflexivity.
Qed.

Section QB.
Variable rb : builder -> gst -> outcome text * gst.
Hypothesis Hrb : forall b g, rb (map_b m b) (mapg g) = mr (rb b g).

Lemma map_bf : forall f g, rb (BFrag (map_frag m f)) (mapg g) = mr (rb (BFrag f) g).
Proof. intros f g. exact (Hrb (BFrag f) g). Qed.

Lemma map_ctes_loop : forall cs d g, gctes_loop rb (map (map_cte m) cs) d (mapg g) = mr (gctes_loop rb cs d g).
Proof.
  induction cs as [|c cs IH]; intros d g; [reflexivity|]. cbn [map gctes_loop map_cte c_name c_builder].
  destruct (dep_mem _ _); [|apply IH]. rewrite Hrb.
  destruct (rb (c_builder c) g) as [[t|er|er|] g']; unfold mr at 1; cbn [fst snd]; try reflexivity.
  rewrite IH. destruct (gctes_loop rb cs d g') as [[] g2]; reflexivity.
Qed.
Lemma map_ctes : forall cs d g, gctes rb (map (map_cte m) cs) d (mapg g) = mr (gctes rb cs d g).
Proof. intros cs d g. unfold gctes. rewrite map_ctes_loop. destruct (gctes_loop rb cs d g) as [[[|]| | |] g']; reflexivity. Qed.
Lemma map_from_loop : forall di fts d g, gfrom_loop rb di (map (map_ft m) fts) d (mapg g) = mr (gfrom_loop rb di fts d g).
Proof.
  induction fts as [|ft fts IH]; intros d g; [reflexivity|]. cbn [map gfrom_loop map_ft ft_names ft_optional ft_frag].
  destruct (_ && _); [apply IH|].
  assert (E : gofrag rb (option_map (map_frag m) (ft_frag ft)) (mapg g) = mr (gofrag rb (ft_frag ft) g)).
  { destruct (ft_frag ft); cbn [option_map gofrag]; [apply map_bf|exact (Hrb BNilFrag g)]. }
  rewrite E. destruct (gofrag rb (ft_frag ft) g) as [[t|er|er|] g']; unfold mr at 1; cbn [fst snd]; try reflexivity.
  rewrite IH. destruct (gfrom_loop rb di fts d g') as [[] g2]; reflexivity.
Qed.
Lemma map_from : forall q d g, gfrom rb (map_qb m q) d (mapg g) = mr (gfrom rb q d g).
Proof.
  intros q d g. unfold gfrom.
  assert (E : from_tables (map_qb m q) = map (map_ft m) (from_tables q)).
  { unfold from_tables, map_qb. cbn [q_tobjs q_tables]. rewrite map_map. apply map_ext. intros id.
    change (mkFT ("", "") None false) with (map_ft m (mkFT ("", "") None false)) at 1. apply map_nth. }
  rewrite E. change (q_distinct (map_qb m q)) with (q_distinct q). rewrite map_from_loop.
  destruct (gfrom_loop rb _ _ d g) as [[] g']; reflexivity.
Qed.
Lemma map_orders : forall id g, gorders rb id (mapg g) = mr (gorders rb id g).
Proof.
  intros id g. unfold gorders. rewrite map_gget.
  change (q_orders (map_qb m (gget g id))) with (map (fun x => (map_b m (fst x), snd x)) (q_orders (gget g id))).
  pose proof (map_orders_loop (q_orders (gget g id)) 0 (gget g id) []) as E. cbn [map] in E. rewrite E. clear E.
  destruct (orders_loop 0 (q_orders (gget g id)) (gget g id) []) as [q' items]. cbn [fst snd].
  rewrite map_gset. exact (map_bf (Frag join_comma [] items "ORDER BY" "") (gset g id q')).
Qed.
Lemma map_selects : forall id g, gselects rb id (mapg g) = mr (gselects rb id g).
Proof.
  intros id g. unfold gselects. rewrite map_gget.
  change (q_distinct (map_qb m (gget g id))) with (q_distinct (gget g id)).
  set (q := gget g id). set (pre := if q_distinct q then "SELECT DISTINCT" else "SELECT").
  assert (E1 : with_prefix (q_selects (map_qb m q)) pre = map_frag m (with_prefix (q_selects q) pre)).
  { change (q_selects (map_qb m q)) with (map_frag m (q_selects q)). rewrite !map_frag_eq. reflexivity. }
  rewrite E1.
  assert (E2 : forall x, set_selects (map_qb m q) (map_frag m x) = map_qb m (set_selects q x)) by reflexivity.
  rewrite E2, map_gset, map_bf.
  destruct (rb (BFrag (with_prefix (q_selects q) pre)) _) as [[s|er|er|] g']; unfold mr at 1; cbn [fst snd]; try reflexivity.
  rewrite map_gget. change (q_touches (map_qb m (gget g' id))) with (map_frag m (q_touches (gget g' id))).
  rewrite map_bf. destruct (rb (BFrag (q_touches (gget g' id))) g') as [[t|er|er|] g2]; unfold mr at 1; cbn [fst snd]; try reflexivity.
  destruct (tempty s); [reflexivity|]. destruct (tempty t); reflexivity.
Qed.
Lemma map_union_loop : forall bs g, gunion_loop rb (map (map_b m) bs) (mapg g) = mr (gunion_loop rb bs g).
Proof.
  induction bs as [|b bs IH]; intros g; [reflexivity|]. cbn [map gunion_loop]. rewrite Hrb.
  destruct (rb b g) as [[t|er|er|] g']; unfold mr at 1; cbn [fst snd]; try reflexivity.
  rewrite IH. destruct (gunion_loop rb bs g') as [[] g2]; reflexivity.
Qed.
Lemma map_union : forall bs g, gunion rb (map (map_b m) bs) (mapg g) = mr (gunion rb bs g).
Proof. intros bs g. unfold gunion. rewrite map_union_loop. destruct (gunion_loop rb bs g) as [[] g']; reflexivity. Qed.

Lemma map_gbind : forall r k k', (forall t g, k' t (mapg g) = mr (k t g)) -> gbind (mr r) k' = mr (gbind r k).
Proof. intros [[] g] k k' H; try reflexivity. apply H. Qed.

Lemma map_internal : forall id g, ginternal rb id (mapg g) = mr (ginternal rb id g).
Proof.
  intros id g. unfold ginternal. rewrite map_gget.
  change (q_errors (map_qb m (gget g id))) with (q_errors (gget g id)).
  destruct (q_errors (gget g id)); [|reflexivity]. rewrite map_collect.
  destruct (collect_deps (gget g id)) as [d|er|er|]; try reflexivity.
  change (q_ctes (map_qb m (gget g id))) with (map (map_cte m) (q_ctes (gget g id))). rewrite map_ctes.
  apply map_gbind. intros sq g1. rewrite map_gget, map_from.
  apply map_gbind. intros fr g2. rewrite map_gget.
  change (q_conds (map_qb m (gget g2 id))) with (map_frag m (q_conds (gget g2 id))). rewrite map_bf.
  apply map_gbind. intros wh g3. rewrite map_gget.
  change (q_groups (map_qb m (gget g3 id))) with (map_frag m (q_groups (gget g3 id))). rewrite map_bf.
  apply map_gbind. intros gr g4. rewrite map_orders.
  apply map_gbind. intros ord g5. cbn zeta. rewrite map_gget.
  change (q_limit (map_qb m (gget g5 id))) with (q_limit (gget g5 id)).
  change (q_offset (map_qb m (gget g5 id))) with (q_offset (gget g5 id)).
  rewrite map_selects.
  apply map_gbind. intros sel g6. rewrite map_gget.
  change (q_unions (map_qb m (gget g6 id))) with (map (map_b m) (q_unions (gget g6 id))).
  destruct (q_unions (gget g6 id)) as [|u us]; [reflexivity|]. cbn [map].
  change (map_b m u :: map (map_b m) us) with (map (map_b m) (u :: us)). rewrite map_union.
  apply map_gbind. intros ut g7. reflexivity.
Qed.
End QB.

Theorem map_gbuild : forall n e b g, gbuild n e (map_b m b) (mapg g) = mr (gbuild n e b g).
Proof.
  induction n as [|n IH]; intros e b g; [reflexivity|].
  destruct b as [| |f| |[f|] t|t|x a|[id|]|p]; try reflexivity.
  - cbn [gbuild]. change (map_b m (BFrag f)) with (BFrag (map_frag m f)). cbn [gbuild]. apply map_build_frag. exact IH.
  - cbn [gbuild]. change (map_b m (BCol (Some f) t)) with (BCol (Some (map_frag m f)) t). cbn [gbuild]. apply map_build_frag. exact IH.
  - change (map_b m (BQuery (Some id))) with (BQuery (Some id)). cbn [gbuild]. apply map_internal. intros. apply IH.
Qed.
End Map.

(* ------------------------------------------------------------------ *)
(** * Mapped trees are library trees *)

Lemma map_lib : forall m b, lib all_values b = true -> lib all_values (map_b m b) = true.
Proof.
  intros m. fix IH 1. intros b.
  assert (G : forall f, (forall c, In c (f_frags f) -> lib all_values c = true -> lib all_values (map_b m c) = true) ->
    lib_frag all_values f = true -> lib_frag all_values (map_frag m f) = true).
  { intros f Hc H. rewrite map_frag_eq. destruct f as [raw args frags p s].
    cbn [f_raw f_args f_frags f_prefix f_suffix] in *.
    change (forallb all_values args && forallb (lib all_values) frags = true) in H.
    change (forallb all_values (map m args) && forallb (lib all_values) (map (map_b m) frags) = true).
    apply andb_prop in H as [_ H]. apply andb_true_intro. split.
    - apply forallb_forall. reflexivity.
    - rewrite forallb_forall in H |- *. intros c Hi. apply in_map_iff in Hi as [d [<- Hd]]. apply Hc; auto. }
  destruct b as [| |f| |[f|] t|t|x a|[id|]|p]; try reflexivity; try discriminate.
  - change (lib_frag all_values f = true -> lib_frag all_values (map_frag m f) = true). apply G.
    destruct f as [raw args frags pre suf]. cbn [f_frags].
    induction frags as [|c l IHl]; [intros c []|]. intros d [<-|Hd]; [apply IH|apply IHl; exact Hd].
  - change (lib_frag all_values f = true -> lib_frag all_values (map_frag m f) = true). apply G.
    destruct f as [raw args frags pre suf]. cbn [f_frags].
    induction frags as [|c l IHl]; [intros c []|]. intros d [<-|Hd]; [apply IH|apply IHl; exact Hd].
Qed.
Lemma map_lib_frag : forall m f, lib_frag all_values f = true -> lib_frag all_values (map_frag m f) = true.
Proof. intros m f H. exact (map_lib m (BFrag f) H). Qed.

Lemma map_lib_qb : forall m q, lib_qb all_values q = true -> lib_qb all_values (map_qb m q) = true.
Proof.
  intros m q. unfold lib_qb, map_qb. cbn [q_ctes q_tobjs q_selects q_touches q_conds q_groups q_orders q_unions q_debug].
  rewrite !andb_true_iff. rewrite !forallb_forall.
  intros ((((((((H1 & H2) & H3) & H4) & H5) & H6) & H7) & H8) & H9).
  repeat apply conj; try (apply map_lib_frag; assumption); try exact H9.
  - intros c Hc. apply in_map_iff in Hc as [c' [<- Hc']]. apply map_lib. apply (H1 c' Hc').
  - intros c Hc. apply in_map_iff in Hc as [c' [<- Hc']]. specialize (H2 c' Hc').
    unfold map_ft. cbn [ft_frag]. destruct (ft_frag c'); [apply map_lib_frag; exact H2|reflexivity].
  - intros c Hc. apply in_map_iff in Hc as [c' [<- Hc']]. apply map_lib. apply (H7 c' Hc').
  - intros c Hc. apply in_map_iff in Hc as [c' [<- Hc']]. apply map_lib. apply (H8 c' Hc').
Qed.
