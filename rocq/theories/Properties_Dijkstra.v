(** Properties C15, C16 and C17: class Dijkstra. *)
From Verif Require Import Base GraphSpec PathSpec GraphDec DijkstraModel DijkstraProofs DijkstraReset.

(** The promises a user makes: an adjacency array with matching tails, weights for
    every arc, waiting never pays off, and no shortest distance reaches inf_weight
    (the headers say that distances must stay below it). *)
Record dijkstra_input (g : graph) (w : nat -> N -> option N) (ss : list (nat * N)) : Prop := {
  di_graph : csr (node_count g) (g_first_out g) (g_head g);
  di_tail : tails_ok (g_first_out g) (g_tail g) (g_head g);
  di_weight : forall a t, a < length (g_head g) -> is_Some (w a t);
  di_fifo : fifo w;
  di_src : NoDup (fst <$> ss);
  di_src_lt : forall v t, (v, t) ∈ ss -> v < node_count g;
  di_bounded : forall v t, earliest (g_first_out g) (g_head g) w ss v t -> (t < inf_weight)%N }.

(** Constant weights satisfy the conditions on [w]. *)
Lemma scalar_input g ws ss :
  csr (node_count g) (g_first_out g) (g_head g) -> tails_ok (g_first_out g) (g_tail g) (g_head g) ->
  length ws = length (g_head g) -> NoDup (fst <$> ss) -> (forall v t, (v, t) ∈ ss -> v < node_count g) ->
  (forall v t, earliest (g_first_out g) (g_head g) (scalar_weight ws) ss v t -> (t < inf_weight)%N) ->
  dijkstra_input g (scalar_weight ws) ss.
Proof.
  intros H1 H2 Hl H3 H4 H5. split; try done.
  - intros a t Ha. apply lookup_lt_is_Some_2. by rewrite Hl.
  - apply scalar_fifo.
Qed.

Section run.
Context (g : graph) (w : nat -> N -> option N) (ss : list (nat * N)).
Hypothesis H : dijkstra_input g w ss.

(** The state before any [settle]. *)
Lemma start : exists d, add_sources (new_dijkstra g) ss = Some d /\ dinv (node_count g) g w ss [] d.
Proof.
  apply add_sources_spec; first [apply (di_src _ _ _ H)|apply (di_src_lt _ _ _ H)|apply dinv_new; apply H|apply H].
  Unshelve. all: apply H.
Qed.
End run.

(** * C15 *)
(** After every number [k] of calls of [settle], whatever was settled is settled with
    its final, optimal distance, in non-decreasing order, each node once; nodes not yet
    settled report inf_weight; and when the queue is empty everything reachable has
    been settled. *)
Theorem C15_every_prefix : forall g w ss k rs d0 d,
  dijkstra_input g w ss ->
  add_sources (new_dijkstra g) ss = Some d0 -> settle_n k d0 w = Some (rs, d) ->
  NoDup (fst <$> rs) /\
  (forall i j v t v' t', i <= j -> rs !! i = Some (v, t) -> rs !! j = Some (v', t') -> (t <= t')%N) /\
  (forall v t, (v, t) ∈ rs ->
     earliest (g_first_out g) (g_head g) w ss v t /\ was_node_reached d v = Some true /\ get_distance_to d v = Some t) /\
  (forall v, v < node_count g -> v ∉ fst <$> rs ->
     was_node_reached d v = Some false /\ get_distance_to d v = Some inf_weight) /\
  (is_finished d = false -> exists v t d', settle d w = Some ((v, t), d')) /\
  (is_finished d = true -> forall v, (exists t, reachable_at (g_first_out g) (g_head g) w ss v t) -> v ∈ fst <$> rs).
Proof.
  intros g w ss k rs d0 d H E0 E.
  destruct (start g w ss H) as (d0' & E0' & Hd0). rewrite E0 in E0'. injection E0' as <-.
  destruct (settle_n_inv (node_count g) g w (di_graph _ _ _ H) (di_tail _ _ _ H) (di_weight _ _ _ H) (di_fifo _ _ _ H) ss (di_bounded _ _ _ H) k [] d0 rs d Hd0 E)
    as [Hd _]. cbn [app] in Hd.
  pose proof Hd as [Hg _ _ Hf (m & Hq & C)].
  split; [apply C|]. split; [apply (c_sorted _ _ _ _ _ _ _ _ C)|]. split; [|split; [|split]].
  - intros v t Hv. split; [by apply (c_earliest _ _ _ _ _ _ _ _ C)|]. split; [|by eapply get_distance_settled].
    unfold was_node_reached. rewrite (IdSetProofs.is_set_spec _ _ _ _ Hf) by (by eapply (c_ord_lt _ _ _ _ _ _ _ _ C)).
    rewrite bool_decide_eq_true_2; [done|]. apply elem_of_list_to_set, elem_of_list_fmap. by exists (v, t).
  - intros v Hv Hno. split; [|by eapply get_distance_unsettled].
    unfold was_node_reached. rewrite (IdSetProofs.is_set_spec _ _ _ _ Hf) by done.
    rewrite bool_decide_eq_false_2; [done|]. intros Hin. apply Hno. by apply elem_of_list_to_set in Hin.
  - intros Hfin. destruct (settle_spec _ _ _ (di_graph _ _ _ H) (di_tail _ _ _ H) (di_weight _ _ _ H) (di_fifo _ _ _ H) ss rs d (di_bounded _ _ _ H) Hd Hfin)
      as (x & t & d' & Es & _). eauto.
  - intros Hfin v Hr. eapply (finished_reached _ _ _ (di_weight _ _ _ H) (di_fifo _ _ _ H)); done.
Qed.
Print Assumptions C15_every_prefix.

(** Settling until [is_finished] terminates after at most node_count steps, and then
    [get_distance_to] is the shortest distance, or inf_weight iff there is no path. *)
Theorem C15_distances : forall g w ss, dijkstra_input g w ss ->
  exists d0 k rs d, add_sources (new_dijkstra g) ss = Some d0 /\
    k <= node_count g /\ settle_n k d0 w = Some (rs, d) /\ is_finished d = true /\
    forall v, v < node_count g -> exists t, get_distance_to d v = Some t /\
      ((t < inf_weight)%N /\ earliest (g_first_out g) (g_head g) w ss v t \/
       t = inf_weight /\ forall t', ~ reachable_at (g_first_out g) (g_head g) w ss v t').
Proof.
  intros g w ss H. destruct (start g w ss H) as (d0 & E0 & Hd0).
  destruct (settle_all _ _ _ (di_graph _ _ _ H) (di_tail _ _ _ H) (di_weight _ _ _ H) (di_fifo _ _ _ H) ss d0 (di_bounded _ _ _ H) Hd0) as (k & rs & d & Hk & E & Hfin).
  exists d0, k, rs, d. do 4 (split; [done|]). intros v Hv.
  destruct (C15_every_prefix g w ss k rs d0 d H E0 E) as (_ & _ & Hs & Hu & _ & Hc).
  destruct (decide (v ∈ fst <$> rs)) as [Hin|Hno].
  - apply elem_of_list_fmap in Hin as ([v' t] & -> & Hin). exists t. destruct (Hs _ _ Hin) as (He & _ & Hd).
    split; [done|]. left. split; [by eapply (di_bounded _ _ _ H)|done].
  - exists inf_weight. split; [by apply Hu|]. right. split; [done|]. intros t' Hr. apply Hno, Hc; eauto.
Qed.
Print Assumptions C15_distances.

(** * C16 *)
(** The paths of settled nodes are walks of the graph from a source whose arrival time
    is the reported distance; other nodes have an empty path. *)
Theorem C16_paths : forall g w ss k rs d0 d v,
  dijkstra_input g w ss -> v < node_count g ->
  add_sources (new_dijkstra g) ss = Some d0 -> settle_n k d0 w = Some (rs, d) ->
  (v ∈ fst <$> rs -> exists s t0 arcs t,
     get_arc_path_to d v = Some arcs /\ get_node_path_to d v = Some (walk_nodes (g_head g) s arcs) /\
     (s, t0) ∈ ss /\ walk (g_first_out g) (g_head g) s arcs v /\
     arrival w t0 arcs = Some t /\ get_distance_to d v = Some t) /\
  (v ∉ fst <$> rs -> get_arc_path_to d v = Some [] /\ get_node_path_to d v = Some []).
Proof.
  intros g w ss k rs d0 d v H Hv E0 E.
  destruct (start g w ss H) as (d0' & E0' & Hd0). rewrite E0 in E0'. injection E0' as <-.
  destruct (settle_n_inv _ _ _ (di_graph _ _ _ H) (di_tail _ _ _ H) (di_weight _ _ _ H) (di_fifo _ _ _ H) ss (di_bounded _ _ _ H) k [] d0 rs d Hd0 E)
    as [Hd _]. cbn [app] in Hd. split.
  - intros ([v' t] & -> & Hin)%elem_of_list_fmap. cbn [fst] in *.
    destruct (paths_correct _ _ _ (di_graph _ _ _ H) (di_tail _ _ _ H) (di_weight _ _ _ H) ss rs d v' t Hd Hin) as (s & t0 & arcs & Ha & Hn & Hs & Hw & Harr).
    exists s, t0, arcs, t. split; [done|]. split; [done|]. split; [done|]. split; [done|]. split; [done|].
    by eapply get_distance_settled.
  - intros Hno. by eapply paths_unreached.
Qed.
Print Assumptions C16_paths.

(** Five nodes, node 4 cannot be reached, arc 3 may not be used, two sources. *)
Definition ex_graph : graph := mkGraph [0; 2; 4; 5; 6; 7] [0; 0; 1; 1; 2; 3; 4] [1; 2; 2; 3; 3; 0; 0].
Definition ex_weight : list N := [7; 2; 4; 2147483647; 3; 1; 5]%N.
Definition ex_src : list (nat * N) := [(0, 10%N); (1, 14%N)].

Lemma ex_input : dijkstra_input ex_graph (scalar_weight ex_weight) ex_src.
Proof.
  apply scalar_input.
  - by apply csrb_ok.
  - by apply tailsb_ok.
  - done.
  - cbn. repeat constructor; set_solver.
  - intros v t Hv. vm_compute. repeat (apply elem_of_cons in Hv as [[= -> ->]|Hv]; [lia|]). by apply elem_of_nil in Hv.
  - intros v t [(s & t0 & arcs & Hs & Hw & Ha) Hmin].
    assert (Hreach : forall a arcs s t0 u, (s, t0) ∈ ex_src -> walk (g_first_out ex_graph) (g_head ex_graph) s arcs u ->
      arrival (scalar_weight ex_weight) t0 arcs = Some a -> u = v -> (a < inf_weight)%N -> (t < inf_weight)%N).
    { intros a arcs' s' t' u Hs' Hw' Ha' -> Hlt. eapply N.le_lt_trans; [|exact Hlt]. apply Hmin. by exists s', t', arcs'. }
    assert (Harc : forall x y e, out_arc (g_first_out ex_graph) x e -> g_head ex_graph !! e = Some y ->
       (x, y, e) ∈ [(0,1,0); (0,2,1); (1,2,2); (1,3,3); (2,3,4); (3,0,5); (4,0,6)]).
    { intros x y e (lo & hi & Hlo & Hhi & He) Hh.
      do 5 (destruct x as [|x]; [cbn in Hlo, Hhi; simplify_eq;
        do 7 (destruct e as [|e]; [first [lia|cbn in Hh; simplify_eq; repeat constructor]|]); lia|]).
      cbn in Hhi. done. }
    assert (v < 4) as Hv.
    { clear Ha. induction arcs as [|a arcs _] using rev_ind.
      - cbn in Hw. subst v. repeat (apply elem_of_cons in Hs as [[= -> ->]|Hs]; [lia|]). by apply elem_of_nil in Hs.
      - apply walk_app in Hw as (y & _ & x & [Ho Hh] & ->). specialize (Harc _ _ _ Ho Hh).
        repeat (apply elem_of_cons in Harc as [[= -> -> ->]|Harc]; [lia|]). by apply elem_of_nil in Harc. }
    assert (forall x y e, (lo ← g_first_out ex_graph !! x; hi ← g_first_out ex_graph !! S x;
       (if decide (lo <= e < hi) then g_head ex_graph !! e else None)) = Some y -> arc_from_to (g_first_out ex_graph) (g_head ex_graph) x y e) as Hmk.
    { intros x y e. destruct (g_first_out ex_graph !! x) as [lo|] eqn:El; [|done]. rewrite bind_S.
      destruct (g_first_out ex_graph !! S x) as [hi|] eqn:Eh; [|done]. rewrite bind_S. case_decide; [|done].
      intros Hy. split; [by exists lo, hi|done]. }
    destruct v as [|[|[|[|v]]]]; [| | | |lia].
    + apply (Hreach 10%N [] 0 10%N 0); [set_solver|done|done|done|done].
    + apply (Hreach 14%N [] 1 14%N 1); [set_solver|done|done|done|done].
    + apply (Hreach 12%N [1] 0 10%N 2); [set_solver| |done|done|done]. exists 2. split; [by apply Hmk|done].
    + apply (Hreach 15%N [1;4] 0 10%N 3); [set_solver| |done|done|done]. exists 2. split; [by apply Hmk|].
      exists 3. split; [by apply Hmk|done].
Qed.

Example C15_ex : exists d0 d, add_sources (new_dijkstra ex_graph) ex_src = Some d0 /\
  settle_n 4 d0 (scalar_weight ex_weight) = Some ([(0, 10%N); (2, 12%N); (1, 14%N); (3, 15%N)], d) /\
  is_finished d = true /\ get_distance_to d 3 = Some 15%N /\ get_distance_to d 4 = Some inf_weight /\
  get_arc_path_to d 3 = Some [1; 4] /\ get_node_path_to d 3 = Some [0; 2; 3].
Proof. eexists _, _. do 6 (split; [vm_compute; reflexivity|]). vm_compute. reflexivity. Qed.

(** * C17 *)
(** Whatever was done with an object, after [reset] (or [reset] to another graph) all
    further calls, including illegal ones, return the same as with a new object. *)
Theorem C17_reset : forall g1 history rs d os,
  wf_graph g1 -> Forall op_wf history -> Forall op_wf os -> d_run (new_dijkstra g1) history = Some (rs, d) ->
  exists d', d_reset d = Some d' /\ fst <$> d_run d' os = fst <$> d_run (new_dijkstra (d_graph d)) os.
Proof. exact reset_like_new. Qed.
Print Assumptions C17_reset.

Theorem C17_reset_to_graph : forall g1 history rs d g2 os,
  wf_graph g1 -> wf_graph g2 -> Forall op_wf history -> Forall op_wf os ->
  d_run (new_dijkstra g1) history = Some (rs, d) ->
  exists d', d_reset_graph d g2 = Some d' /\ fst <$> d_run d' os = fst <$> d_run (new_dijkstra g2) os.
Proof. exact reset_graph_like_new. Qed.
Print Assumptions C17_reset_to_graph.

Definition ex_history : list dop :=
  [DSource 1 3; DSettle (scalar_weight ex_weight); DSettle (scalar_weight ex_weight); DDist 2; DReset;
   DSource 3 0; DSettle (scalar_weight ex_weight)].
Example C17_ex : wf_graph ex_graph /\ Forall op_wf ex_history /\
  (exists d, d_run (new_dijkstra ex_graph) ex_history =
     Some ([DUnit; DPair 1 3; DPair 2 7; DNum 7; DUnit; DUnit; DPair 3 0], d)) /\
  (exists d d', d_run (new_dijkstra ex_graph) ex_history = Some ([DUnit; DPair 1 3; DPair 2 7; DNum 7; DUnit; DUnit; DPair 3 0], d) /\
     d_reset d = Some d' /\
     fst <$> d_run d' [DReached 3; DDist 0; DSource 0 1; DSettle (scalar_weight ex_weight); DDist 0; DFinished] =
       Some [DBool false; DNum 2147483647; DUnit; DPair 0 1; DNum 1; DBool false]).
Proof.
  split; [split; [by apply csrb_ok|by apply tailsb_ok]|]. split; [repeat constructor|]. split.
  - eexists. vm_compute. reflexivity.
  - eexists _, _. split; [vm_compute; reflexivity|]. split; [vm_compute; reflexivity|]. vm_compute. reflexivity.
Qed.
