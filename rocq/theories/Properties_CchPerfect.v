(** Theorems about perfect customization of CCHs. *)
From Verif Require Import Base UtilSpec GraphSpec PathSpec CchModel CchSpec CchBuildModel CchPerfectModel CchFilterProofs CchApiSpec CchTransferProofs ChCleanSpec ChBuildModel ChSpec ChCheckSpec
  CchPerfectProofs CchPerfectChProofs ChQueryModel ChApiSpec ChApiProofs Properties_Cch Properties_ChQuery WalkSpec.
Ltac Zify.zify_post_hook ::= idtac.

(** * C28 *)
(** Perfect customization of a CCH that keeps all arcs ends with the weight of every arc, in both
    directions, being the length of a shortest walk between its end points, or inf_weight. *)
Theorem C28_exact : forall asserts log order tail head c w m0,
  graph_input order tail head -> build_cch asserts log false order tail head = Some c -> weights_for tail w ->
  length (m_fwd m0) = length (up_head c) -> length (m_bwd m0) = length (up_head c) ->
  exists s, perfect_weights c w m0 = Some s /\
    forall a u v, up_tail c !! a = Some (rk c u) -> up_head c !! a = Some (rk c v) -> u < length order -> v < length order ->
    exists f b, m_fwd (ps_m s) !! a = Some f /\ m_bwd (ps_m s) !! a = Some b /\
      shortest_capped (fun L => exists k, gw (arcs_of tail head w) (fun _ => True) u v L k) f /\
      shortest_capped (fun L => exists k, gw (arcs_of tail head w) (fun _ => True) v u L k) b.
Proof.
  intros asserts log order tail head c w m0 HG HB HW H1 H2.
  destruct (perfect_spec asserts true log order tail head c w m0 HG HB HW H1 H2) as (s & h & ok & Es & _ & _ & _ & _ & _ & Hd).
  exists s. split; [done|]. intros a u v Hu Hv Hun Hvn. destruct (Hd true a u v) as (f & Hf & Sf); [done..|]. destruct (Hd false a u v) as (b & Hb & Sb); [done..|].
  exists f, b. done.
Qed.
Print Assumptions C28_exact.

(** Building the contraction hierarchy succeeds, no assertion fails and no exception is thrown, if the ids of the
    input arcs are valid ids. The result is a contraction hierarchy of the input graph, so that C29, C30, C31, C33
    and C42 apply to it. *)
Theorem C28_hierarchy : forall asserts asserts' log order tail head c w m0,
  graph_input order tail head -> build_cch asserts log false order tail head = Some c -> weights_for tail w ->
  length (m_fwd m0) = length (up_head c) -> length (m_bwd m0) = length (up_head c) -> (N.of_nat (length tail) <= last_id)%N ->
  exists h, build_ch_perfect asserts' c w m0 = Some (Some h) /\ ch_ok (length order) tail head w h /\ ch_of (length order) tail head w h.
Proof.
  intros asserts asserts' log order tail head c w m0 HG HB HW H1 H2 Hid.
  destruct (perfect_spec asserts asserts' log order tail head c w m0 HG HB HW H1 H2) as (s & h & ok & _ & Eh & Hok & Hc & W1 & W2 & _).
  rewrite (Hok Hid) in Eh. exists h. split; [done|]. split; [done|]. destruct HG as (G1 & G2 & G3 & G4), HW as [W3 W4].
  split; [|split; [|done]]; [split; [done|]; split; [congruence|done]|].
  exists asserts', 0. right. right. right. left. exists asserts, log, order, c, m0. do 6 (split; [done|]). done.
Qed.
Print Assumptions C28_hierarchy.

(** The distances that queries find in it are those that the CCH queries find. *)
Lemma best_route_unique E ss ts a b : best_route E ss ts a -> best_route E ss ts b -> a = b.
Proof.
  intros (Ha & Ma & Aa) (Hb & Mb & Ab).
  assert (a <= b)%N. { destruct Ab as [->|(s & ds & t & dt & L & ? & ? & ? & ->)]; [done|eauto]. }
  assert (b <= a)%N. { destruct Aa as [->|(s & ds & t & dt & L & ? & ? & ? & ->)]; [done|eauto]. }
  lia.
Qed.
Theorem C28_same_distances : forall asserts asserts' log order tail head c w m0 m h c0 ops ops' ss ts,
  graph_input order tail head -> build_cch asserts log false order tail head = Some c ->
  length (m_fwd m0) = length (up_head c) -> length (m_bwd m0) = length (up_head c) ->
  build_ch_perfect asserts' c w m0 = Some (Some h) -> customized_for tail c w m ->
  history (length order) c (GInit [] []) ops (GRun m ss ts) -> any_ch c0 -> khistory any_ch (c0, KInit [] []) ops' (h, KDone ss ts) ->
  exists q q' best, exec_all c ops (new_query c) = Some q /\ kexec_all ops' (new_cquery c0) = Some q' /\
    q_get_distance q = Some best /\ cq_distance q' = Some best.
Proof.
  intros asserts asserts' log order tail head c w m0 m h c0 ops ops' ss ts HG HB H1 H2 Eh HM Hops H0 Hops'.
  assert (weights_for tail w) as HW by apply HM.
  destruct (perfect_spec asserts asserts' log order tail head c w m0 HG HB HW H1 H2) as (s & h' & ok & _ & Eh' & _ & Hc & W1 & W2 & _).
  rewrite Eh in Eh'. destruct ok; [|done]. injection Eh' as <-.
  assert (ch_of (length order) tail head w h) as HC.
  { destruct HG as (G1 & G2 & G3 & G4), HW as [W3 W4]. split; [|split; [|done]]; [split; [done|]; split; [congruence|done]|].
    exists asserts', 0. right. right. right. left. exists asserts, log, order, c, m0. do 6 (split; [done|]). done. }
  destruct (C22_query order tail head c w m ops ss ts) as (q & best & Eq & Hq & Hbest & _); [split; [done|]; eauto|done|done|].
  destruct (C29_query (length order) tail head w h c0 ops' ss ts H0 HC Hops') as (q' & best' & Eq' & Hq' & Hbest' & _).
  exists q, q', best. do 3 (split; [done|]). by rewrite (best_route_unique _ _ _ _ _ Hbest Hbest').
Qed.
Print Assumptions C28_same_distances.

(** The graph and order of C20 without the filter: 8 arcs, of which 5 are kept forwards and 4 backwards. Arc 6
    from node 2 to node 4 is lowered backwards from 14 to 11 (4, 0, 1, 2) and dropped, arc 2 from node 0 to
    node 2 forwards from the 9 of its input arc to 6. Node 3 is reached from 0 at cost 13. *)
Definition pe_cch : cch := Eval vm_compute in default (mkCch [] [] [] [] [] [] [] [] [] [] [] [] [] [] [] [] [] [] []) (build_cch true true false ex_order ex_tail ex_head).
Definition pe_state : pstate := Eval vm_compute in default (mkPstate (mkMetric [] []) [] []) (perfect_weights pe_cch ex_w (new_metric pe_cch)).
Definition pe_ch : ch := Eval vm_compute in match build_ch_perfect true pe_cch ex_w (new_metric pe_cch) with Some (Some h) => h | _ => mkCh [] [] no_side no_side end.

Example C28_ex : graph_input ex_order ex_tail ex_head /\ build_cch true true false ex_order ex_tail ex_head = Some pe_cch /\ weights_for ex_tail ex_w /\
  (N.of_nat (length ex_tail) <= last_id)%N /\
  (exists m, customize pe_cch ex_w (new_metric pe_cch) = Some m /\ m_bwd m !! 6 = Some 14%N /\ m_fwd m !! 2 = Some 9%N) /\
  perfect_weights pe_cch ex_w (new_metric pe_cch) = Some pe_state /\ m_bwd (ps_m pe_state) !! 6 = Some 11%N /\ m_fwd (ps_m pe_state) !! 2 = Some 6%N /\
  build_ch_perfect true pe_cch ex_w (new_metric pe_cch) = Some (Some pe_ch) /\
  length (cs_head (ch_fwd pe_ch)) = 5 /\ length (cs_head (ch_bwd pe_ch)) = 4 /\
  (q ← kexec_all [KSource 0 0%N; KTarget 3 0%N; KRun] (new_cquery pe_ch); cq_distance q) = Some 13%N.
Proof.
  split; [apply ex_input|]. split; [vm_compute; reflexivity|]. split; [apply ex_weights|]. split; [vm_compute; discriminate|].
  split; [eexists; vm_compute; done|]. do 6 (split; [vm_compute; reflexivity|]). vm_compute. reflexivity.
Qed.
Lemma pe_ch_of : any_ch pe_ch.
Proof.
  destruct (C28_hierarchy true true true ex_order ex_tail ex_head pe_cch ex_w (new_metric pe_cch)) as (h & E & _ & H);
    [apply ex_input|vm_compute; reflexivity|apply ex_weights|vm_compute; reflexivity|vm_compute; reflexivity|vm_compute; discriminate|].
  assert (build_ch_perfect true pe_cch ex_w (new_metric pe_cch) = Some (Some pe_ch)) as E' by (vm_compute; reflexivity).
  rewrite E in E'. injection E' as <-. by exists (length ex_order), ex_tail, ex_head, ex_w.
Qed.
(** Both kinds of queries with two sources. *)
Definition pe_metric : metric := Eval vm_compute in default (mkMetric [] []) (customize pe_cch ex_w (new_metric pe_cch)).
Example C28_same_distances_ex : customized_for ex_tail pe_cch ex_w pe_metric /\
  history (length ex_order) pe_cch (GInit [] []) [AddSource 0 2%N; AddSource 2 20%N; AddTarget 3 1%N; RunQ pe_metric] (GRun pe_metric [(2, 20%N); (0, 2%N)] [(3, 1%N)]) /\
  khistory any_ch (pe_ch, KInit [] []) [KSource 0 2%N; KSource 2 20%N; KTarget 3 1%N; KRun] (pe_ch, KDone [(2, 20%N); (0, 2%N)] [(3, 1%N)]).
Proof.
  split; [|split].
  - split; [apply ex_weights|]. exists (new_metric pe_cch). split; [vm_compute; reflexivity|]. split; vm_compute; reflexivity.
  - do 3 (eapply hi_cons; [constructor; (cbn; lia || vm_compute; discriminate)|]). eapply hi_cons; [constructor|constructor].
    split; [vm_compute; reflexivity|]. split; [vm_compute; reflexivity|]. split; apply below_forallb; vm_compute; reflexivity.
  - do 2 (eapply kh_cons; [apply ka_source; [vm_compute; lia|vm_compute; discriminate]|]).
    eapply kh_cons; [apply ka_target; [vm_compute; lia|vm_compute; discriminate]|]. eapply kh_cons; [by apply ka_run|]. constructor.
Qed.

(** * The filter *)
(** If arcs that are always infinite were removed (an option of the constructor, off by default), neither holds: the
    triangle inequalities no longer imply that weights are distances, and a kept arc may lose its lower halves.
    Here node 3 is reached from node 1 along 1, 2, 4, 0, 3 at cost 4, but the arc between them ends up with 51, and
    its lower half from 1 to 0 is not kept. The construction ends with an exception; with assertions one fails. *)
Definition pf_order := [0;1;2;3;4].
Definition pf_tail := [1;2;4;0;1;1].
Definition pf_head := [2;4;0;3;0;4].
Definition pf_w := [1;1;1;1;50;100]%N.
Theorem C28_filtered_refuted : exists order tail head c w s a u v y L,
  graph_input order tail head /\ build_cch true true true order tail head = Some c /\ weights_for tail w /\
  (build_ch_perfect false c w (new_metric c) = Some None /\ build_ch_perfect true c w (new_metric c) = None) /\
  perfect_weights c w (new_metric c) = Some s /\ up_tail c !! a = Some (rk c u) /\ up_head c !! a = Some (rk c v) /\
  m_fwd (ps_m s) !! a = Some y /\ (exists k, gw (arcs_of tail head w) (fun _ => True) u v L k) /\ (L < y)%N.
Proof.
  destruct (build_cch true true true pf_order pf_tail pf_head) as [c|] eqn:Ec; [|by vm_compute in Ec].
  destruct (perfect_weights c pf_w (new_metric c)) as [s|] eqn:Es; [|vm_compute in Ec; injection Ec as <-; by vm_compute in Es].
  exists pf_order, pf_tail, pf_head, c, pf_w, s, 4, 1, 3, 51%N, 4%N.
  split.
  { split; [|split; [done|split; repeat (constructor; [cbn; lia|]); constructor]]. unfold perm. change (seq 0 (length pf_order)) with pf_order. reflexivity. }
  split; [exact Ec|]. split; [split; [reflexivity|]; repeat (constructor; [vm_compute; discriminate|]); constructor|].
  vm_compute in Ec. injection Ec as <-. split; [split; vm_compute; reflexivity|]. split; [exact Es|]. vm_compute in Es. injection Es as <-.
  do 3 (split; [vm_compute; reflexivity|]). split; [|done].
  exists 4. apply (gw_step _ _ 1 2 3 1%N 3%N 3); [by exists 0|done|]. apply (gw_step _ _ 2 4 3 1%N 2%N 2); [by exists 1|done|].
  apply (gw_step _ _ 4 0 3 1%N 1%N 1); [by exists 2|done|]. apply gw_arc. by exists 3.
Qed.
Print Assumptions C28_filtered_refuted.
