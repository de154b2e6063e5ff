(** Theorems about customizable contraction hierarchies. *)
From stdpp Require Import gmap.
From Verif Require Import Base UtilSpec GraphSpec PathSpec WalkSpec IdSetModel IdSetProofs CchModel CchSpec CchCustomizeProofs CchTriangleProofs
  CchPartialProofs CchQueryProofs CchUnpackProofs CchPinProofs CchBuildModel CchChordalProofs CchBuildProofs CchFilterProofs
  CchApiSpec CchApiProofs CchTransferProofs CchResetProofs.
Ltac Zify.zify_post_hook ::= idtac.

(** * C20 *)
(** customize() succeeds on every metric object and leaves in every arc the length of a shortest walk
    between its end points through nodes of lower rank only, in both directions, or inf_weight. *)
Theorem C20_customize : forall order tail head c w m0,
  cch_of order tail head c -> weights_for tail w -> length (m_fwd m0) = length (up_head c) -> length (m_bwd m0) = length (up_head c) ->
  exists m, customize c w m0 = Some m /\
    length (m_fwd m) = length (up_head c) /\ length (m_bwd m) = length (up_head c) /\
    forall a u v, up_tail c !! a = Some (rk c u) -> up_head c !! a = Some (rk c v) -> u < length order -> v < length order ->
    exists f b, m_fwd m !! a = Some f /\ m_bwd m !! a = Some b /\
      shortest_capped (fun L => exists k, gw (arcs_of tail head w) (fun x => rk c x < rk c u) u v L k) f /\
      shortest_capped (fun L => exists k, gw (arcs_of tail head w) (fun x => rk c x < rk c u) v u L k) b.
Proof.
  intros order tail head c w m0 HC [Hw Hi] H1 H2. destruct (cch_of_built _ _ _ _ HC) as (rt & rh & B).
  pose proof (bu_wf _ _ _ _ _ _ B) as WF.
  assert (forall e x, w !! e = Some x -> (x <= inf_weight)%N) as Hwi by (intros e x Hx; by eapply Forall_lookup_1 in Hi; [|exact Hx]).
  assert (length w = length rt) as Hw' by (by rewrite (built_len _ _ _ _ _ _ B)).
  destruct (customize_spec _ rt rh c WF w Hw' Hwi m0 H1 H2) as (m & E & CU).
  exists m. split; [done|]. split; [apply CU|]. split; [apply CU|].
  intros a u v Ha Hb Hu Hv. assert (up_arc c a (rk c u) (rk c v)) as Hup by done.
  destruct (up_arc_lt _ _ _ _ WF _ _ _ Hup) as (Hlt & Huv & _).
  assert (forall d, exists x, dw m d a = Some x /\ shortest_capped (fun L => exists k, gw (dgraph rt rh w d) (fun y => y < rk c u) (rk c u) (rk c v) L k) x) as Hd.
  { intros d. destruct (lookup_lt_is_Some_2 (if d then m_fwd m else m_bwd m) a) as [x Hx]; [destruct d; [rewrite (cu_fwd _ _ _ _ _ CU)|rewrite (cu_bwd _ _ _ _ _ CU)]; done|].
    assert (dw m d a = Some x) as Hx' by (by destruct d). exists x. split; [done|].
    pose proof (cu_inf _ _ _ _ _ CU _ _ _ Hx') as Hle. split; [done|]. split.
    - intros L (k & Hk). destruct (decide (L < inf_weight)%N) as [HL|]; [|lia].
      destruct (cu_complete _ _ _ _ WF _ _ CU k d _ _ L Huv Hk HL) as (a' & x' & Ha' & Hx'' & HxL).
      rewrite (up_arc_unique _ _ _ _ WF _ _ _ _ Hup Ha') in Hx'. rewrite Hx' in Hx''. by simplify_eq.
    - destruct (decide (x < inf_weight)%N) as [Hxi|]; [|left; lia]. right. by eapply (cu_sound _ _ _ _ WF _ _ CU). }
  destruct (Hd true) as (f & Hf & Sf1 & Sf2 & Sf3), (Hd false) as (b & Hb' & Sb1 & Sb2 & Sb3).
  exists f, b. split; [done|]. split; [done|]. split; (split; [done|]); split.
  - intros L (k & Hk). apply Sf2. exists k. by apply (gw_fwd _ _ _ _ _ _ B w u v (fun y => y < rk c u)).
  - destruct Sf3 as [|(k & Hk)]; [by left|]. right. exists k.
    by apply (gw_back _ _ _ _ _ _ B w _ _ (fun y => y < rk c u) _ _ Hk).
  - intros L (k & Hk). apply Sb2. exists k. apply gw_rev. by apply (gw_fwd _ _ _ _ _ _ B w v u (fun y => y < rk c u)).
  - destruct Sb3 as [|(k & Hk)]; [by left|]. right. exists k. apply gw_rev' in Hk.
    by apply (gw_back _ _ _ _ _ _ B w _ _ (fun y => y < rk c u) _ _ Hk).
Qed.
Print Assumptions C20_customize.

(** The weights satisfy the customization equations: inf_weight, the input arcs and the lower
    triangles bound every weight, and one of them is attained; sums are sums of natural numbers. *)
Theorem C20_equations : forall order tail head c w m,
  cch_of order tail head c -> customized_for tail c w m ->
  exists rt rh, ranked (c_rank c) tail rt /\ ranked (c_rank c) head rh /\ customized rt rh c w m.
Proof.
  intros order tail head c w m HC HM. destruct (cch_of_built _ _ _ _ HC) as (rt & rh & B).
  exists rt, rh. split; [apply B|]. split; [apply B|]. by eapply metric_of.
Qed.
Print Assumptions C20_equations.

Definition ex_order := [3;0;2;1;4].
Definition ex_tail := [0;1;2;3;4;0;3;3;2].
Definition ex_head := [1;2;3;4;0;2;4;3;1].
Definition ex_w := [4;2;7;1;5;9;3;2;6]%N.
Definition ex_cch : cch := Eval vm_compute in default (mkCch [] [] [] [] [] [] [] [] [] [] [] [] [] [] [] [] [] [] []) (build_cch true false true ex_order ex_tail ex_head).
Definition ex_metric : metric := Eval vm_compute in default (mkMetric [] []) (customize ex_cch ex_w (new_metric ex_cch)).
Lemma ex_input : graph_input ex_order ex_tail ex_head.
Proof.
  split; [|split; [done|split; repeat (constructor; [cbn; lia|]); constructor]].
  unfold perm. change (seq 0 (length ex_order)) with [0;1;2;3;4]. unfold ex_order. apply NoDup_Permutation.
  - by apply (bool_decide_unpack _); vm_compute.
  - by apply (bool_decide_unpack _); vm_compute.
  - intros x. rewrite !elem_of_cons, elem_of_nil. tauto.
Qed.
Lemma ex_cch_of : cch_of ex_order ex_tail ex_head ex_cch.
Proof. split; [apply ex_input|]. exists true, false, true. vm_compute. reflexivity. Qed.
Lemma ex_weights : weights_for ex_tail ex_w.
Proof. split; [done|]. repeat (constructor; [vm_compute; discriminate|]). constructor. Qed.
Lemma ex_customized : customized_for ex_tail ex_cch ex_w ex_metric.
Proof.
  split; [apply ex_weights|]. exists (new_metric ex_cch). split; [vm_compute; reflexivity|]. split; [vm_compute; reflexivity|].
  vm_compute. reflexivity.
Qed.
(** Arc 6 joins nodes 2 and 4 (ranks 2 and 4): it has no input arc; forwards 2, 3, 4 costs 7 + 1,
    backwards 4, 0, 2 costs 5 + 9. *)
Example C20_ex : cch_of ex_order ex_tail ex_head ex_cch /\ customized_for ex_tail ex_cch ex_w ex_metric /\
  up_tail ex_cch !! 6 = Some (rk ex_cch 2) /\ up_head ex_cch !! 6 = Some (rk ex_cch 4) /\
  has_input ex_cch !! 6 = Some false /\ m_fwd ex_metric !! 6 = Some 8%N /\ m_bwd ex_metric !! 6 = Some 14%N /\
  m_fwd ex_metric !! 1 = Some 1%N /\ has_extra ex_cch !! 1 = Some true /\ m_bwd ex_metric !! 1 = Some inf_weight.
Proof.
  split; [apply ex_cch_of|]. split; [apply ex_customized|]. do 7 (split; [vm_compute; reflexivity|]). vm_compute. reflexivity.
Qed.

(** * C21 *)
(** [U] is the graph after eliminating the nodes in order: it contains all links, is closed under
    fill-in and every link of it comes from a path through lower nodes. The elimination tree is that
    of [U]. Unfiltered the arcs are [U]; filtered those that some directed low path uses. *)
Theorem C21_chordal : forall asserts log filter order tail head c,
  graph_input order tail head -> build_cch asserts log filter order tail head = Some c ->
  c_order c = order /\ inverse_of order (c_rank c) /\
  exists U : nat -> nat -> Prop,
    (forall x y, U x y -> x < y < length order) /\
    (forall x y, x < y -> rlink c tail head x y -> U x y) /\
    (forall x y z, U x y -> U x z -> y < z -> U y z) /\
    (forall x y, U x y -> low_path (rlink c tail head) x x y) /\
    (forall x y, c_parent c !! x = Some (Some y) <-> U x y /\ forall z, U x z -> y <= z) /\
    (forall x y, U x y -> ancestor (c_parent c) x y) /\
    (forall u v, (exists a, up_arc c a u v) <->
      U u v /\ (filter = true -> low_path (rarc c tail head) u u v \/ low_path (fun x y => rarc c tail head y x) u u v)) /\
    (forall u v a b, up_arc c a u v -> up_arc c b u v -> a = b).
Proof.
  intros a log f order tail head c (Hp & Hl & Ht & Hh) E. destruct (build_conditions _ _ _ _ _ _ _ E) as [C1 C2].
  destruct (build_cch_spec a log f order tail head Hp Hl) as (c' & rt & rh & E' & B & U & HU & Hpar & Hanc & Harcs);
    [by apply Forall_forall|by apply Forall_forall|done|done|].
  rewrite E in E'. injection E' as <-. split; [apply B|]. split; [apply B|]. exists U.
  assert (forall x y, rarc c tail head x y <-> exists e, rt !! e = Some x /\ rh !! e = Some y) as Hra.
  { intros x y. split.
    - intros (e & u & v & H1 & H2 & H3 & H4). exists e.
      by rewrite (proj2 (bu_tail _ _ _ _ _ _ B) _ _ H1), (proj2 (bu_head _ _ _ _ _ _ B) _ _ H2).
    - intros (e & H1 & H2). destruct (ranked_back _ _ _ _ _ _ B _ _ _ _ (bu_tail _ _ _ _ _ _ B) H1) as (u & ? & Hu & ->).
      destruct (ranked_back _ _ _ _ _ _ B _ _ _ _ (bu_head _ _ _ _ _ _ B) H2) as (v & ? & Hv & ->).
      exists e, u, v. split; [done|]. split; [done|]. split; by eapply rk_ok. }
  assert (forall x y, has_arc rt rh x y <-> rarc c tail head x y) as Hha by (intros; by rewrite Hra).
  split; [apply HU|]. split.
  { intros x y Hxy [Hne Hr]. apply (ch_adj _ _ _ HU); [done|]. split; [done|]. by rewrite !Hha. }
  split; [apply HU|]. split.
  { intros x y Hxy. destruct (ch_sound _ _ _ HU x y Hxy) as (k & Hk). exists k. eapply gw_sub; [|exact Hk].
    intros u v w' [-> [Hne Hr]]. split; [done|]. split; [done|]. by rewrite <- !Hha. }
  split; [done|]. split; [done|]. split.
  - intros u v. destruct f.
    + rewrite Harcs. split.
      * intros (H1 & d & k & H2). split; [done|]. intros _. destruct d; [left|right]; exists k; (eapply gw_sub; [|exact H2]).
        -- intros x y w' [-> He]. split; [done|]. by apply Hra.
        -- intros x y w' [-> He]. split; [done|]. by apply Hra.
      * intros (H1 & H2). split; [done|]. destruct (H2 eq_refl) as [(k & Hk)|(k & Hk)]; [exists true, k|exists false, k]; (eapply gw_sub; [|exact Hk]).
        -- intros x y w' [-> He]. split; [done|]. by apply Hra.
        -- intros x y w' [-> He]. split; [done|]. by apply Hra.
    + rewrite Harcs. split; [done|]. by intros [? _].
  - intros u v a1 a2. by eapply (up_arc_unique _ _ _ _ (bu_wf _ _ _ _ _ _ B)).
Qed.
Print Assumptions C21_chordal.
(** 3 has the neighbours 2 and 4 (ranks 2, 4), so eliminating it links them by arc 6. *)
Example C21_ex : graph_input ex_order ex_tail ex_head /\ build_cch true false true ex_order ex_tail ex_head = Some ex_cch /\
  up_arc ex_cch 0 0 2 /\ up_arc ex_cch 1 0 4 /\ up_arc ex_cch 6 2 4 /\ ~ rlink ex_cch ex_tail ex_head 2 4 /\
  c_parent ex_cch = [Some 2; Some 2; Some 3; Some 4; None].
Proof.
  split; [apply ex_input|]. split; [vm_compute; reflexivity|]. do 3 (split; [split; vm_compute; reflexivity|]). split.
  - assert (forall e u v, ex_tail !! e = Some u -> ex_head !! e = Some v -> forall x y, c_rank ex_cch !! u = Some x -> c_rank ex_cch !! v = Some y ->
      (x, y) ∈ [(1,3);(3,2);(2,0);(0,4);(4,1);(1,2);(0,4);(0,0);(2,3)]) as Hall.
    { intros e u v Ht Hh x y Hx Hy. apply elem_of_list_In.
      do 9 (destruct e as [|e]; [injection Ht as <-; injection Hh as <-; injection Hx as <-; injection Hy as <-; cbn; tauto|]). done. }
    intros [_ [(e & u & v & H1 & H2 & H3 & H4)|(e & u & v & H1 & H2 & H3 & H4)]]; specialize (Hall _ _ _ H1 H2 _ _ H3 H4);
      apply elem_of_list_In in Hall; cbn in Hall; repeat (destruct Hall as [Hall|Hall]; [discriminate|]); done.
  - vm_compute. reflexivity.
Qed.

(** * C44 *)
(** The constructor fails exactly if it is called with an empty log function and without
    filtering, or with a log function (the default) for a graph without nodes. *)
Theorem C44_constructor_refuted : exists asserts log filter order tail head,
  graph_input order tail head /\ build_cch asserts log filter order tail head = None.
Proof.
  exists false, true, false, [], [], []. split; [|vm_compute; reflexivity]. repeat split; constructor.
Qed.
Print Assumptions C44_constructor_refuted.
Theorem C44_constructor : forall asserts log filter order tail head, graph_input order tail head ->
  is_Some (build_cch asserts log filter order tail head) <-> filter || log = true /\ (log = true -> length order <> 0).
Proof.
  intros a log f order tail head (Hp & Hl & Ht & Hh). split.
  - intros [c Hc]. by eapply build_conditions.
  - intros [C1 C2].
    destruct (build_cch_spec a log f order tail head Hp Hl) as (c' & rt & rh & E' & _);
      [by apply Forall_forall|by apply Forall_forall|done|done|]. by exists c'.
Qed.
Print Assumptions C44_constructor.
Example C44_ex : build_cch false false false ex_order ex_tail ex_head = None /\ build_cch false true false [] [] [] = None /\
  is_Some (build_cch false true false ex_order ex_tail ex_head) /\ is_Some (build_cch false false true [] [] []).
Proof. split; [vm_compute; reflexivity|]. split; [vm_compute; reflexivity|]. split; vm_compute; by eexists. Qed.

(** ** Histories *)
Lemma history_run order tail head c rt rh ops G :
  built order tail head rt rh c -> history (length order) c (GInit [] []) ops G ->
  exists q, exec_all c ops (new_query c) = Some q /\ qinv (length order) c q G /\ asked_below (length order) G.
Proof.
  intros B Hh. pose proof (bu_wf _ _ _ _ _ _ B) as WF.
  destruct (exec_all_ok _ rt rh c WF (rk_ok _ _ _ _ _ _ B) _ _ _ _ (new_query_inv _ rt rh c WF) Hh) as (q & E & Hq).
  exists q. split; [done|]. split; [done|]. eapply history_below; [done|]. cbn. done.
Qed.

(** * C22 *)
(** After any allowed history ending in run() with sources [ss] and targets [ts], get_distance is the
    smallest sum of a source distance, the length of a walk and a target distance; the used source
    and target attain it, and they are invalid if there is no such walk. *)
Theorem C22_query : forall order tail head c w m ops ss ts,
  cch_of order tail head c -> customized_for tail c w m ->
  history (length order) c (GInit [] []) ops (GRun m ss ts) ->
  exists q best, exec_all c ops (new_query c) = Some q /\ q_get_distance q = Some best /\
    best_route (arcs_of tail head w) ss ts best /\
    (best = inf_weight -> q_used_source c q = Some None /\ q_used_target c q = Some None) /\
    (best <> inf_weight -> exists s ds t dt L, q_used_source c q = Some (Some s) /\ q_used_target c q = Some (Some t) /\
       (s, ds) ∈ ss /\ (t, dt) ∈ ts /\ dist_walk (arcs_of tail head w) s t L /\ best = (ds + L + dt)%N).
Proof.
  intros order tail head c w m ops ss ts HC HM Hh. destruct (cch_of_built _ _ _ _ HC) as (rt & rh & B).
  pose proof (bu_wf _ _ _ _ _ _ B) as WF. destruct (metric_of _ _ _ _ _ _ _ _ B HM) as (CU & Hw & Hwi).
  destruct (history_run _ _ _ _ _ _ _ _ B Hh) as (q & E & Hq & Hss & Hts).
  destruct (run_distance _ rt rh c WF (rk_ok _ _ _ _ _ _ B) w m CU q ss ts Hq) as (best & Hbest & Hroute).
  exists q, best. split; [done|]. split; [done|]. split; [by eapply best_back|].
  destruct (q_meet q) as [x|] eqn:Hx.
  - destruct (run_path _ rt rh c WF (rk_ok _ _ _ _ _ _ B) w m CU Hw Hwi (or_ok _ _ _ _ _ _ B) q ss ts x Hq Hx) as (r & r' & ds & dt & p & rs & P1 & P2 & P3 & P4 & P5 & _ & P7 & P8 & _).
    rewrite P3 in Hbest. injection Hbest as <-. split; [lia|]. intros _.
    apply elem_of_rks in P1 as (s & P1 & ->), P2 as (t & P2 & ->).
    assert (s < length order) as Hs by (by eapply Forall_forall in P1; [|exact Hss]).
    assert (t < length order) as Ht by (by eapply Forall_forall in P2; [|exact Hts]).
    exists s, ds, t, dt, (total w p). rewrite P7, P8, (or_ok _ _ _ _ _ _ B s Hs), (or_ok _ _ _ _ _ _ B t Ht). do 4 (split; [done|]). split; [|done].
    pose proof (awalk_back _ _ _ _ _ _ B _ _ _ P5 s t Hs Ht eq_refl eq_refl) as Haw.
    destruct p as [|e p]; [left; by inversion Haw|]. right. exists (length (e :: p)). apply awalk_gw; [|done|done|].
    { by rewrite Hw, (built_len _ _ _ _ _ _ B). }
    by apply Forall_forall.
  - destruct (run_none (length order) c w m q ss ts Hq Hx) as (N1 & N2 & N3 & _). rewrite N1 in Hbest. injection Hbest as <-. done.
Qed.
Print Assumptions C22_query.

(** * C23 *)
(** The arc path is a walk in the input graph from the used source to the used target of the
    right length, the node path lists its nodes. *)
Theorem C23_path : forall order tail head c w m ops ss ts,
  cch_of order tail head c -> customized_for tail c w m ->
  history (length order) c (GInit [] []) ops (GRun m ss ts) ->
  exists q best, exec_all c ops (new_query c) = Some q /\ q_get_distance q = Some best /\
    (best = inf_weight -> q_arc_path c m w q = Some [] /\ q_node_path c m q = Some []) /\
    (best <> inf_weight -> exists s ds t dt p us,
       q_used_source c q = Some (Some s) /\ q_used_target c q = Some (Some t) /\ (s, ds) ∈ ss /\ (t, dt) ∈ ts /\
       q_arc_path c m w q = Some p /\ awalk tail head s p t /\ best = (ds + total w p + dt)%N /\
       mapM (fun e => tail !! e) p = Some us /\ q_node_path c m q = Some (us ++ [t])).
Proof.
  intros order tail head c w m ops ss ts HC HM Hh. destruct (cch_of_built _ _ _ _ HC) as (rt & rh & B).
  pose proof (bu_wf _ _ _ _ _ _ B) as WF. destruct (metric_of _ _ _ _ _ _ _ _ B HM) as (CU & Hw & Hwi).
  destruct (history_run _ _ _ _ _ _ _ _ B Hh) as (q & E & Hq & Hss & Hts).
  destruct (run_distance _ rt rh c WF (rk_ok _ _ _ _ _ _ B) w m CU q ss ts Hq) as (best & Hbest & Hroute).
  exists q, best. split; [done|]. split; [done|].
  destruct (q_meet q) as [x|] eqn:Hx.
  - destruct (run_path _ rt rh c WF (rk_ok _ _ _ _ _ _ B) w m CU Hw Hwi (or_ok _ _ _ _ _ _ B) q ss ts x Hq Hx) as (r & r' & ds & dt & p & rs & P1 & P2 & P3 & P4 & P5 & P6 & P7 & P8 & P9 & P10).
    rewrite P3 in Hbest. injection Hbest as <-. split; [lia|]. intros _.
    apply elem_of_rks in P1 as (s & P1 & ->), P2 as (t & P2 & ->).
    assert (s < length order) as Hs by (by eapply Forall_forall in P1; [|exact Hss]).
    assert (t < length order) as Ht by (by eapply Forall_forall in P2; [|exact Hts]).
    destruct (tails_back _ _ _ _ _ _ B _ _ P6) as (us & U1 & U2).
    exists s, ds, t, dt, p, us. rewrite P7, P8, P10, U2, (or_ok _ _ _ _ _ _ B s Hs), (or_ok _ _ _ _ _ _ B t Ht).
    do 5 (split; [done|]). split; [by eapply (awalk_back _ _ _ _ _ _ B)|]. done.
  - destruct (run_none (length order) c w m q ss ts Hq Hx) as (N1 & N2 & N3 & N4 & N5). rewrite N1 in Hbest. injection Hbest as <-. done.
Qed.
Print Assumptions C23_path.

(** The history of the examples: two sources, two targets, a pinned query, a reset. *)
Definition ex_ops : list op :=
  [AddSource 1 0; AddTarget 3 0; RunQ ex_metric; Reset; PinTargets [0; 3]; AddSource 2 1; RunToTargets ex_metric; ResetSource; Reset;
   AddSource 0 10; AddSource 2 14; AddSource 2 12; AddTarget 4 1].
Lemma ex_metric_ok : metric_ok ex_cch ex_metric.
Proof.
  split; [vm_compute; reflexivity|]. split; [vm_compute; reflexivity|].
  split; apply Forall_forall; intros x Hx; apply elem_of_list_In in Hx; vm_compute in Hx;
    repeat (destruct Hx as [<-|Hx]; [vm_compute; discriminate|]); done.
Qed.
Lemma ex_history : history 5 ex_cch (GInit [] []) ex_ops (GInit [(2, 12%N); (2, 14%N); (0, 10%N)] [(4, 1%N)]).
Proof.
  unfold ex_ops.
  do 2 (eapply hi_cons; [constructor; (lia || vm_compute; discriminate)|]).
  eapply hi_cons; [constructor; apply ex_metric_ok|].
  eapply hi_cons; [constructor|].
  eapply hi_cons; [constructor; repeat constructor|].
  eapply hi_cons; [constructor; (lia || vm_compute; discriminate)|].
  eapply hi_cons; [constructor; apply ex_metric_ok|].
  eapply hi_cons; [apply al_reset_source'|].
  eapply hi_cons; [constructor|].
  do 4 (eapply hi_cons; [constructor; (lia || vm_compute; discriminate)|]).
  constructor.
Qed.
Lemma history_app n c G o1 G1 o2 G2 : history n c G o1 G1 -> history n c G1 o2 G2 -> history n c G (o1 ++ o2) G2.
Proof. induction 1; cbn; [done|]. intros. econstructor; eauto. Qed.
Example C22_ex : cch_of ex_order ex_tail ex_head ex_cch /\ customized_for ex_tail ex_cch ex_w ex_metric /\
  history 5 ex_cch (GInit [] []) (ex_ops ++ [RunQ ex_metric]) (GRun ex_metric [(2, 12%N); (2, 14%N); (0, 10%N)] [(4, 1%N)]) /\
  exists q, exec_all ex_cch (ex_ops ++ [RunQ ex_metric]) (new_query ex_cch) = Some q /\
    q_get_distance q = Some 21%N /\ q_used_source ex_cch q = Some (Some 2) /\ q_used_target ex_cch q = Some (Some 4).
Proof.
  split; [apply ex_cch_of|]. split; [apply ex_customized|]. split.
  { eapply history_app; [apply ex_history|]. econstructor; [constructor; apply ex_metric_ok|constructor]. }
  eexists. split; [vm_compute; reflexivity|]. split; [vm_compute; reflexivity|]. split; vm_compute; reflexivity.
Qed.
Example C23_ex : exists q, exec_all ex_cch (ex_ops ++ [RunQ ex_metric]) (new_query ex_cch) = Some q /\
    q_arc_path ex_cch ex_metric ex_w q = Some [2; 3] /\ q_node_path ex_cch ex_metric q = Some [2; 3; 4].
Proof. eexists. split; [vm_compute; reflexivity|]. split; vm_compute; reflexivity. Qed.

(** * C24 *)
(** After any allowed history ending in a run to pinned nodes, every pinned node (repeated or
    not) gets its distance. *)
Theorem C24_pinned_targets : forall order tail head c w m ops l ss,
  cch_of order tail head c -> customized_for tail c w m ->
  history (length order) c (GInit [] []) ops (GPinRun true l m ss) ->
  exists q ds, exec_all c ops (new_query c) = Some q /\ q_distances_to_targets q = Some ds /\ length ds = length l /\
    forall i t x, l !! i = Some t -> ds !! i = Some x -> best_route (arcs_of tail head w) ss [(t, 0%N)] x.
Proof.
  intros order tail head c w m ops l ss HC HM Hh. destruct (cch_of_built _ _ _ _ HC) as (rt & rh & B).
  pose proof (bu_wf _ _ _ _ _ _ B) as WF. destruct (metric_of _ _ _ _ _ _ _ _ B HM) as (CU & Hw & Hwi).
  destruct (history_run _ _ _ _ _ _ _ _ B Hh) as (q & E & Hq & Hl & Hss).
  destruct (pin_distances _ rt rh c WF (rk_ok _ _ _ _ _ _ B) w m CU true q l ss Hq Hl) as (ds & D1 & D2 & D3).
  exists q, ds. split; [done|]. split; [done|]. split; [done|]. intros i t x Hi Hx.
  apply (best_back_dir _ _ _ _ _ _ B w true ss [(t, 0%N)] x); [done| |by eapply D3].
  constructor; [|constructor]. cbn. by eapply Forall_lookup_1 in Hl; [|exact Hi].
Qed.
Print Assumptions C24_pinned_targets.
Theorem C24_pinned_sources : forall order tail head c w m ops l ts,
  cch_of order tail head c -> customized_for tail c w m ->
  history (length order) c (GInit [] []) ops (GPinRun false l m ts) ->
  exists q ds, exec_all c ops (new_query c) = Some q /\ q_distances_to_sources q = Some ds /\ length ds = length l /\
    forall i s x, l !! i = Some s -> ds !! i = Some x -> best_route (arcs_of tail head w) [(s, 0%N)] ts x.
Proof.
  intros order tail head c w m ops l ts HC HM Hh. destruct (cch_of_built _ _ _ _ HC) as (rt & rh & B).
  pose proof (bu_wf _ _ _ _ _ _ B) as WF. destruct (metric_of _ _ _ _ _ _ _ _ B HM) as (CU & Hw & Hwi).
  destruct (history_run _ _ _ _ _ _ _ _ B Hh) as (q & E & Hq & Hl & Hts).
  destruct (pin_distances _ rt rh c WF (rk_ok _ _ _ _ _ _ B) w m CU false q l ts Hq Hl) as (ds & D1 & D2 & D3).
  exists q, ds. split; [done|]. split; [done|]. split; [done|]. intros i s x Hi Hx.
  apply (best_back_dir _ _ _ _ _ _ B w false ts [(s, 0%N)] x); [done| |by eapply D3].
  constructor; [|constructor]. cbn. by eapply Forall_lookup_1 in Hl; [|exact Hi].
Qed.
Print Assumptions C24_pinned_sources.
(** Repeated pins; a second run after reset_source. *)
Example C24_ex : exists q,
  history 5 ex_cch (GInit [] []) [PinTargets [0; 3; 0]; AddSource 2 1; RunToTargets ex_metric; ResetSource; AddSource 4 3; AddSource 1 2; RunToTargets ex_metric]
    (GPinRun true [0; 3; 0] ex_metric [(1, 2%N); (4, 3%N)]) /\
  exec_all ex_cch [PinTargets [0; 3; 0]; AddSource 2 1; RunToTargets ex_metric; ResetSource; AddSource 4 3; AddSource 1 2; RunToTargets ex_metric] (new_query ex_cch) = Some q /\
  q_distances_to_targets q = Some [8; 11; 8]%N.
Proof.
  eexists. split; [|split; vm_compute; reflexivity].
  eapply hi_cons; [constructor; repeat constructor|].
  eapply hi_cons; [constructor; (lia || vm_compute; discriminate)|].
  eapply hi_cons; [constructor; apply ex_metric_ok|].
  eapply hi_cons; [apply al_reset_source'|].
  do 2 (eapply hi_cons; [constructor; (lia || vm_compute; discriminate)|]).
  eapply hi_cons; [constructor; apply ex_metric_ok|]. constructor.
Qed.
(** Pinning after adding a target is not allowed above. The code does not check for it: no
    assertion fails, but the distances are wrong, the distance from 1 to 0 is 15. *)
Theorem C24_pin_after_target_refuted : exists order tail head c w m q x,
  cch_of order tail head c /\ customized_for tail c w m /\
  exec_all c [AddSource 1 0; AddTarget 0 0; PinTargets [0]; RunToTargets m] (new_query c) = Some q /\
  q_distances_to_targets q = Some [x] /\ ~ best_route (arcs_of tail head w) [(1, 0%N)] [(0, 0%N)] x.
Proof.
  exists ex_order, ex_tail, ex_head, ex_cch, ex_w, ex_metric. eexists _, inf_weight.
  split; [apply ex_cch_of|]. split; [apply ex_customized|]. split; [vm_compute; reflexivity|]. split; [vm_compute; reflexivity|].
  intros (_ & Hle & _).
  assert (inf_weight <= 0 + 15 + 0)%N as H; [|vm_compute in H; by destruct H].
  apply (Hle 1 0%N 0 0%N 15%N); [constructor|constructor|].
  right. exists 4. apply (awalk_gw ex_tail ex_head ex_w (fun _ => True) 1 0 [1; 2; 3; 4]); [done|done| |by apply Forall_forall].
  repeat (econstructor; [reflexivity|reflexivity|]). constructor.
Qed.

(** * C25 *)
(** After any number of rounds of update_arc calls and customize(), with the weights changing only at
    the reported arcs, the metric is the one a full customization gives. *)
Theorem C25_partial_customization : forall asserts order tail head c w m rounds w' m0,
  cch_of order tail head c -> customized_for tail c w m -> rounds_ok tail w rounds w' ->
  length (m_fwd m0) = length (up_head c) -> length (m_bwd m0) = length (up_head c) ->
  exists q' m', for_each rounds (update_round asserts c) (new_idset (length (up_head c)), m) = Some (q', m') /\
    customize c w' m0 = Some m'.
Proof.
  intros asserts order tail head c w m rounds w' m0 HC HM HR H1 H2. destruct (cch_of_built _ _ _ _ HC) as (rt & rh & B).
  pose proof (bu_wf _ _ _ _ _ _ B) as WF. destruct (metric_of _ _ _ _ _ _ _ _ B HM) as (CU & Hw & Hwi).
  pose proof (sref_new (length (up_head c))) as Hq. revert Hq.
  generalize (new_idset (length (up_head c))) as q.
  assert (weights_for tail w) as HW by apply HM. clear HM Hwi.
  revert m CU Hw HW. induction HR as [w|w es w1 rs w2 Hes Hw1 Hch HR IH]; intros m CU Hw HW q Hq.
  - exists q, m. split; [done|].
    assert (forall e x, w !! e = Some x -> (x <= inf_weight)%N) as Hwi.
    { intros e x He. destruct HW as [_ HW]. by eapply Forall_lookup_1 in HW; [|exact He]. }
    destruct (customize_spec _ rt rh c WF w Hw Hwi m0 H1 H2) as (m' & E & CU').
    rewrite E. f_equal. by eapply customized_unique.
  - cbn [for_each]. pose proof (built_len _ _ _ _ _ _ B) as Hl.
    destruct (round_spec _ rt rh c WF asserts es w w1 q m) as (q1 & m1 & E & Hq1 & CU1);
      [done|done|done|rewrite Hl; apply Hw1|apply Hw1|done|by rewrite Hl|].
    rewrite E. bs. apply IH; [done| |done|done]. rewrite Hl. apply Hw1.
Qed.
Print Assumptions C25_partial_customization.
Definition ex_rounds : list (list nat * list N) :=
  [([1; 3], [4; 20; 7; 0; 5; 9; 3; 2; 6]%N); ([], [4; 20; 7; 0; 5; 9; 3; 2; 6]%N); ([8; 1; 8], [4; 1; 7; 0; 5; 9; 3; 2; 0]%N)].
Example C25_ex : rounds_ok ex_tail ex_w ex_rounds [4; 1; 7; 0; 5; 9; 3; 2; 0]%N /\
  exists q' m', for_each ex_rounds (update_round true ex_cch) (new_idset (length (up_head ex_cch)), ex_metric) = Some (q', m') /\
    customize ex_cch [4; 1; 7; 0; 5; 9; 3; 2; 0]%N (new_metric ex_cch) = Some m' /\ m' <> ex_metric.
Proof.
  split.
  - assert (forall w : list N, length w = 9 -> forallb (fun x => (x <=? inf_weight)%N) w = true -> weights_for ex_tail w) as HW.
    { intros w Hl Hf. split; [done|]. apply Forall_forall. intros x Hx. apply elem_of_list_In in Hx.
      rewrite forallb_forall in Hf. apply N.leb_le. by apply Hf. }
    do 3 (eapply ro_cons; [repeat (constructor; [cbn; lia|]); constructor|apply HW; reflexivity
      |intros e He; do 9 (destruct e as [|e]; [first [reflexivity|exfalso; apply He; apply elem_of_list_In; cbn; tauto]|]); reflexivity|]).
    constructor.
  - eexists _, _. split; [vm_compute; reflexivity|]. split; [vm_compute; reflexivity|]. vm_compute. discriminate.
Qed.

(** * C27 *)
(** Whatever has been done with the query object, after reset() every allowed sequence of calls
    gives the answers a new object gives. *)
Theorem C27_reset : forall order tail head c ops1 G1 ops2 G2,
  cch_of order tail head c ->
  history (length order) c (GInit [] []) ops1 G1 -> history (length order) c (GInit [] []) ops2 G2 ->
  exists q q', exec_all c (ops1 ++ Reset :: ops2) (new_query c) = Some q /\ exec_all c ops2 (new_query c) = Some q' /\
    same_answers (observe c q) (observe c q').
Proof.
  intros order tail head c ops1 G1 ops2 G2 HC H1 H2. destruct (cch_of_built _ _ _ _ HC) as (rt & rh & B).
  exact (reset_like_new _ rt rh c (bu_wf _ _ _ _ _ _ B) (rk_ok _ _ _ _ _ _ B) ops1 G1 ops2 G2 H1 H2).
Qed.
Print Assumptions C27_reset.
Example C27_ex : history 5 ex_cch (GInit [] []) ex_ops (GInit [(2, 12%N); (2, 14%N); (0, 10%N)] [(4, 1%N)]) /\
  history 5 ex_cch (GInit [] []) [AddSource 1 0; AddTarget 3 0; RunQ ex_metric] (GRun ex_metric [(1, 0%N)] [(3, 0%N)]) /\
  exists q, exec_all ex_cch (ex_ops ++ Reset :: [AddSource 1 0; AddTarget 3 0; RunQ ex_metric]) (new_query ex_cch) = Some q /\
    q_get_distance q = Some 9%N.
Proof.
  split; [apply ex_history|]. split.
  { do 2 (eapply hi_cons; [constructor; (lia || vm_compute; discriminate)|]).
    eapply hi_cons; [constructor; apply ex_metric_ok|]. constructor. }
  eexists. split; vm_compute; reflexivity.
Qed.
(** A target added before pinning breaks the object for good: no assertion fails, but queries
    after the reset give other answers than a new object. *)
Theorem C27_pin_after_target_refuted : exists order tail head c w m q q',
  cch_of order tail head c /\ customized_for tail c w m /\
  exec_all c ([AddTarget 0 0; PinTargets [3]] ++ Reset :: [AddSource 1 0; AddTarget 0 0; RunQ m]) (new_query c) = Some q /\
  exec_all c [AddSource 1 0; AddTarget 0 0; RunQ m] (new_query c) = Some q' /\
  ~ same_answers (observe c q) (observe c q').
Proof.
  exists ex_order, ex_tail, ex_head, ex_cch, ex_w, ex_metric. eexists _, _.
  split; [apply ex_cch_of|]. split; [apply ex_customized|]. split; [vm_compute; reflexivity|]. split; [vm_compute; reflexivity|].
  intros (H & _). vm_compute in H. discriminate H.
Qed.
