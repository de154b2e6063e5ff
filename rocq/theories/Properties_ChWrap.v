(** C82: the construction of a contraction hierarchy with numbers of 32 bits. *)
From Verif Require Import Base UtilSpec ChCleanSpec ChBuildModel ChQueryModel ChApiSpec ChWrapModel ChWrapProofs ChApiProofs DistanceToolModel WalkSpec Properties_ChQuery.
Ltac Zify.zify_post_hook ::= idtac.

(** If no addition or multiplication of the construction has a result of 33 bits, C++ makes the hierarchy that the model with unbounded numbers makes, and all that is proved
    about those (C29 - C31, C42) is true of it. Missing: sums that do not fit. *)
Theorem C82_construction_partial : forall n tail head w c, builds checked32 n tail head w c ->
  builds wrap32 n tail head w c /\ constructed n tail head w c.
Proof.
  intros n tail head w c (a & mp & H). split; exists a, mp.
  - destruct H as [H|[(rank & H1 & H2 & H)|(order & H1 & H2 & H)]].
    + left. exact (build_mono _ _ checked_wrap _ _ _ _ _ _ _ H).
    + right. left. exists rank. split; [done|]. split; [done|]. exact (build_rank_mono _ _ checked_wrap _ _ _ _ _ _ _ H).
    + right. right. exists order. split; [done|]. split; [done|]. exact (build_given_order_mono _ _ checked_wrap _ _ _ _ _ _ _ H).
  - destruct H as [H|[(rank & H1 & H2 & H)|(order & H1 & H2 & H)]].
    + left. exact (build_exact _ _ _ _ _ _ _ (build_mono _ _ checked_exact _ _ _ _ _ _ _ H)).
    + right. left. exists rank. split; [done|]. split; [done|]. rewrite <- build_rank_exact. exact (build_rank_mono _ _ checked_exact _ _ _ _ _ _ _ H).
    + right. right. left. exists order. split; [done|]. split; [done|]. rewrite <- build_given_order_exact. exact (build_given_order_mono _ _ checked_exact _ _ _ _ _ _ _ H).
Qed.
Print Assumptions C82_construction_partial.
(** In particular the distances are right. *)
Theorem C82_distance_partial : forall n tail head w c ops ss ts,
  arc_list n tail head w -> builds checked32 n tail head w c -> weights_below (ch_fwd c) -> weights_below (ch_bwd c) ->
  khistory any_ch (c, KInit [] []) ops (c, KDone ss ts) ->
  exists q best, kexec_all ops (new_cquery c) = Some q /\ cq_distance q = Some best /\ best_route (arcs_of tail head w) ss ts best.
Proof.
  intros n tail head w c ops ss ts Ha Hb H1 H2 Hh. assert (ch_of n tail head w c) as Hc. { split; [done|]. split; [|done]. by apply C82_construction_partial. }
  destruct (C29_query n tail head w c c ops ss ts) as (q & best & E1 & E2 & E3 & _); [by exists n, tail, head, w|done|done|]. by exists q, best.
Qed.
Print Assumptions C82_distance_partial.

(** The same, with a condition that can be checked when the construction is over, and that does not depend on node importances, levels and hop counts, which may wrap:
    if no weight of the hierarchy that C++ makes is above (2^32 - 1) / 12, and no weight of the graph above twice this number, then the hierarchy is right. It does not matter
    whether it is the one that would be made with unbounded numbers. Missing: larger weights. *)
Theorem C82_small_partial : forall n tail head w c, arc_list n tail head w -> Forall (fun x => (x <= 2 * small_weight)%N) w -> builds wrap32 n tail head w c -> small_ch c ->
  ch_of n tail head w c.
Proof.
  intros n tail head w c Ha Hw Hb Hs. split; [done|]. split; [exists true, 0; right; right; right; right; done|].
  destruct Hs as [H1 H2]. split; (eapply Forall_impl; [eassumption|]; intros x Hx; cbn in Hx; unfold small_weight in Hx; unfold inf_weight; lia).
Qed.
Print Assumptions C82_small_partial.
Theorem C82_small_distance_partial : forall n tail head w c c0 ops ss ts,
  any_ch c0 -> arc_list n tail head w -> Forall (fun x => (x <= 2 * small_weight)%N) w -> builds wrap32 n tail head w c -> small_ch c ->
  khistory any_ch (c0, KInit [] []) ops (c, KDone ss ts) ->
  exists q best, kexec_all ops (new_cquery c0) = Some q /\ cq_distance q = Some best /\ best_route (arcs_of tail head w) ss ts best.
Proof.
  intros n tail head w c c0 ops ss ts H0 Ha Hw Hb Hs Hh. pose proof (C82_small_partial n tail head w c Ha Hw Hb Hs) as Hc.
  destruct (C29_query n tail head w c c0 ops ss ts) as (q & best & E1 & E2 & E3 & _); [done..|]. by exists q, best.
Qed.
Print Assumptions C82_small_distance_partial.

(** A ring of five nodes with two chords, and a weight that is almost inf_weight *)
Definition ex_tail : list nat := [0; 1; 2; 3; 4; 0; 2].
Definition ex_head : list nat := [1; 2; 3; 4; 0; 2; 4].
Definition ex_weight : list N := [1000000000; 5; 1000000; 70; 3; 2147483000; 9]%N.
Definition ex_ch : ch := Eval vm_compute in default (mkCh [] [] (mkChside [] [] [] [] [] []) (mkChside [] [] [] [] [] [])) (ch_build_u checked32 true 500 5 ex_tail ex_head ex_weight).
Example C82_ex : builds checked32 5 ex_tail ex_head ex_weight ex_ch /\ arc_list 5 ex_tail ex_head ex_weight /\ weights_below (ch_fwd ex_ch) /\ weights_below (ch_bwd ex_ch) /\
  existsb negb (cs_orig (ch_fwd ex_ch) ++ cs_orig (ch_bwd ex_ch)) = true /\ (fst <$> ch_query (new_cquery ex_ch) 0 4) = Some 1000000014%N.
Proof.
  split; [exists true, 500; left; vm_compute; reflexivity|].
  assert (forall l : list N, forallb (fun x => (x <=? inf_weight)%N) l = true -> Forall (fun x => (x <= inf_weight)%N) l) as Hf.
  { intros l H. apply Forall_forall. intros x Hx. rewrite forallb_forall in H. apply N.leb_le, H. by apply elem_of_list_In. }
  split. { split; [done|]. split; [done|]. split; repeat (constructor; [lia|]); constructor. }
  split; [apply Hf; vm_compute; reflexivity|]. split; [apply Hf; vm_compute; reflexivity|]. split; vm_compute; reflexivity.
Qed.

(** The same ring with other weights. One weight of the graph is above the limit for the hierarchy, but this arc is replaced by a shorter shortcut. *)
Definition sm_weight : list N := [300000000; 5; 1000000; 70; 3; 700000000; 9]%N.
Definition sm_ch : ch := Eval vm_compute in default (mkCh [] [] (mkChside [] [] [] [] [] []) (mkChside [] [] [] [] [] [])) (ch_build_given_order_u wrap32 true 500 [1; 3; 0; 2; 4] ex_tail ex_head sm_weight).
Example C82_ex_small : arc_list 5 ex_tail ex_head sm_weight /\ Forall (fun x => (x <= 2 * small_weight)%N) sm_weight /\ builds wrap32 5 ex_tail ex_head sm_weight sm_ch /\ small_ch sm_ch /\
  existsb (fun x => (small_weight <? x)%N) sm_weight = true /\ existsb negb (cs_orig (ch_fwd sm_ch) ++ cs_orig (ch_bwd sm_ch)) = true /\
  (fst <$> ch_query (new_cquery sm_ch) 0 4) = Some 300000014%N.
Proof.
  assert (forall b (l : list N), forallb (fun x => (x <=? b)%N) l = true -> Forall (fun x => (x <= b)%N) l) as Hf.
  { intros b l H. apply Forall_forall. intros x Hx. rewrite forallb_forall in H. apply N.leb_le, H. by apply elem_of_list_In. }
  split. { split; [done|]. split; [done|]. split; repeat (constructor; [lia|]); constructor. }
  split; [apply Hf; vm_compute; reflexivity|]. split.
  { exists true, 500. right. right. exists [1; 3; 0; 2; 4]. split; [|split; [done|vm_compute; reflexivity]]. by apply (bool_decide_unpack _). }
  split; [split; apply Hf; vm_compute; reflexivity|]. split; [vm_compute; reflexivity|]. split; vm_compute; reflexivity.
Qed.

(** When sums wrap, distances are wrong: a ring of seven nodes whose arcs cost 1431655767 each, and an arc from 0 to 3 that costs 1000. All weights are below
    inf_weight, and the shortest path from 0 to 3 is this arc. The construction succeeds with and without assertions, and the query answers 5. *)
Definition ring_tail : list nat := [0; 0; 1; 2; 3; 4; 5; 6].
Definition ring_head : list nat := [3; 1; 2; 3; 4; 5; 6; 0].
Definition ring_weight : list N := 1000%N :: replicate 7 1431655767%N.
Lemma walk_at_least (E : warcs) P m : (forall u v x, E u v x -> (m <= x)%N) -> forall u v L k, gw E P u v L k -> (m <= L)%N.
Proof. intros H u v L k Hw. induction Hw as [u v x Hx|u x v y L k Hy _ _ IH]; [by eapply H|]. pose proof (H _ _ _ Hy). lia. Qed.
Lemma ring_weights u v x : arcs_of ring_tail ring_head ring_weight u v x -> (1000 <= x)%N.
Proof.
  intros (e & _ & _ & H). apply elem_of_list_lookup_2 in H. unfold ring_weight in H. apply elem_of_cons in H as [->|H]; [lia|]. apply elem_of_replicate in H as [-> _]. lia.
Qed.
Lemma ring_walk : dist_walk (arcs_of ring_tail ring_head ring_weight) 0 3 1000.
Proof. right. exists 1. constructor. by exists 0. Qed.
Theorem C82_distance_refuted : exists n tail head w c q best,
  arc_list n tail head w /\ Forall (fun x => (x < inf_weight)%N) w /\ (forall asserts, ch_build_u wrap32 asserts 500 n tail head w = Some c) /\
  ch_query (new_cquery c) 0 3 = Some (best, q) /\ best = 5%N /\ dist_walk (arcs_of tail head w) 0 3 1000 /\
  (forall L, dist_walk (arcs_of tail head w) 0 3 L -> (1000 <= L)%N) /\ ~ best_route (arcs_of tail head w) [(0, 0%N)] [(3, 0%N)] best.
Proof.
  destruct (ch_build_u wrap32 true 500 7 ring_tail ring_head ring_weight) as [c|] eqn:E; [|vm_compute in E; discriminate].
  destruct (ch_query (new_cquery c) 0 3) as [[best q]|] eqn:Eq; [|vm_compute in E; injection E as <-; vm_compute in Eq; discriminate].
  exists 7, ring_tail, ring_head, ring_weight, c, q, best.
  assert (best = 5%N) as Hb. { vm_compute in E. injection E as <-. vm_compute in Eq. injection Eq as <- _. reflexivity. }
  assert (forall L, dist_walk (arcs_of ring_tail ring_head ring_weight) 0 3 L -> (1000 <= L)%N) as Hw.
  { clear. intros L [[? _]|[k Hk]]; [done|]. exact (walk_at_least _ _ _ ring_weights _ _ _ _ Hk). }
  split. { split; [done|]. split; [done|]. split; repeat (constructor; [lia|]); constructor. }
  split. { unfold ring_weight. constructor; [done|]. apply Forall_replicate. done. }
  split. { intros [|]; [exact E|]. rewrite <- E. vm_compute. reflexivity. }
  split; [exact Eq|]. split; [exact Hb|]. split; [exact ring_walk|]. split; [exact Hw|].
  subst best. intros (_ & _ & [H|(s & ds & t & dt & L & Hs & Ht & HL & H)]); [discriminate H|].
  apply elem_of_list_singleton in Hs as [= -> ->]. apply elem_of_list_singleton in Ht as [= -> ->]. specialize (Hw L HL). clear - Hw H. lia.
Qed.
Print Assumptions C82_distance_refuted.
(** The same for a given order: a path of three arcs, whose weights are almost inf_weight. The distance is 3 * 2147483646, too large for an answer other than inf_weight. *)
Definition path_arcs : warcs := arcs_of [0; 1; 2] [1; 2; 3] (replicate 3 2147483646%N).
Lemma path_walk u v L k : gw path_arcs (fun _ => True) u v L k -> v = u + k /\ L = (N.of_nat k * 2147483646)%N.
Proof.
  assert (forall u v x, path_arcs u v x -> v = S u /\ x = 2147483646%N) as Ha.
  { intros u' v' x ([|[|[|e]]] & H1 & H2 & H3); cbn in H1, H2, H3; [| | |done]; injection H1 as <-; injection H2 as <-; injection H3 as <-; done. }
  induction 1 as [u v x Hx|u x v y L k Hy _ _ [IH1 IH2]]; [destruct (Ha _ _ _ Hx) as [-> ->]; lia|]. destruct (Ha _ _ _ Hy) as [-> ->]. lia.
Qed.
Theorem C82_given_order_refuted : exists order tail head w c q best,
  arc_list (length order) tail head w /\ Forall (fun x => (x < inf_weight)%N) w /\ ch_build_given_order_u wrap32 true 500 order tail head w = Some c /\
  ch_query (new_cquery c) 0 3 = Some (best, q) /\ best = 2147483642%N /\ (forall L, dist_walk (arcs_of tail head w) 0 3 L -> L = 6442450938%N) /\
  ~ best_route (arcs_of tail head w) [(0, 0%N)] [(3, 0%N)] best.
Proof.
  destruct (ch_build_given_order_u wrap32 true 500 [1; 2; 0; 3] [0; 1; 2] [1; 2; 3] (replicate 3 2147483646%N)) as [c|] eqn:E; [|vm_compute in E; discriminate].
  destruct (ch_query (new_cquery c) 0 3) as [[best q]|] eqn:Eq; [|vm_compute in E; injection E as <-; vm_compute in Eq; discriminate].
  exists [1; 2; 0; 3], [0; 1; 2], [1; 2; 3], (replicate 3 2147483646%N), c, q, best.
  split. { split; [done|]. split; [done|]. split; repeat (constructor; [cbn; lia|]); constructor. }
  split; [by apply Forall_replicate|]. split; [exact E|]. split; [exact Eq|].
  assert (best = 2147483642%N) as Hb. { vm_compute in E. injection E as <-. vm_compute in Eq. injection Eq as <- _. reflexivity. }
  assert (forall L, dist_walk path_arcs 0 3 L -> L = 6442450938%N) as Hw.
  { clear. intros L [[? _]|[k Hk]]; [done|]. apply path_walk in Hk as [H1 ->]. cbn in H1. subst k. reflexivity. }
  split; [exact Hb|]. split; [exact Hw|].
  subst best. intros (_ & _ & [H|(s & ds & t & dt & L & Hs & Ht & HL & H)]); [discriminate H|].
  apply elem_of_list_singleton in Hs as [= -> ->]. apply elem_of_list_singleton in Ht as [= -> ->]. rewrite (Hw L HL) in H. discriminate H.
Qed.
Print Assumptions C82_given_order_refuted.
