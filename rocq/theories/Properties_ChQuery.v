(** Theorems about queries on contraction hierarchies. *)
From Verif Require Import Base UtilSpec GraphSpec IdQueueModel IdQueueSpec IdQueueProofs IdSetModel IdSetSpec IdSetProofs ChCleanSpec ChBuildModel ChSpec ChBuildProofs
  ChQueryModel ChApiSpec ChSearchProofs ChRunProofs ChUnpackProofs ChPinProofs ChSweepProofs ChApiProofs WalkSpec.
Ltac Zify.zify_post_hook ::= idtac.

(** ** From ranks to nodes *)
Section back.
Context (n : nat) (tail head : list nat) (w : list N) (c : ch).
Hypothesis HC : ch_of n tail head w c.

Lemma of_ok : ch_ok n tail head w c.
Proof. by apply ch_of_fit in HC as (? & _). Qed.
Lemma of_nodes : ch_nodes c = n.
Proof. by apply ch_of_fit in HC as (_ & ? & _). Qed.
Lemma of_fit : chfit c.
Proof. by apply ch_of_fit in HC as (_ & _ & ?). Qed.
Lemma of_weights : length w = length tail.
Proof. destruct HC as ((H1 & H2 & _) & _). congruence. Qed.
Lemma of_covers : covers n (ch_fwd c) (ch_bwd c) (rwalk tail head w c).
Proof. apply ch_covers; [apply of_ok|apply of_weights]. Qed.
Lemma order_rank s : s < n -> ch_order c !! krk c s = Some s /\ krk c s < n.
Proof.
  intros Hs. rewrite <- of_nodes in Hs |- *. destruct (krk_ok c s of_fit Hs) as [Hr Hlt]. split; [|done].
  destruct (co_rank _ _ _ _ _ of_ok) as [_ Hi]. by apply Hi.
Qed.
Lemma rwalk_to s t L : s < n -> t < n -> dist_walk (arcs_of tail head w) s t L -> rwalk tail head w c (krk c s) (krk c t) L.
Proof. intros Hs Ht H. exists s, t. split; [by apply order_rank|]. split; [by apply order_rank|done]. Qed.
Lemma rwalk_from s t L : s < n -> t < n -> rwalk tail head w c (krk c s) (krk c t) L -> dist_walk (arcs_of tail head w) s t L.
Proof.
  intros Hs Ht (u & v & Hu & Hv & H). destruct (order_rank s Hs) as [Hs' _], (order_rank t Ht) as [Ht' _]. by simplify_eq.
Qed.
End back.

Lemma khistory_run c0 ops c G : any_ch c0 -> khistory any_ch (c0, KInit [] []) ops (c, G) ->
  exists q, kexec_all ops (new_cquery c0) = Some q /\ kinv q (c, G) /\ Forall (fun x => x < ch_nodes c) (asked_nodes G).
Proof.
  intros Hc Hh. destruct (kexec_all_ok any_ch _ _ _ _ any_fit (new_kinv _ (any_fit _ Hc)) (List.Forall_nil _) Hh) as (q & E & Hq & Hb).
  by exists q.
Qed.

(** Everything about a finished query at once. *)
Lemma route_nodes tail head w u t p L : length tail = length head -> route tail head w u t p L ->
  exists us, mapM (fun e => tail !! e) p.*1 = Some us /\ u :: p.*2 = us ++ [t].
Proof.
  intros Hl (H & _ & Hf). revert u H. induction p as [|[e h] p IH]; intros u H; cbn [fmap list_fmap fst snd] in *.
  - inversion H; subst. by exists [].
  - inversion H as [|? ? h' ? ? Ht Hh Hw]; subst. apply Forall_cons in Hf as [Hh' Hf]. cbn in Hh'.
    assert (h' = h) as -> by congruence. destruct (IH Hf h Hw) as (us & E1 & E2). exists (u :: us). split; [|cbn; by rewrite <- E2].
    cbn [mapM]. rewrite Ht, bind_S, E1. done.
Qed.

Lemma run_answers n tail head w c q ss ts :
  ch_of n tail head w c -> kinv q (c, KDone ss ts) -> Forall (fun x => x < n) (ss.*1 ++ ts.*1) ->
  exists best, cq_distance q = Some best /\ best_route (arcs_of tail head w) ss ts best /\
    (best = inf_weight -> cq_used_source q = Some None /\ cq_used_target q = Some None /\ cq_arc_path q = Some [] /\ cq_node_path q = Some []) /\
    (best <> inf_weight -> exists s ds t dt p us, cq_used_source q = Some (Some s) /\ cq_used_target q = Some (Some t) /\
       (s, ds) ∈ ss /\ (t, dt) ∈ ts /\ cq_arc_path q = Some p /\ awalk tail head s p t /\ best = (ds + total w p + dt)%N /\
       mapM (fun e => tail !! e) p = Some us /\ cq_node_path q = Some (us ++ [t])).
Proof.
  intros HC (Hqc & Hfit & Hst & S1 & Q1 & S2 & Q2 & r & HR & Hm & HQ1 & HQ2) Hb. cbn [fst snd] in *. subst c.
  pose proof (of_ok _ _ _ _ _ HC) as Hok. pose proof (of_nodes _ _ _ _ _ HC) as Hn. pose proof (of_covers _ _ _ _ _ HC) as Hcov. rewrite Hn in HR.
  apply Forall_app in Hb as [Hbs Hbt].
  assert (forall s d, (s, d) ∈ ss -> s < n) as Hss.
  { intros s d Hs. eapply Forall_forall in Hbs; [exact Hbs|]. apply elem_of_list_fmap. by exists (s, d). }
  assert (forall s d, (s, d) ∈ ts -> s < n) as Hts.
  { intros s d Hs. eapply Forall_forall in Hbt; [exact Hbt|]. apply elem_of_list_fmap. by exists (s, d). }
  destruct (run_optimal n _ _ _ (krks (cq_ch q) ss) (krks (cq_ch q) ts) S1 Q1 S2 Q2 (cq_fw q) (cq_bw q) r Hcov (co_fwd _ _ _ _ _ Hok) (co_bwd _ _ _ _ _ Hok)) as [Hlow Hex]; [| |done|done|done|].
  { intros x d (s & Hs & ->)%elem_of_krks. eapply order_rank; [done|by eapply Hss]. }
  { intros x d (s & Hs & ->)%elem_of_krks. eapply order_rank; [done|by eapply Hts]. }
  assert (forall s ds t dt L, (s, ds) ∈ ss -> (t, dt) ∈ ts -> dist_walk (arcs_of tail head w) s t L -> (fst r <= ds + L + dt)%N) as Hlow'.
  { intros s ds t dt L Hs Ht HL. eapply Hlow; [apply elem_of_krks; eauto|apply elem_of_krks; eauto|]. eapply rwalk_to; eauto. }
  unfold cq_distance, cq_used_source, cq_used_target, cq_used, cq_arc_path, cq_node_path, cq_path. rewrite Hst, Hm, bool_decide_eq_true_2 by done. cbn [chk]. rewrite !bind_S.
  destruct Hex as [->|(m & df & db & Hm' & Hm1 & Hm2 & Hdf & Hdb & Hr & Hinf)].
  { cbn [snd fst] in *. exists inf_weight. split; [done|]. split; [|split; [done|done]]. split; [done|]. split; [done|by left]. }
  rewrite Hm'. rewrite Hdf, Hdb, !bind_S.
  destruct (climb_ok n _ _ _ _ _ (co_fwd _ _ _ _ _ Hok) (ri_f _ _ _ _ _ _ _ _ _ _ _ _ HR) n m df) as (up & zs & ds & L1 & C1 & C2 & Hzs & Hzs' & P1 & ->);
    [by eapply sb_lt; [apply HR|]|done|done|].
  destruct (climb_ok n _ _ _ _ _ (co_bwd _ _ _ _ _ Hok) (ri_b _ _ _ _ _ _ _ _ _ _ _ _ HR) n m db) as (dn & zt & dt & L2 & D1 & D2 & Hzt & Hzt' & P2 & ->);
    [by eapply sb_lt; [apply HR|]|done|done|].
  rewrite (sb_ln _ _ _ _ _ _ (ri_f _ _ _ _ _ _ _ _ _ _ _ _ HR)), (sb_ln _ _ _ _ _ _ (ri_b _ _ _ _ _ _ _ _ _ _ _ _ HR)).
  rewrite C1, C2, D1, D2, !bind_S.
  apply elem_of_krks in Hzs as (s & Hs & ->), Hzt as (t & Ht & ->).
  destruct (order_rank _ _ _ _ _ HC s (Hss _ _ Hs)) as [Os Hsn], (order_rank _ _ _ _ _ HC t (Hts _ _ Ht)) as [Ot Htn].
  rewrite Os, Ot, !bind_S.
  destruct (chpath_unpack_fwd n tail head w _ Hok _ _ _ _ Hsn P1) as (p1 & u1 & t1 & -> & Hu1 & Ht1 & R1). rewrite !bind_S. cbv beta iota.
  destruct (chpath_unpack_bwd n tail head w _ Hok _ _ _ _ Htn P2) as (p2 & u2 & t2 & -> & Hu2 & Ht2 & R2). rewrite !bind_S.
  assert (u1 = s) as -> by congruence. assert (t2 = t) as -> by congruence. assert (u2 = t1) as -> by congruence.
  pose proof (route_app _ _ _ _ _ _ _ _ _ _ R1 R2) as RR.
  rewrite sum32_le by lia.
  assert (length tail = length head) as Hth by (apply HC).
  destruct (route_nodes _ _ _ _ _ _ _ Hth RR) as (us & Hus & Hnp).
  exists (ds + L1 + (dt + L2))%N. split; [done|]. split; [|split].
  - rewrite <- Hr. split; [lia|]. split; [done|]. right. exists s, ds, t, dt, (L1 + L2)%N. do 2 (split; [done|]). split; [|lia].
    eapply route_dist; [by eapply of_weights|done].
  - intros E. lia.
  - intros _. exists s, ds, t, dt, (p1 ++ p2).*1, us. do 5 (split; [done|]). split; [apply RR|]. destruct RR as (_ & -> & _).
    split; [lia|]. split; [done|]. by rewrite Hnp.
Qed.

(** * C29 *)
(** After any allowed history - on this or other hierarchies, with normal and pinned queries - ending
    in run() with sources [ss] and targets [ts], get_distance is the smallest sum of a source
    distance, the length of a walk and a target distance, or inf_weight if there is none below; the
    used source and target attain it. *)
Theorem C29_query : forall n tail head w c c0 ops ss ts,
  any_ch c0 -> ch_of n tail head w c -> khistory any_ch (c0, KInit [] []) ops (c, KDone ss ts) ->
  exists q best, kexec_all ops (new_cquery c0) = Some q /\ cq_distance q = Some best /\
    best_route (arcs_of tail head w) ss ts best /\
    (best = inf_weight -> cq_used_source q = Some None /\ cq_used_target q = Some None) /\
    (best <> inf_weight -> exists s ds t dt L, cq_used_source q = Some (Some s) /\ cq_used_target q = Some (Some t) /\
       (s, ds) ∈ ss /\ (t, dt) ∈ ts /\ dist_walk (arcs_of tail head w) s t L /\ best = (ds + L + dt)%N).
Proof.
  intros n tail head w c c0 ops ss ts H0 HC Hh. destruct (khistory_run _ _ _ _ H0 Hh) as (q & E & Hq & Hb).
  rewrite (of_nodes _ _ _ _ _ HC) in Hb. destruct (run_answers _ _ _ _ _ _ _ _ HC Hq Hb) as (best & H1 & H2 & H3 & H4).
  exists q, best. do 3 (split; [done|]). split.
  - intros Hi. destruct (H3 Hi) as (? & ? & _). done.
  - intros Hi. destruct (H4 Hi) as (s & ds & t & dt & p & us & A1 & A2 & A3 & A4 & _ & A5 & A6 & _).
    exists s, ds, t, dt, (total w p). do 4 (split; [done|]). split; [|done].
    destruct p as [|e p]; [left; by inversion A5|]. right. exists (length (e :: p)).
    apply awalk_gw; [by eapply of_weights|done|done|]. by apply Forall_forall.
Qed.
Print Assumptions C29_query.

(** * C30 *)
(** The arc path is a walk in the input graph from the used source to the used target of the
    right length, the node path lists its nodes. *)
Theorem C30_path : forall n tail head w c c0 ops ss ts,
  any_ch c0 -> ch_of n tail head w c -> khistory any_ch (c0, KInit [] []) ops (c, KDone ss ts) ->
  exists q best, kexec_all ops (new_cquery c0) = Some q /\ cq_distance q = Some best /\
    (best = inf_weight -> cq_arc_path q = Some [] /\ cq_node_path q = Some []) /\
    (best <> inf_weight -> exists s ds t dt p us,
       cq_used_source q = Some (Some s) /\ cq_used_target q = Some (Some t) /\ (s, ds) ∈ ss /\ (t, dt) ∈ ts /\
       cq_arc_path q = Some p /\ awalk tail head s p t /\ best = (ds + total w p + dt)%N /\
       mapM (fun e => tail !! e) p = Some us /\ cq_node_path q = Some (us ++ [t])).
Proof.
  intros n tail head w c c0 ops ss ts H0 HC Hh. destruct (khistory_run _ _ _ _ H0 Hh) as (q & E & Hq & Hb).
  rewrite (of_nodes _ _ _ _ _ HC) in Hb. destruct (run_answers _ _ _ _ _ _ _ _ HC Hq Hb) as (best & H1 & H2 & H3 & H4).
  exists q, best. do 2 (split; [done|]). split; [|done]. intros Hi. destruct (H3 Hi) as (_ & _ & ? & ?). done.
Qed.
Print Assumptions C30_path.

(** * C31 *)
Lemma pin_answers d n tail head w c q l ss :
  ch_of n tail head w c -> kinv q (c, KPinDone d l ss) -> Forall (fun x => x < n) (l ++ ss.*1) ->
  exists ds us, (if d then cq_distances_to_targets q else cq_distances_to_sources q) = Some ds /\ length ds = length l /\
    (if d then cq_used_sources_to_targets q else cq_used_targets_to_sources q) = Some us /\ length us = length l /\
    forall i t x u, l !! i = Some t -> ds !! i = Some x -> us !! i = Some u ->
      (if d then best_route (arcs_of tail head w) ss [(t, 0%N)] x else best_route (arcs_of tail head w) [(t, 0%N)] ss x) /\
      match u with
      | None => x = inf_weight
      | Some s => exists dx L, (s, dx) ∈ ss /\ (if d then dist_walk (arcs_of tail head w) s t L else dist_walk (arcs_of tail head w) t s L) /\ x = (dx + L)%N
      end.
Proof.
  intros HC (Hqc & Hfit & Hst & cnt & sel & s0 & S & F & Hm & Hk & H0 & Hexp & Hsw & Hp) Hb. cbn [fst snd] in *. subst c.
  pose proof (of_ok _ _ _ _ _ HC) as Hok. pose proof (of_nodes _ _ _ _ _ HC) as Hn. pose proof (of_covers _ _ _ _ _ HC) as Hcov.
  set (c := cq_ch q) in *. rewrite Hn in H0, Hsw, Hp.
  apply Forall_app in Hb as [Hbl Hbs].
  assert (forall s d, (s, d) ∈ ss -> s < n) as Hss.
  { intros s dd Hs. eapply Forall_forall in Hbs; [exact Hbs|]. apply elem_of_list_fmap. by exists (s, dd). }
  set (R := fun x y L => if d then rwalk tail head w c x y L else rwalk tail head w c y x L).
  assert (covers n (csd c d) (csd c (negb d)) R) as HR.
  { unfold R. destruct d; [done|]. by apply (covers_swap _ _ _ _ Hcov). }
  assert (side_ok n (csd c d)) as Hg by (apply (co_side _ _ _ _ _ Hok)). assert (side_ok n (csd c (negb d))) as Ho by (apply (co_side _ _ _ _ _ Hok)).
  pose proof (pn_lt _ _ _ _ _ _ _ Hp) as Hlt.
  assert (forall i t, l !! i = Some t -> t < n /\ s_pnode (ktgt d q) !! i = Some (Some (krk c t)) /\ krk c t ∈ sel) as Hl.
  { intros i t Hi. assert (t < n) as Htn by (by eapply Forall_lookup_1 in Hbl; [|exact Hi]). split; [done|].
    eapply (pn_list _ _ _ _ _ _ _ Hp); [done|]. apply krk_ok; [done|]. by rewrite Hn. }
  assert (pinned_list (s_pnode (ktgt d q)) (length l) = Some (krk c <$> l)) as Hpl.
  { unfold pinned_list. apply mapM_Some. apply Forall2_same_length_lookup. split; [by rewrite seq_length, fmap_length|].
    intros i j x Hi Hx. apply lookup_seq in Hi as [-> Hi]. cbn. apply list_lookup_fmap_Some in Hx as (t & -> & Ht) || (rewrite list_lookup_fmap in Hx; destruct (l !! i) as [t|] eqn:Ht; [|done]; injection Hx as <-).
    destruct (Hl i t Ht) as (_ & E & _). by rewrite E. }
  assert (forall t, t ∈ l -> exists x, s_dist (ksrc d q) !! krk c t = Some x) as Hdist.
  { intros t Ht. apply elem_of_list_lookup in Ht as [i Hi]. destruct (Hl i t Hi) as (_ & _ & Hin).
    destruct (sw_done _ _ _ _ _ _ _ Hsw _ Hin) as (x & Hx & _). eauto. }
  assert (exists ds, mapM (fun x => s_dist (ksrc d q) !! x) (krk c <$> l) = Some ds) as (ds & Hds).
  { apply mapM_is_Some_2. apply Forall_fmap, Forall_forall. intros t Ht. by apply Hdist. }
  assert (ch_nodes c = n /\ length (ch_order c) = n) as [Hcn Hon] by (split; [done|apply Hok]).
  assert (forall t, t ∈ l -> exists o, used_of c (csd c (negb d)) (ksrc d q) (krk c t) = Some o) as Hused.
  { intros t Ht. destruct (Hdist t Ht) as [x Hx]. apply elem_of_list_lookup in Ht as [i Hi]. destruct (Hl i t Hi) as (_ & _ & Hin).
    destruct (used_of_ok n c _ _ R _ S F s0 _ sel HR Hg Ho H0 Hexp Hsw Hlt (krk c t) x Hcn Hon Hin Hx) as [[-> _]|(z & dz & L & o & -> & _)]; eauto. }
  assert (exists us, mapM (used_of c (csd c (negb d)) (ksrc d q)) (krk c <$> l) = Some us) as (us & Hus).
  { apply mapM_is_Some_2. apply Forall_fmap, Forall_forall. intros t Ht. by apply Hused. }
  exists ds, us.
  assert ((if d then cq_distances_to_targets q else cq_distances_to_sources q) = Some ds) as E1.
  { destruct d; unfold cq_distances_to_targets, cq_distances_to_sources; rewrite Hst, bool_decide_eq_true_2 by done; cbn [chk];
      rewrite bind_S, Hk, bind_S; unfold extract_distances; cbn [ktgt ksrc] in *; rewrite Hpl, bind_S; done. }
  assert ((if d then cq_used_sources_to_targets q else cq_used_targets_to_sources q) = Some us) as E2.
  { destruct d; unfold cq_used_sources_to_targets, cq_used_targets_to_sources; rewrite Hst, bool_decide_eq_true_2 by done; cbn [chk];
      rewrite bind_S, Hk, bind_S; unfold used_list; cbn [ktgt ksrc] in *; rewrite Hpl, bind_S; done. }
  split; [done|]. pose proof (mapM_length _ _ _ Hds) as Ld. pose proof (mapM_length _ _ _ Hus) as Lu. rewrite fmap_length in Ld, Lu.
  split; [done|]. split; [done|]. split; [done|].
  intros i t x u Hi Hx Hu. destruct (Hl i t Hi) as (Htn & _ & Hin).
  assert (s_dist (ksrc d q) !! krk c t = Some x) as Hdx.
  { apply mapM_Some_1 in Hds. eapply Forall2_lookup_lr in Hds; [exact Hds| |done]. by rewrite list_lookup_fmap, Hi. }
  assert (used_of c (csd c (negb d)) (ksrc d q) (krk c t) = Some u) as Hux.
  { apply mapM_Some_1 in Hus. eapply Forall2_lookup_lr in Hus; [exact Hus| |done]. by rewrite list_lookup_fmap, Hi. }
  assert (forall s L, s < n -> R (krk c s) (krk c t) L <-> (if d then dist_walk (arcs_of tail head w) s t L else dist_walk (arcs_of tail head w) t s L)) as HRW.
  { intros s L Hs. unfold R. destruct d; split; intros ?; (by eapply rwalk_from) || (by eapply rwalk_to). }
  destruct (sw_done _ _ _ _ _ _ _ Hsw _ Hin) as (x' & Hx' & Hinf & _). assert (x' = x) as -> by congruence.
  split.
  - assert (forall s ds L, (s, ds) ∈ ss -> (if d then dist_walk (arcs_of tail head w) s t L else dist_walk (arcs_of tail head w) t s L) -> (x <= ds + L)%N) as Hlow.
    { intros s dd L Hs HL. eapply (sweep_complete n _ _ R _ S F s0 _ sel HR H0 Hexp Hsw Hlt); [exact Hin|done|apply elem_of_krks; eauto|]. apply HRW; [by eapply Hss|done]. }
    assert (x = inf_weight \/ exists s ds L, (s, ds) ∈ ss /\ (if d then dist_walk (arcs_of tail head w) s t L else dist_walk (arcs_of tail head w) t s L) /\ x = (ds + L)%N) as Hex.
    { destruct (decide (x = inf_weight)) as [|Hne]; [by left|]. right.
      destruct (sweep_sound n _ _ R _ S F s0 _ sel HR Hg Ho H0 Hexp Hsw Hlt (n - krk c t) (krk c t) x) as (y & d0 & L & Hy & _ & HL & ->); [lia|done|done|lia|].
      apply elem_of_krks in Hy as (s & Hs & ->). exists s, d0, L. split; [done|]. split; [|done]. apply HRW; [by eapply Hss|done]. }
    destruct d; (split; [done|]); (split; [|destruct Hex as [|(s & dd & L & ? & ? & ->)]; [by left|right]]).
    + intros s dd t' dt L Hs [= -> ->]%elem_of_list_singleton HL. specialize (Hlow s dd L Hs HL). lia.
    + exists s, dd, t, 0%N, L. split; [done|]. split; [by left|]. split; [done|lia].
    + intros t' dt s dd L [= -> ->]%elem_of_list_singleton Hs HL. specialize (Hlow s dd L Hs HL). lia.
    + exists t, 0%N, s, dd, L. split; [by left|]. split; [done|]. split; [done|lia].
  - destruct (used_of_ok n c _ _ R _ S F s0 _ sel HR Hg Ho H0 Hexp Hsw Hlt (krk c t) x Hcn Hon Hin Hdx) as [[E ->]|(z & dz & L & o & E & Hz & Hzs & HL & ->)].
    + rewrite E in Hux. injection Hux as <-. done.
    + rewrite E in Hux. injection Hux as <-. apply elem_of_krks in Hzs as (s & Hs & ->).
      destruct (order_rank _ _ _ _ _ HC s (Hss _ _ Hs)) as [Os _]. fold c in Os. assert (o = s) as -> by congruence.
      exists dz, L. split; [done|]. split; [|done]. apply HRW; [by eapply Hss|done].
Qed.

(** After any allowed history ending in a run to pinned nodes, every pinned node (repeated or not)
    gets its distance, and a source that attains it, if it is reachable. *)
Theorem C31_pinned_targets : forall n tail head w c c0 ops l ss,
  any_ch c0 -> ch_of n tail head w c -> khistory any_ch (c0, KInit [] []) ops (c, KPinDone true l ss) ->
  exists q ds us, kexec_all ops (new_cquery c0) = Some q /\ cq_distances_to_targets q = Some ds /\ length ds = length l /\
    cq_used_sources_to_targets q = Some us /\ length us = length l /\
    forall i t x u, l !! i = Some t -> ds !! i = Some x -> us !! i = Some u ->
      best_route (arcs_of tail head w) ss [(t, 0%N)] x /\
      match u with
      | None => x = inf_weight
      | Some s => exists dx L, (s, dx) ∈ ss /\ dist_walk (arcs_of tail head w) s t L /\ x = (dx + L)%N
      end.
Proof.
  intros n tail head w c c0 ops l ss H0 HC Hh. destruct (khistory_run _ _ _ _ H0 Hh) as (q & E & Hq & Hb).
  rewrite (of_nodes _ _ _ _ _ HC) in Hb. destruct (pin_answers true _ _ _ _ _ _ _ _ HC Hq Hb) as (ds & us & H). by exists q, ds, us.
Qed.
Print Assumptions C31_pinned_targets.
Theorem C31_pinned_sources : forall n tail head w c c0 ops l ts,
  any_ch c0 -> ch_of n tail head w c -> khistory any_ch (c0, KInit [] []) ops (c, KPinDone false l ts) ->
  exists q ds us, kexec_all ops (new_cquery c0) = Some q /\ cq_distances_to_sources q = Some ds /\ length ds = length l /\
    cq_used_targets_to_sources q = Some us /\ length us = length l /\
    forall i s x u, l !! i = Some s -> ds !! i = Some x -> us !! i = Some u ->
      best_route (arcs_of tail head w) [(s, 0%N)] ts x /\
      match u with
      | None => x = inf_weight
      | Some t => exists dx L, (t, dx) ∈ ts /\ dist_walk (arcs_of tail head w) s t L /\ x = (dx + L)%N
      end.
Proof.
  intros n tail head w c c0 ops l ss H0 HC Hh. destruct (khistory_run _ _ _ _ H0 Hh) as (q & E & Hq & Hb).
  rewrite (of_nodes _ _ _ _ _ HC) in Hb. destruct (pin_answers false _ _ _ _ _ _ _ _ HC Hq Hb) as (ds & us & H). by exists q, ds, us.
Qed.
Print Assumptions C31_pinned_sources.

Lemma best_route_unique E ss ts a b : best_route E ss ts a -> best_route E ss ts b -> a = b.
Proof.
  assert (forall a b, best_route E ss ts a -> best_route E ss ts b -> (a <= b)%N) as Hle.
  { intros x y (X1 & X2 & _) (_ & _ & [->|(s & ds & t & dt & L & H1 & H2 & H3 & ->)]); [done|]. by eapply X2. }
  intros Ha Hb. apply N.le_antisymm; by apply Hle.
Qed.
(** The distance to every pinned target is what an individual query on another object says. *)
Theorem C31_individual : forall n tail head w c c0 c1 ops ops' l ss t i,
  any_ch c0 -> any_ch c1 -> ch_of n tail head w c -> khistory any_ch (c0, KInit [] []) ops (c, KPinDone true l ss) ->
  l !! i = Some t -> khistory any_ch (c1, KInit [] []) ops' (c, KDone ss [(t, 0%N)]) ->
  exists q q' ds x, kexec_all ops (new_cquery c0) = Some q /\ kexec_all ops' (new_cquery c1) = Some q' /\
    cq_distances_to_targets q = Some ds /\ ds !! i = Some x /\ cq_distance q' = Some x.
Proof.
  intros n tail head w c c0 c1 ops ops' l ss t i H0 H1 HC Hh Hi Hh'.
  destruct (C31_pinned_targets _ _ _ _ _ _ _ _ _ H0 HC Hh) as (q & ds & us & E & Hds & Ld & Hus & Lu & Hall).
  destruct (C29_query _ _ _ _ _ _ _ _ _ H1 HC Hh') as (q' & best & E' & Hb & Hr & _).
  pose proof (lookup_lt_Some _ _ _ Hi) as Hlt.
  destruct (lookup_lt_is_Some_2 ds i) as [x Hx]; [lia|]. destruct (lookup_lt_is_Some_2 us i) as [u Hu]; [lia|].
  destruct (Hall i t x u Hi Hx Hu) as [Hx' _]. exists q, q', ds, x. do 4 (split; [done|]).
  by rewrite (best_route_unique _ _ _ _ _ Hx' Hr).
Qed.
Print Assumptions C31_individual.

(** ** Examples *)
Definition ex_ch_tail := [0;1;2;3;4;0;3;3;2;5].
Definition ex_ch_head := [1;2;3;4;0;2;4;3;1;0].
Definition ex_ch_w := [4;2;7;1;5;9;3;2;6;1]%N.
Definition no_side := mkChside [] [] [] [] [] [].
Definition ex_ch : ch := Eval vm_compute in default (mkCh [] [] no_side no_side) (ch_build_given_order true 10 [3;0;2;1;4;5] ex_ch_tail ex_ch_head ex_ch_w).
Definition ex_ch' : ch := Eval vm_compute in default (mkCh [] [] no_side no_side) (ch_build true 500 3 [0;1;2;1] [1;2;0;0] [5;6;7;8]%N).
Lemma below_forallb l : forallb (fun x => (x <=? inf_weight)%N) l = true -> Forall (fun x => (x <= inf_weight)%N) l.
Proof. intros H. apply Forall_forall. intros x Hx. rewrite forallb_forall in H. apply N.leb_le, H. by apply elem_of_list_In. Qed.
Lemma ex_ch_of : ch_of 6 ex_ch_tail ex_ch_head ex_ch_w ex_ch.
Proof.
  split; [split; [done|split; [done|split; repeat (constructor; [lia|]); constructor]]|]. split; [|split; apply below_forallb; vm_compute; reflexivity].
  exists true, 10. right. right. left. exists [3;0;2;1;4;5]. split; [|split; [done|vm_compute; reflexivity]].
  unfold perm. change (seq 0 _) with [0;1;2;3;4;5]. apply NoDup_Permutation.
  - by apply (bool_decide_unpack _); vm_compute.
  - by apply (bool_decide_unpack _); vm_compute.
  - intros x. rewrite !elem_of_cons, elem_of_nil. tauto.
Qed.
Lemma ex_ch'_of : ch_of 3 [0;1;2;1] [1;2;0;0] [5;6;7;8]%N ex_ch'.
Proof.
  split; [split; [done|split; [done|split; repeat (constructor; [lia|]); constructor]]|]. split; [|split; apply below_forallb; vm_compute; reflexivity].
  exists true, 500. left. vm_compute. reflexivity.
Qed.
(** A query on a smaller hierarchy, a pinned one and then a normal one on [ex_ch]. *)
Definition ex_ch_ops : list chop :=
  [KSource 0 0; KTarget 2 0; KRun; KResetCh ex_ch; KPinTargets [0; 3]; KSource 2 1; KRunToTargets; KResetSource; KReset;
   KSource 0 10; KSource 2 14; KSource 2 12; KTarget 4 1; KRun].
Lemma ex_ch_history : khistory any_ch (ex_ch', KInit [] []) ex_ch_ops (ex_ch, KDone [(2, 12%N); (2, 14%N); (0, 10%N)] [(4, 1%N)]).
Proof.
  unfold ex_ch_ops.
  eapply kh_cons; [apply ka_source; [vm_compute; lia|vm_compute; discriminate]|].
  eapply kh_cons; [apply ka_target; [vm_compute; lia|vm_compute; discriminate]|].
  eapply kh_cons; [by apply ka_run|].
  eapply kh_cons; [apply ka_reset_ch; eexists _, _, _, _; apply ex_ch_of|].
  eapply kh_cons; [apply ka_pin_targets; [repeat (constructor; [vm_compute; lia|]); constructor|vm_compute; lia]|].
  eapply kh_cons; [apply ka_pin_source; [vm_compute; lia|vm_compute; discriminate]|].
  eapply kh_cons; [by apply ka_to_targets|].
  eapply kh_cons; [apply ka_reset_source'|].
  eapply kh_cons; [apply ka_reset|].
  do 3 (eapply kh_cons; [apply ka_source; [vm_compute; lia|vm_compute; discriminate]|]).
  eapply kh_cons; [apply ka_target; [vm_compute; lia|vm_compute; discriminate]|].
  eapply kh_cons; [by apply ka_run|]. constructor.
Qed.
(** 2, 3, 4 costs 8; 2 has the distance 12 and 4 has 1. *)
Example C29_ex : any_ch ex_ch' /\ ch_of 6 ex_ch_tail ex_ch_head ex_ch_w ex_ch /\
  khistory any_ch (ex_ch', KInit [] []) ex_ch_ops (ex_ch, KDone [(2, 12%N); (2, 14%N); (0, 10%N)] [(4, 1%N)]) /\
  exists q, kexec_all ex_ch_ops (new_cquery ex_ch') = Some q /\ cq_distance q = Some 21%N /\
    cq_used_source q = Some (Some 2) /\ cq_used_target q = Some (Some 4).
Proof.
  split; [eexists _, _, _, _; apply ex_ch'_of|]. split; [apply ex_ch_of|]. split; [apply ex_ch_history|].
  eexists. split; [vm_compute; reflexivity|]. split; [vm_compute; reflexivity|]. split; vm_compute; reflexivity.
Qed.
Example C30_ex : exists q, kexec_all ex_ch_ops (new_cquery ex_ch') = Some q /\
  cq_arc_path q = Some [2; 3] /\ cq_node_path q = Some [2; 3; 4].
Proof. eexists. split; [vm_compute; reflexivity|]. split; vm_compute; reflexivity. Qed.
(** A target that cannot be reached, repeated pins, a second run after reset_source. *)
Definition ex_pin_ops : list chop := [KPinTargets [0; 3; 5; 0]; KSource 2 1; KRunToTargets; KResetSource; KSource 4 3; KSource 1 2; KRunToTargets].
Example C31_ex : any_ch ex_ch /\ khistory any_ch (ex_ch, KInit [] []) ex_pin_ops (ex_ch, KPinDone true [0; 3; 5; 0] [(1, 2%N); (4, 3%N)]) /\
  exists q, kexec_all ex_pin_ops (new_cquery ex_ch) = Some q /\
    cq_distances_to_targets q = Some [8; 11; inf_weight; 8]%N /\ cq_used_sources_to_targets q = Some [Some 4; Some 1; None; Some 4].
Proof.
  split; [eexists _, _, _, _; apply ex_ch_of|]. split.
  - eapply kh_cons; [apply ka_pin_targets; [repeat (constructor; [vm_compute; lia|]); constructor|vm_compute; lia]|].
    eapply kh_cons; [apply ka_pin_source; [vm_compute; lia|vm_compute; discriminate]|].
    eapply kh_cons; [by apply ka_to_targets|]. eapply kh_cons; [apply ka_reset_source'|].
    do 2 (eapply kh_cons; [apply ka_pin_source; [vm_compute; lia|vm_compute; discriminate]|]).
    eapply kh_cons; [by apply ka_to_targets|]. constructor.
  - eexists. split; [vm_compute; reflexivity|]. split; vm_compute; reflexivity.
Qed.
(** The lists of pinned nodes are kept in arrays with one entry per node: a list with more entries,
    which must repeat nodes, is written past the end. *)
Theorem C31_long_pin_refuted : exists c l, any_ch c /\ Forall (fun t => t < ch_nodes c) l /\ kexec (KPinTargets l) (new_cquery c) = None.
Proof.
  exists ex_ch', [0;1;0;1]. split; [eexists _, _, _, _; apply ex_ch'_of|]. split; [repeat (constructor; [vm_compute; lia|]); constructor|].
  vm_compute. reflexivity.
Qed.
Print Assumptions C31_long_pin_refuted.
