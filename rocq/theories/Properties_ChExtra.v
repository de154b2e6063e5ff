(** Theorems about extra weights on contraction hierarchies. *)
From Verif Require Import Base UtilSpec GraphSpec IdQueueModel IdQueueSpec IdQueueProofs IdSetModel IdSetSpec IdSetProofs ChCleanSpec ChBuildModel ChSpec ChBuildProofs
  ChQueryModel ChExtraModel ChExtraSpec ChApiSpec ChSearchProofs ChRunProofs ChUnpackProofs ChPinProofs ChSweepProofs ChExtraArcProofs ChExtraRunProofs ChExtraPinProofs
  ChApiProofs Properties_ChQuery WalkSpec.
Ltac Zify.zify_post_hook ::= idtac.

(** * C42 *)
(** ** ContractionHierarchyExtraWeight *)
(** reset gives every arc of both directions the linked weight of the input arcs that get_arc_path
    unpacks it to, whatever the vectors held before. *)
Theorem C42_arc_weights : forall W (dflt : W) link P n tail head w c l old,
  linkable link P -> ch_of n tail head w c -> length l = length head -> Forall P l ->
  exists f b, extra_reset dflt link c l old = Some (f, b) /\
    length f = length (cs_head (ch_fwd c)) /\ length b = length (cs_head (ch_bwd c)) /\
    forall d a, a < length (cs_head (if d : bool then ch_fwd c else ch_bwd c)) ->
      exists p v, ch_unpack c (ch_nodes c) d a = Some p /\ p <> [] /\ (if d then f else b) !! a = Some v /\ extra_along dflt link l p.*1 v.
Proof.
  intros W dflt link P n tail head w c l old HP HC Hl HlP. pose proof (of_ok _ _ _ _ _ HC) as Hok.
  destruct (extra_reset_ok dflt link P HP n tail head w c l Hok Hl HlP old) as ([f b] & E & Hlen & HD).
  exists f, b. split; [done|]. split; [apply (Hlen true)|]. split; [apply (Hlen false)|]. intros d a Ha. rewrite (of_nodes _ _ _ _ _ HC).
  change (if d then ch_fwd c else ch_bwd c) with (csd c d) in Ha. pose proof (co_side _ _ _ _ _ Hok d) as Hs.
  destruct (csr_tail_exists _ _ _ _ (so_csr _ _ Hs) Ha) as (x & Hx & Hox).
  destruct (lookup_lt_is_Some_2 (cs_head (csd c d)) a Ha) as [y Hy]. destruct (lookup_lt_is_Some_2 (cs_weight (csd c d)) a) as [v Hv]; [by rewrite (so_weight _ _ Hs)|].
  destruct (HD d a x y v) as (u & Hu & p & ws & U & M & Hne & _ & ->); [done|done|]. exists p, (link_all dflt link ws).
  split; [done|]. split; [|split; [by destruct d|by exists ws]]. intros ->. cbn in M. injection M as <-. done.
Qed.
Print Assumptions C42_arc_weights.

(** The parameter belongs to the hierarchy. *)
Lemma extra_for_fits {W} (dflt : W) link n tail head w c l e :
  ch_of n tail head w c -> length l = length head -> extra_for dflt link c l e -> (exists P, linkable link P /\ Forall P l) -> extra_fits c e.
Proof.
  intros HC Hl He (P & HP & HlP). pose proof (of_ok _ _ _ _ _ HC) as Hok. destruct He as [->|(old & f & b & E & ->)].
  - intros sd a i Hsd Ho Hf. assert (exists d, sd = csd c d) as [d ->]. { destruct Hsd as [->| ->]; [by exists true|by exists false]. }
    pose proof (co_side _ _ _ _ _ Hok d) as Hs. assert (a < length (cs_head (csd c d))) as Ha. { rewrite <- (so_orig _ _ Hs). by eapply lookup_lt_Some. }
    destruct (csr_tail_exists _ _ _ _ (so_csr _ _ Hs) Ha) as (x & Hx & Hox).
    destruct (lookup_lt_is_Some_2 (cs_head (csd c d)) a Ha) as [y Hy]. destruct (lookup_lt_is_Some_2 (cs_weight (csd c d)) a) as [v Hv]; [by rewrite (so_weight _ _ Hs)|].
    destruct (arc_entry n tail head w c Hok d a x y v) as (o & e & e' & (H1 & H2 & H3) & Hent); [done|]. assert (o = true) as -> by congruence. assert (e = i) as -> by congruence.
    destruct Hent as (u & t & _ & _ & (_ & Hhd & _) & _). rewrite Hl. by eapply lookup_lt_Some.
  - destruct (extra_reset_ok dflt link P HP n tail head w c l Hok Hl HlP old) as (fb & E' & Hlen & _). rewrite E in E'. injection E' as <-.
    split; [apply (Hlen true)|apply (Hlen false)].
Qed.

(** ** get_extra_weight_distance *)
(** The result is the linked extra weight of the path that get_arc_path returns. *)
Theorem C42_distance : forall W (dflt : W) link P n tail head w c c0 ops ss ts l e,
  linkable link P -> any_ch c0 -> ch_of n tail head w c -> khistory any_ch (c0, KInit [] []) ops (c, KDone ss ts) ->
  length l = length head -> Forall P l -> extra_for dflt link c l e ->
  exists q p v, kexec_all ops (new_cquery c0) = Some q /\ cq_arc_path q = Some p /\
    cq_extra_distance dflt link q e = Some v /\ extra_along dflt link l p v.
Proof.
  intros W dflt link P n tail head w c c0 ops ss ts l e HP H0 HC Hh Hl HlP He. destruct (khistory_run _ _ _ _ H0 Hh) as (q & E & Hq & Hb).
  rewrite (of_nodes _ _ _ _ _ HC) in Hb. exists q.
  destruct Hq as (Hqc & Hfit & Hst & S1 & Q1 & S2 & Q2 & r & HR & Hm & HQ1 & HQ2). cbn [fst snd] in *. subst c.
  pose proof (of_ok _ _ _ _ _ HC) as Hok. pose proof (of_nodes _ _ _ _ _ HC) as Hn. pose proof (of_covers _ _ _ _ _ HC) as Hcov. rewrite Hn in HR.
  unfold cq_arc_path, cq_path, cq_extra_distance. rewrite Hst, Hm, bool_decide_eq_true_2 by done. cbn [chk]. rewrite !bind_S.
  destruct (snd r) as [m|] eqn:Er.
  2:{ exists [], dflt. split; [done|]. split; [done|]. split; [done|]. by exists []. }
  assert (exists df db, m ∈ S1 ∪ dom Q1 /\ m ∈ S2 ∪ dom Q2 /\ s_dist (cq_fw q) !! m = Some df /\ s_dist (cq_bw q) !! m = Some db) as (df & db & Hm1 & Hm2 & Hdf & Hdb).
  { apply Forall_app in Hb as [Hbs Hbt].
    assert (forall (xs : list (nat * N)), Forall (fun x => x < n) xs.*1 -> forall x d, (x, d) ∈ krks (cq_ch q) xs -> x < n) as Hbelow.
    { intros xs Hxs x d (s & Hs & ->)%elem_of_krks. eapply order_rank; [done|]. eapply Forall_forall in Hxs; [exact Hxs|]. apply elem_of_list_fmap. by exists (s, d). }
    destruct (run_optimal n _ _ _ (krks (cq_ch q) ss) (krks (cq_ch q) ts) S1 Q1 S2 Q2 (cq_fw q) (cq_bw q) r Hcov (co_fwd _ _ _ _ _ Hok) (co_bwd _ _ _ _ _ Hok)) as [_ Hex];
      [by apply Hbelow|by apply Hbelow|done|done|done|].
    destruct Hex as [->|(m' & df & db & Hm' & ? & ? & ? & ? & _)]; [done|]. assert (m' = m) as -> by congruence. by exists df, db. }
  destruct (climb_ok n _ _ _ _ _ (co_fwd _ _ _ _ _ Hok) (ri_f _ _ _ _ _ _ _ _ _ _ _ _ HR) n m df) as (up & zs & ds & L1 & C1 & C2 & Hzs & Hzs' & P1 & _);
    [by eapply sb_lt; [apply HR|]|done|done|].
  destruct (climb_ok n _ _ _ _ _ (co_bwd _ _ _ _ _ Hok) (ri_b _ _ _ _ _ _ _ _ _ _ _ _ HR) n m db) as (dn & zt & dt & L2 & D1 & D2 & Hzt & Hzt' & P2 & _);
    [by eapply sb_lt; [apply HR|]|done|done|].
  pose proof (sb_ln _ _ _ _ _ _ (ri_f _ _ _ _ _ _ _ _ _ _ _ _ HR)) as Lf. pose proof (sb_ln _ _ _ _ _ _ (ri_b _ _ _ _ _ _ _ _ _ _ _ _ HR)) as Lb.
  destruct (internal_extra_ok dflt link P HP n tail head w (cq_ch q) l Hok Hl HlP e (cq_fw q) (cq_bw q) m up zs L1 dn zt L2) as (v & p1 & p2 & Ev & U1 & U2 & Hv);
    [done|done|by rewrite Lf|done|by rewrite Lb|].
  exists (p1 ++ p2).*1, v. split; [done|]. split; [|done].
  rewrite Lf, Lb, C1, D1, !bind_S. cbv beta iota.
  assert (exists i, ch_order (cq_ch q) !! zs = Some i) as [i Hi].
  { destruct (order_at n tail head w (cq_ch q) Hok zs) as (i & Hi & _); [by eapply sb_lt; [apply HR|]|]. by exists i. }
  rewrite Hi, ?bind_S. cbv beta iota. rewrite ?U1, ?bind_S, ?U2, ?bind_S. cbv beta iota. rewrite ?bind_S. done.
Qed.
Print Assumptions C42_distance.

(** ** Pinned queries *)
Lemma pin_distances d c q l ss : kinv q (c, KPinDone d l ss) -> Forall (fun x => x < ch_nodes c) l ->
  (if d then cq_distances_to_targets q else cq_distances_to_sources q) = mapM (fun x => s_dist (ksrc d q) !! x) (krk c <$> l).
Proof.
  intros (Hqc & Hfit & Hst & cnt & sel & s0 & S & F & Hm & Hk & H0 & Hexp & Hsw & Hp) Hbl. cbn [fst snd] in *. subst c. set (c := cq_ch q) in *.
  assert (pinned_list (s_pnode (ktgt d q)) (length l) = Some (krk c <$> l)) as Hpl.
  { unfold pinned_list. apply mapM_Some. apply Forall2_same_length_lookup. split; [by rewrite seq_length, fmap_length|].
    intros i j x Hi Hx. apply lookup_seq in Hi as [-> Hi]. cbn. rewrite list_lookup_fmap in Hx. destruct (l !! i) as [t|] eqn:Ht; [|done]. injection Hx as <-.
    assert (t < ch_nodes c) as Htn by (by eapply Forall_lookup_1 in Hbl; [|exact Ht]).
    destruct (pn_list _ _ _ _ _ _ _ Hp i t (krk c t) Ht) as [E _]; [by apply krk_ok|]. by rewrite E. }
  destruct d; unfold cq_distances_to_targets, cq_distances_to_sources; rewrite Hst, bool_decide_eq_true_2 by done; cbn [chk];
    rewrite bind_S, Hk, bind_S; unfold extract_distances; cbn [ktgt ksrc] in *; rewrite Hpl, bind_S; done.
Qed.

Lemma pin_extra d W (dflt : W) link P n tail head w c q pins ss l e tmp out :
  linkable link P -> ch_of n tail head w c -> kinv q (c, KPinDone d pins ss) -> Forall (fun x => x < n) (pins ++ ss.*1) ->
  length l = length head -> Forall P l -> extra_for dflt link c l e -> n <= length tmp -> length pins <= length out ->
  exists q' tmp' out' ds, (if d then cq_extra_to_targets dflt link else cq_extra_to_sources dflt link) q e tmp out = Some (q', tmp', out') /\
    (if d then cq_distances_to_targets q else cq_distances_to_sources q) = Some ds /\
    (if d then cq_distances_to_targets q' else cq_distances_to_sources q') = Some ds /\
    length out' = length out /\ (forall i, length pins <= i -> out' !! i = out !! i) /\
    forall i t x, pins !! i = Some t -> ds !! i = Some x -> exists v, out' !! i = Some v /\
      (x = inf_weight -> v = dflt) /\
      (x <> inf_weight -> exists s dx p, (s, dx) ∈ ss /\ (if d then awalk tail head s p t else awalk tail head t p s) /\ x = (dx + total w p)%N /\ extra_along dflt link l p v).
Proof.
  intros HP HC Hq Hb Hl HlP He Htmp Hout. pose proof (of_ok _ _ _ _ _ HC) as Hok. pose proof (of_nodes _ _ _ _ _ HC) as Hn.
  pose proof (proj1 (proj1 (Forall_app _ _ _) Hb)) as Hbl. pose proof (proj2 (proj1 (Forall_app _ _ _) Hb)) as Hbs.
  destruct (extra_to_ok dflt link d q c pins ss e tmp out Hq) as (q' & tmp' & out' & E & Hq' & A1 & A2 & A3 & S & F & s0 & sel & R & A4);
    [by rewrite Hn|by eapply extra_for_fits; eauto|by rewrite Hn|done|].
  destruct (pin_answers d n tail head w c q pins ss HC Hq Hb) as (ds & us & D1 & D2 & _ & _ & D3).
  assert (Forall (fun x => x < ch_nodes c) pins) as Hbl' by (by rewrite Hn).
  pose proof (pin_distances d c q pins ss Hq Hbl') as M. pose proof (pin_distances d c q' pins ss Hq' Hbl') as M'. rewrite A3, <- M in M'.
  exists q', tmp', out', ds. split; [done|]. split; [done|]. split; [congruence|]. split; [done|]. split; [done|].
  intros i t x Hi Hx. assert (s_dist (ksrc d q) !! krk c t = Some x) as Hd.
  { rewrite D1 in M. symmetry in M. apply mapM_Some_1 in M. eapply Forall2_lookup_lr in M; [exact M| |done]. by rewrite list_lookup_fmap, Hi. }
  destruct (A4 i t x Hi Hd) as (v & Hv & Hor). exists v. split; [done|]. split.
  - intros ->. destruct Hor as [[? _]|[_ ?]]; [lia|done].
  - intros Hne. destruct Hor as [[_ (as_ & o & Hc & ->)]|[? _]]; [|done].
    assert (forall s dx, (s, dx) ∈ ss -> s < n) as Hss.
    { intros s dx Hs. eapply Forall_forall in Hbs; [exact Hbs|]. apply elem_of_list_fmap. by exists (s, dx). }
    destruct (xchain_route dflt link P HP n tail head w c l Hok Hl HlP e d He R (krks c ss) S F s0 (ksrc d q) sel (krk c t) x as_ o Hc)
      as (z & d0 & L & p & ws & j & k & B1 & -> & B3 & B4 & B5 & B6 & B7).
    { intros z dz (s & Hs & ->)%elem_of_krks. eapply order_rank; [done|by eapply Hss]. }
    apply elem_of_krks in B1 as (s & Hs & ->). destruct (order_rank _ _ _ _ _ HC s (Hss _ _ Hs)) as [Os _]. assert (j = s) as -> by congruence.
    assert (t < n) as Htn by (by eapply Forall_lookup_1 in Hbl; [|exact Hi]).
    destruct (order_rank _ _ _ _ _ HC t Htn) as [Ot _]. assert (k = t) as -> by congruence.
    exists s, d0, p.*1. split; [done|]. split; [destruct d; apply B5|]. split; [f_equal; symmetry; destruct d; apply B5|].
    exists ws. split; [done|]. destruct o as [r|]; [apply B7|]. subst p. injection B6 as <-. done.
Qed.

(** After any allowed history ending in a run to pinned targets, every pinned target gets the linked extra
    weight of a shortest path, from some source that attains the distance, and the default value if it
    is not reached. The distances stay as they were. *)
Theorem C42_targets : forall W (dflt : W) link P n tail head w c c0 ops pins ss l e tmp out,
  linkable link P -> any_ch c0 -> ch_of n tail head w c -> khistory any_ch (c0, KInit [] []) ops (c, KPinDone true pins ss) ->
  length l = length head -> Forall P l -> extra_for dflt link c l e -> n <= length tmp -> length pins <= length out ->
  exists q q' tmp' out' ds, kexec_all ops (new_cquery c0) = Some q /\ cq_extra_to_targets dflt link q e tmp out = Some (q', tmp', out') /\
    cq_distances_to_targets q = Some ds /\ cq_distances_to_targets q' = Some ds /\ length ds = length pins /\
    length out' = length out /\ (forall i, length pins <= i -> out' !! i = out !! i) /\
    forall i t x, pins !! i = Some t -> ds !! i = Some x -> best_route (arcs_of tail head w) ss [(t, 0%N)] x /\
      exists v, out' !! i = Some v /\ (x = inf_weight -> v = dflt) /\
        (x <> inf_weight -> exists s dx p, (s, dx) ∈ ss /\ awalk tail head s p t /\ x = (dx + total w p)%N /\ extra_along dflt link l p v).
Proof.
  intros W dflt link P n tail head w c c0 ops pins ss l e tmp out HP H0 HC Hh Hl HlP He Htmp Hout.
  destruct (khistory_run _ _ _ _ H0 Hh) as (q & E & Hq & Hb). rewrite (of_nodes _ _ _ _ _ HC) in Hb.
  destruct (pin_extra true W dflt link P n tail head w c q pins ss l e tmp out) as (q' & tmp' & out' & ds & E1 & E2 & E3 & E4 & E5 & E6); [done..|].
  destruct (pin_answers true n tail head w c q pins ss HC Hq Hb) as (ds' & us & D1 & D2 & D3 & D4 & D5). assert (ds' = ds) as -> by congruence.
  exists q, q', tmp', out', ds. do 7 (split; [done|]). intros i t x Hi Hx. split; [|by apply E6].
  destruct (lookup_lt_is_Some_2 us i) as [u Hu]; [apply lookup_lt_Some in Hi; lia|]. by apply (D5 i t x u).
Qed.
Print Assumptions C42_targets.
Theorem C42_sources : forall W (dflt : W) link P n tail head w c c0 ops pins ts l e tmp out,
  linkable link P -> any_ch c0 -> ch_of n tail head w c -> khistory any_ch (c0, KInit [] []) ops (c, KPinDone false pins ts) ->
  length l = length head -> Forall P l -> extra_for dflt link c l e -> n <= length tmp -> length pins <= length out ->
  exists q q' tmp' out' ds, kexec_all ops (new_cquery c0) = Some q /\ cq_extra_to_sources dflt link q e tmp out = Some (q', tmp', out') /\
    cq_distances_to_sources q = Some ds /\ cq_distances_to_sources q' = Some ds /\ length ds = length pins /\
    length out' = length out /\ (forall i, length pins <= i -> out' !! i = out !! i) /\
    forall i s x, pins !! i = Some s -> ds !! i = Some x -> best_route (arcs_of tail head w) [(s, 0%N)] ts x /\
      exists v, out' !! i = Some v /\ (x = inf_weight -> v = dflt) /\
        (x <> inf_weight -> exists t dx p, (t, dx) ∈ ts /\ awalk tail head s p t /\ x = (dx + total w p)%N /\ extra_along dflt link l p v).
Proof.
  intros W dflt link P n tail head w c c0 ops pins ss l e tmp out HP H0 HC Hh Hl HlP He Htmp Hout.
  destruct (khistory_run _ _ _ _ H0 Hh) as (q & E & Hq & Hb). rewrite (of_nodes _ _ _ _ _ HC) in Hb.
  destruct (pin_extra false W dflt link P n tail head w c q pins ss l e tmp out) as (q' & tmp' & out' & ds & E1 & E2 & E3 & E4 & E5 & E6); [done..|].
  destruct (pin_answers false n tail head w c q pins ss HC Hq Hb) as (ds' & us & D1 & D2 & D3 & D4 & D5). assert (ds' = ds) as -> by congruence.
  exists q, q', tmp', out', ds. do 7 (split; [done|]). intros i t x Hi Hx. split; [|by apply E6].
  destruct (lookup_lt_is_Some_2 us i) as [u Hu]; [apply lookup_lt_Some in Hi; lia|]. by apply (D5 i t x u).
Qed.
Print Assumptions C42_sources.
(** The functions that allocate their results return one entry for every pinned node. *)
Theorem C42_allocating : forall W (dflt : W) link P d n tail head w c c0 ops pins ss l e,
  linkable link P -> any_ch c0 -> ch_of n tail head w c -> khistory any_ch (c0, KInit [] []) ops (c, KPinDone d pins ss) ->
  length l = length head -> Forall P l -> extra_for dflt link c l e ->
  exists q q' out ds, kexec_all ops (new_cquery c0) = Some q /\ cq_extra_to_new dflt link d q e = Some (q', out) /\
    (if d then cq_distances_to_targets q else cq_distances_to_sources q) = Some ds /\ length out = length pins /\
    forall i t x, pins !! i = Some t -> ds !! i = Some x -> exists v, out !! i = Some v /\ (x = inf_weight -> v = dflt) /\
      (x <> inf_weight -> exists s dx p, (s, dx) ∈ ss /\ (if d then awalk tail head s p t else awalk tail head t p s) /\ x = (dx + total w p)%N /\ extra_along dflt link l p v).
Proof.
  intros W dflt link P d n tail head w c c0 ops pins ss l e HP H0 HC Hh Hl HlP He.
  destruct (khistory_run _ _ _ _ H0 Hh) as (q & E & Hq & Hb). rewrite (of_nodes _ _ _ _ _ HC) in Hb.
  destruct (pin_extra d W dflt link P n tail head w c q pins ss l e (replicate n dflt) (replicate (length pins) dflt)) as (q' & tmp' & out & ds & E1 & E2 & _ & E4 & _ & E6);
    [done..|by rewrite replicate_length|by rewrite replicate_length|].
  exists q, q', out, ds. split; [done|]. split; [|split; [done|split; [by rewrite E4, replicate_length|done]]].
  destruct Hq as (Hqc & _ & Hst & cnt & sel & s0 & S & F & Hm & Hk & _). cbn [fst snd] in *.
  unfold cq_extra_to_new, cq_extra_to. rewrite Hqc, (of_nodes _ _ _ _ _ HC), Hst. rewrite bool_decide_eq_true_2 by (by destruct d). cbn [chk].
  rewrite bind_S, Hk, bind_S. destruct d; rewrite E1, bind_S; done.
Qed.
Print Assumptions C42_allocating.

(** ** Examples *)
(** The weights are the names of the arcs, linking is concatenation: the result spells the path. *)
Definition ex_names : list (list nat) := [[0];[1];[2];[3];[4];[5];[6];[7];[8];[9]].
Lemma ex_linkable : linkable (@app nat) (fun _ => True).
Proof. split; [done|]. intros a b c _ _ _. apply app_assoc. Qed.
Lemma ex_names_P : Forall (fun _ : list nat => True) ex_names.
Proof. repeat constructor. Qed.
Definition ex_arc_names : list (list nat) * list (list nat) := Eval vm_compute in default ([], []) (extra_reset [] app ex_ch ex_names ([[8;8]], [])).
(** Shortcuts of up to five arcs; the vectors held something else before. *)
Example C42_ex_arcs : linkable (@app nat) (fun _ => True) /\ ch_of 6 ex_ch_tail ex_ch_head ex_ch_w ex_ch /\ length ex_names = length ex_ch_head /\
  Forall (fun _ => True) ex_names /\
  extra_reset [] app ex_ch ex_names ([[8;8]], []) = Some ([[3]; [5]; [0]; [8]; [2; 3]; [1; 2; 3]], [[2]; [4]; [9]; [1]; [4; 5]; [9; 5]; [4; 0]; [9; 0]; [9; 0; 1; 2; 3]]) /\
  ex_arc_names = ([[3]; [5]; [0]; [8]; [2; 3]; [1; 2; 3]], [[2]; [4]; [9]; [1]; [4; 5]; [9; 5]; [4; 0]; [9; 0]; [9; 0; 1; 2; 3]]).
Proof.
  split; [apply ex_linkable|]. split; [apply ex_ch_of|]. split; [done|]. split; [apply ex_names_P|]. split; vm_compute; reflexivity.
Qed.
Definition ex_extra : extra (list nat) := XArcs (fst ex_arc_names) (snd ex_arc_names).
Lemma ex_extra_for : extra_for [] app ex_ch ex_names ex_extra.
Proof. right. exists ([[8;8]], []), (fst ex_arc_names), (snd ex_arc_names). split; [vm_compute; reflexivity|done]. Qed.
Example C42_ex_distance : extra_for [] app ex_ch ex_names ex_extra /\ exists q, kexec_all ex_ch_ops (new_cquery ex_ch') = Some q /\
  cq_arc_path q = Some [2; 3] /\ cq_extra_distance [] app q (XInput ex_names) = Some [2; 3] /\ cq_extra_distance [] app q ex_extra = Some [2; 3].
Proof.
  split; [apply ex_extra_for|]. eexists. split; [vm_compute; reflexivity|]. split; [vm_compute; reflexivity|]. split; vm_compute; reflexivity.
Qed.
(** A call with other extra weights and larger containers in between. The third target is not reached. *)
Definition ex_xpin_ops : list chop := [KPinTargets [0; 3; 5; 0]; KSource 2 1; KRunToTargets;
  KExtra (list nat) [] app true (XInput (replicate 11 [1])) (replicate 7 []) (replicate 5 []);
  KResetSource; KSource 4 3; KSource 1 2; KRunToTargets].
Lemma ex_xpin_history : khistory any_ch (ex_ch, KInit [] []) ex_xpin_ops (ex_ch, KPinDone true [0; 3; 5; 0] [(1, 2%N); (4, 3%N)]).
Proof.
  eapply kh_cons; [apply ka_pin_targets; [repeat (constructor; [vm_compute; lia|]); constructor|vm_compute; lia]|].
  eapply kh_cons; [apply ka_pin_source; [vm_compute; lia|vm_compute; discriminate]|].
  eapply kh_cons; [by apply ka_to_targets|].
  eapply kh_cons; [apply ka_extra; [|vm_compute; lia|vm_compute; lia]|].
  { assert (forall l i a, Forall (fun i => i < 11) l -> l !! a = Some i -> i < 11) as Hin by (intros l i a Hl Ha; exact (Forall_lookup_1 _ _ _ _ Hl Ha)).
    intros sd a i Hsd _ Hi. rewrite replicate_length. eapply Hin; [|exact Hi].
    destruct Hsd as [-> | ->]; vm_compute; repeat (constructor; [lia|]); constructor. }
  eapply kh_cons; [apply ka_reset_source'|].
  do 2 (eapply kh_cons; [apply ka_pin_source; [vm_compute; lia|vm_compute; discriminate]|]).
  eapply kh_cons; [by apply ka_to_targets|]. constructor.
Qed.
Example C42_ex_targets : khistory any_ch (ex_ch, KInit [] []) ex_xpin_ops (ex_ch, KPinDone true [0; 3; 5; 0] [(1, 2%N); (4, 3%N)]) /\
  exists q, kexec_all ex_xpin_ops (new_cquery ex_ch) = Some q /\ cq_distances_to_targets q = Some [8; 11; inf_weight; 8]%N /\
    (r ← cq_extra_to_new [] app true q (XInput ex_names); Some (snd r)) = Some [[4]; [1; 2]; []; [4]] /\
    (r ← cq_extra_to_new [] app true q ex_extra; Some (snd r)) = Some [[4]; [1; 2]; []; [4]] /\
    (r ← cq_extra_to_targets [] app q ex_extra (replicate 6 [7]) (replicate 5 [7]); Some (snd r)) = Some [[4]; [1; 2]; []; [4]; [7]].
Proof. split; [apply ex_xpin_history|]. eexists. split; [vm_compute; reflexivity|]. split_and!; vm_compute; reflexivity. Qed.
Definition ex_xsrc_ops : list chop := [KPinSources [5; 3; 0; 4; 1; 3]; KTarget 3 2; KTarget 2 1; KRunToSources].
Example C42_ex_sources : khistory any_ch (ex_ch, KInit [] []) ex_xsrc_ops (ex_ch, KPinDone false [5; 3; 0; 4; 1; 3] [(2, 1%N); (3, 2%N)]) /\
  exists q, kexec_all ex_xsrc_ops (new_cquery ex_ch) = Some q /\ cq_distances_to_sources q = Some [8; 2; 7; 12; 3; 2]%N /\
    (r ← cq_extra_to_new [] app false q (XInput ex_names); Some (snd r)) = Some [[9; 0; 1]; []; [0; 1]; [4; 0; 1]; [1]; []] /\
    (r ← cq_extra_to_new [] app false q ex_extra; Some (snd r)) = Some [[9; 0; 1]; []; [0; 1]; [4; 0; 1]; [1]; []].
Proof.
  split.
  - eapply kh_cons; [apply ka_pin_sources; [repeat (constructor; [vm_compute; lia|]); constructor|vm_compute; lia]|].
    do 2 (eapply kh_cons; [apply ka_pin_target; [vm_compute; lia|vm_compute; discriminate]|]).
    eapply kh_cons; [by apply ka_to_sources|]. constructor.
  - eexists. split; [vm_compute; reflexivity|]. split_and!; vm_compute; reflexivity.
Qed.

(** ** SaturatedWeightAddition *)
From Verif Require Import SaturatedModel Properties_Saturated.
Local Close Scope Z_scope.
(** The default link function for unsigned weights, which are at most inf_weight, can be used. *)
Definition sat_link (l r : Z) : Z := default 0%Z (sat_unsigned true l r).
Theorem C42_saturated : linkable sat_link weight.
Proof.
  unfold sat_link. split.
  - intros a b Ha Hb. destruct (C41_closed true a b Ha Hb) as (s & -> & Hs). done.
  - intros a b c Ha Hb Hc. pose proof (C41_assoc true a b c Ha Hb Hc) as E.
    destruct (C41_closed true a b Ha Hb) as (s & E1 & Hs). destruct (C41_closed true b c Hb Hc) as (t & E2 & Ht).
    rewrite E1, E2 in *. cbn [mbind option_bind from_option] in *. cbn in E |- *. by rewrite E.
Qed.
Print Assumptions C42_saturated.
(** The one for signed weights is not associative, and the result is not that of the path: the path
    costs 2147483647, 1 and -1. *)
Definition sat_slink (l r : Z) : Z := default 0%Z (sat_signed l r).
Definition ex_line : ch := Eval vm_compute in default (mkCh [] [] no_side no_side) (ch_build_given_order true 10 [2;1;0;3] [0;1;2] [1;2;3] [1;1;1]%N).
Theorem C42_signed_refuted : exists n tail head w c ops ss ts l q p v,
  ch_of n tail head w c /\ khistory any_ch (c, KInit [] []) ops (c, KDone ss ts) /\ length l = length head /\
  Forall (fun x => (-2147483648 <= x <= 2147483647)%Z) l /\
  kexec_all ops (new_cquery c) = Some q /\ cq_arc_path q = Some p /\ cq_extra_distance 0%Z sat_slink q (XInput l) = Some v /\
  ~ extra_along 0%Z sat_slink l p v.
Proof.
  exists 4, [0;1;2], [1;2;3], [1;1;1]%N, ex_line, [KSource 0 0; KTarget 3 0; KRun], [(0, 0%N)], [(3, 0%N)], [2147483647; 1; -1]%Z.
  eexists _, _, _. split.
  { split; [split; [done|split; [done|split; repeat (constructor; [lia|]); constructor]]|]. split; [|split; apply below_forallb; vm_compute; reflexivity].
    exists true, 10. right. right. left. exists [2;1;0;3]. split; [|split; [done|vm_compute; reflexivity]].
    unfold perm. change (seq 0 _) with [0;1;2;3]. apply NoDup_Permutation.
    - by apply (bool_decide_unpack _); vm_compute.
    - by apply (bool_decide_unpack _); vm_compute.
    - intros x. rewrite !elem_of_cons, elem_of_nil. tauto. }
  split.
  { eapply kh_cons; [apply ka_source; [vm_compute; lia|vm_compute; discriminate]|].
    eapply kh_cons; [apply ka_target; [vm_compute; lia|vm_compute; discriminate]|]. eapply kh_cons; [by apply ka_run|]. constructor. }
  split; [done|]. split; [repeat (constructor; [lia|]); constructor|]. split; [vm_compute; reflexivity|].
  split; [vm_compute; reflexivity|]. split; [vm_compute; reflexivity|].
  intros (ws & E & Hv). vm_compute in E. injection E as <-. vm_compute in Hv. discriminate.
Qed.
Print Assumptions C42_signed_refuted.
Example C42_ex_saturated : weight 2000000000 /\ link_all 0%Z sat_link [2000000000; 2000000000; 1]%Z = 2147483647%Z /\
  exists q, kexec_all ex_ch_ops (new_cquery ex_ch') = Some q /\
    cq_extra_distance 0%Z sat_link q (XInput [1;2;3;4;5;6;7;8;9;10]%Z) = Some 7%Z.
Proof. split; [unfold weight, inf_weight; split; discriminate|]. split; [vm_compute; reflexivity|]. eexists. split; [vm_compute; reflexivity|]. vm_compute; reflexivity. Qed.
