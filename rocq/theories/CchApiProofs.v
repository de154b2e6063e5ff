(** Every allowed sequence of calls on a CCH query object succeeds and keeps the invariant below. *)
From Verif Require Import Base UtilSpec GraphSpec PathSpec WalkSpec CchModel CchSpec CchCustomizeProofs CchQueryProofs CchUnpackProofs CchPinProofs CchApiSpec.
Ltac Zify.zify_post_hook ::= idtac.

Lemma elem_of_rks c ss x d : (x, d) ∈ rks c ss <-> exists s, (s, d) ∈ ss /\ x = rk c s.
Proof.
  unfold rks. rewrite elem_of_list_fmap. split.
  - intros ([s d'] & [= -> ->] & H). by exists s.
  - intros (s & H & ->). by exists (s, d).
Qed.

Ltac dec_state := repeat match goal with
  | |- context [decide ?P] => first [rewrite (decide_True (P := P)) by (by auto) | rewrite (decide_False (P := P)) by (by intros [|])]
  end.

Section Api.
  Context (n : nat) (rt rh : list nat) (c : cch) (WF : wf_cch n rt rh c).
  Context (Hrk : forall s, s < n -> c_rank c !! s = Some (rk c s) /\ rk c s < n).

  Definition src_side (d : bool) (q : query) : side := if d then q_fw q else q_bw q.
  Definition tgt_side (d : bool) (q : query) : side := if d then q_bw q else q_fw q.
  Definition pinned_side (pins lb : list nat) (s : side) : Prop :=
    side_ok n (c_parent c) s lb /\ td s = replicate n inf_weight /\ nodes s = rk c <$> pins /\ (forall x, x ∈ nodes s -> x ∈ lb).

  Definition qinv (q : query) (G : asked) : Prop :=
    match G with
    | GInit ss ts => q_state q = Initialized /\ exists lf lb,
        side_ok n (c_parent c) (q_fw q) lf /\ srcs_ok (rks c ss) (td (q_fw q)) (pr (q_fw q)) lf /\ (ss = [] -> fresh n (q_fw q)) /\
        side_ok n (c_parent c) (q_bw q) lb /\ srcs_ok (rks c ts) (td (q_bw q)) (pr (q_bw q)) lb /\ (ts = [] -> fresh n (q_bw q))
    | GRun m ss ts => q_state q = Run /\ metric_ok c m /\ exists lf lb tf0 pf0 tb0 pb0 best,
        side_ok n (c_parent c) (q_fw q) lf /\ srcs_ok (rks c ss) tf0 pf0 lf /\ upinv n c (m_fwd m) lf tf0 pf0 (td (q_fw q)) (pr (q_fw q)) /\
        side_ok n (c_parent c) (q_bw q) lb /\ srcs_ok (rks c ts) tb0 pb0 lb /\ upinv n c (m_bwd m) lb tb0 pb0 (td (q_bw q)) (pr (q_bw q)) /\
        meet_ok (fun _ => True) (td (q_fw q)) (td (q_bw q)) (q_meet q) best
    | GPin d pins ss => q_state q = (if d then TargetPinned else SourcePinned) /\ exists l lb,
        side_ok n (c_parent c) (src_side d q) l /\ srcs_ok (rks c ss) (td (src_side d q)) (pr (src_side d q)) l /\
        pinned_side pins lb (tgt_side d q)
    | GPinRun d pins m ss => q_state q = (if d then TargetRun else SourceRun) /\ metric_ok c m /\ exists l lb t0 p0 t1 p1,
        side_ok n (c_parent c) (src_side d q) l /\ srcs_ok (rks c ss) t0 p0 l /\
        upinv n c (wts m d) l t0 p0 t1 p1 /\ dninv n c (wts m (negb d)) lb t1 (td (src_side d q)) /\
        pinned_side pins lb (tgt_side d q)
    end.

  Lemma new_query_inv : qinv (new_query c) (GInit [] []).
  Proof.
    assert (c_node_count c = n) as Hn by apply (wf_n _ _ _ _ WF).
    split; [done|]. exists [], []. cbn. rewrite Hn.
    pose proof (new_side_fresh n) as Hf. destruct (fresh_ok n rt rh c WF _ Hf) as [H1 H2].
    cbn in H2. done.
  Qed.

  Lemma fresh_reset s l :
    side_ok n (c_parent c) s l -> (forall y, y ∉ l -> tv (td s) y = inf_weight) ->
    exists s', reset_source_list c s = Some s' /\ fresh n s' /\ pr s' = pr s.
  Proof.
    intros Hs Hout. destruct (reset_source_list_spec n rt rh c WF s l Hs) as (t & H1 & H2 & H3 & H4).
    eexists. split; [exact H1|]. split; [|done]. constructor; cbn; try done; [|apply Hs].
    apply all_inf; [done|]. intros y. destruct (decide (y ∈ l)); [by apply H3|]. rewrite H4 by done. by apply Hout.
  Qed.
  Lemma fresh_pinned s pins lb : pinned_side pins lb s -> exists s', reset_source_list c s = Some s' /\ fresh n s'.
  Proof.
    intros (Hs & Ht & _ & _). destruct (fresh_reset s lb Hs) as (s' & H & H' & _); [|by exists s'].
    intros y _. rewrite Ht. unfold tv. destruct (replicate n inf_weight !! y) eqn:E; [|done].
    by apply lookup_replicate in E as [-> _].
  Qed.
  Lemma srcs_out ss t p l y : srcs_ok ss t p l -> y ∉ l -> tv t y = inf_weight.
  Proof.
    intros H Hy. pose proof (tv_le _ (sr_inf _ _ _ _ H) y).
    destruct (decide (tv t y < inf_weight)%N) as [Hlt|]; [|lia].
    destruct (sr_val _ _ _ _ H y Hlt) as [Hin _]. by apply (sr_in _ _ _ _ H) in Hin.
  Qed.
  Lemma upinv_out W ss l t0 p0 t p y :
    ord_ok (c_parent c) l -> srcs_ok ss t0 p0 l -> upinv n c W l t0 p0 t p -> y ∉ l -> tv t y = inf_weight.
  Proof.
    intros Ho Hs Hu Hy. pose proof (tv_le _ (ui_inf _ _ _ _ _ _ _ _ Hu) y).
    destruct (decide (tv t y < inf_weight)%N) as [Hlt|]; [|lia].
    destruct Hy. by eapply (up_reach n rt rh c WF W ss l t0 t p0 p).
  Qed.
  (** The source side of a pinned query after the reset of the distances at the pinned nodes. *)
  Lemma pinned_reset d q pins lb l :
    pinned_side pins lb (tgt_side d q) -> side_ok n (c_parent c) (src_side d q) l ->
    (forall y, y ∉ l -> y ∉ lb -> tv (td (src_side d q)) y = inf_weight) ->
    (exists s t, reset_source_list c (src_side d q) = Some s /\ reset_target_distances c (tgt_side d q) (td s) = Some t /\
      fresh n (with_td s t)) /\
    (exists s t, reset_target_distances c (tgt_side d q) (td (src_side d q)) = Some t /\
      reset_source_list c (with_td (src_side d q) t) = Some s /\ fresh n s).
  Proof.
    intros (Hp & Ht & _) Hs Hout. split.
    - destruct (reset_source_list_spec n rt rh c WF _ l Hs) as (t & H1 & H2 & H3 & H4).
      destruct (reset_target_distances_spec n rt rh c WF _ lb t Hp H2) as (t' & H5 & H6 & H7 & H8).
      eexists _, t'. split; [exact H1|]. split; [exact H5|]. constructor; cbn; try done; [|apply Hs].
      apply all_inf; [done|]. intros y. destruct (decide (y ∈ lb)); [by apply H7|]. rewrite H8 by done.
      destruct (decide (y ∈ l)); [by apply H3|]. rewrite H4 by done. by apply Hout.
    - destruct (reset_target_distances_spec n rt rh c WF _ lb _ Hp (so_td _ _ _ _ Hs)) as (t' & H5 & H6 & H7 & H8).
      assert (side_ok n (c_parent c) (with_td (src_side d q) t') l) as Hs'.
      { apply side_ok_with; [done|done|apply Hs]. }
      destruct (fresh_reset _ l Hs') as (s & H1 & H2 & _).
      { intros y Hy. cbn. destruct (decide (y ∈ lb)); [by apply H7|]. rewrite H8 by done. by apply Hout. }
      by exists s, t'.
  Qed.
  Lemma with_td_self s : with_td s (td s) = s.
  Proof. by destruct s. Qed.
  Lemma fresh_init f b o : fresh n f -> fresh n b -> qinv (mkQuery f b o Initialized) (GInit [] []).
  Proof.
    intros Hf Hb. split; [done|]. exists [], []. cbn. destruct (fresh_ok n rt rh c WF f Hf), (fresh_ok n rt rh c WF b Hb). done.
  Qed.
  Lemma pin_out d q pins lb l ss t0 p0 t1 p1 m y :
    pinned_side pins lb (tgt_side d q) -> ord_ok (c_parent c) l -> srcs_ok ss t0 p0 l -> upinv n c (wts m d) l t0 p0 t1 p1 ->
    dninv n c (wts m (negb d)) lb t1 (td (src_side d q)) -> y ∉ l -> y ∉ lb -> tv (td (src_side d q)) y = inf_weight.
  Proof.
    intros _ Ho Hs Hu Hd Hy Hy'. rewrite (dn_out _ _ _ _ _ _ Hd) by done. by eapply upinv_out.
  Qed.
  Lemma mapM_ranks l : Forall (fun t => t < n) l -> mapM (fun t => c_rank c !! t) l = Some (rk c <$> l).
  Proof.
    intros H. induction H as [|x l Hx _ IH]; [done|]. cbn [mapM]. rewrite (proj1 (Hrk x Hx)). bs. rewrite IH. done.
  Qed.
  Lemma metric_wts m d : metric_ok c m -> length (wts m d) = length (up_head c) /\ Forall (fun x => (x <= inf_weight)%N) (wts m d).
  Proof. intros (? & ? & ? & ?). by destruct d. Qed.

  Theorem exec_ok q G o G' : qinv q G -> allowed n c G o G' -> exists q', exec c o q = Some q' /\ qinv q' G'.
  Proof.
    intros H Ha. destruct Ha as [ss ts s d Hs Hd|ss ts t d Ht Hd|ss ts m Hm|ss l Hl|ts l Hl|l ss s d Hs Hd|l ts t d Ht Hd
      |l ss m Hm|l ts m Hm|l ss|l m ss|l ts|l m ts|G]; cbn [exec].
    - destruct H as (Hst & lf & lb & H1 & H2 & H3 & H4 & H5 & H6). destruct (Hrk s Hs) as [Hr Hr'].
      destruct (add_source_spec n rt rh c WF _ lf _ s (rk c s) d H1 H2 Hr Hd Hr') as (s' & l' & E & Hs1 & Hs2).
      unfold q_add_source. rewrite Hst. cbn [bool_decide chk]. rewrite bool_decide_true by (by left). cbn [chk]. bs.
      rewrite E. bs. eexists. split; [done|]. split; [done|]. exists l', lb. cbn. done.
    - destruct H as (Hst & lf & lb & H1 & H2 & H3 & H4 & H5 & H6). destruct (Hrk t Ht) as [Hr Hr'].
      destruct (add_source_spec n rt rh c WF _ lb _ t (rk c t) d H4 H5 Hr Hd Hr') as (s' & l' & E & Hs1 & Hs2).
      unfold q_add_target. rewrite Hst. rewrite bool_decide_true by (by left). cbn [chk]. bs.
      rewrite E. bs. eexists. split; [done|]. split; [done|]. exists lf, l'. cbn. done.
    - destruct H as (Hst & lf & lb & H1 & H2 & H3 & H4 & H5 & H6). pose proof Hm as (M1 & M2 & M3 & M4).
      destruct (q_run_spec n rt rh c WF m M1 M2 M3 M4 q lf lb _ _ Hst H1 H4 H2 H5) as (tf & pf & tb & pb & meet & best & E & U1 & U2 & Hme).
      rewrite E. eexists. split; [done|]. split; [done|]. split; [done|].
      eexists lf, lb, _, _, _, _, best. cbn. repeat (split; [eassumption || (apply side_ok_with; [done|by apply U1|by apply U1]) || (apply side_ok_with; [done|by apply U2|by apply U2])|]).
      done.
    - destruct H as (Hst & lf & lb & H1 & H2 & H3 & H4 & H5 & H6).
      destruct (internal_pin_spec n rt rh c WF (q_bw q) l (rk c <$> l)) as (ins & es & lb' & E & Hso & Hin);
        [by apply H6|by apply mapM_ranks| |].
      { apply Forall_fmap. eapply Forall_impl; [exact Hl|]. intros x Hx. by apply Hrk. }
      unfold q_pin_targets. rewrite Hst, bool_decide_true by done. cbn [chk]. bs. rewrite E. bs.
      eexists. split; [done|]. split; [done|]. exists lf, lb'. cbn. split; [done|]. split; [done|].
      split; [done|]. split; [by apply (fr_td _ _ (H6 eq_refl))|]. done.
    - destruct H as (Hst & lf & lb & H1 & H2 & H3 & H4 & H5 & H6).
      destruct (internal_pin_spec n rt rh c WF (q_fw q) l (rk c <$> l)) as (ins & es & lb' & E & Hso & Hin);
        [by apply H3|by apply mapM_ranks| |].
      { apply Forall_fmap. eapply Forall_impl; [exact Hl|]. intros x Hx. by apply Hrk. }
      unfold q_pin_sources. rewrite Hst, bool_decide_true by done. cbn [chk]. bs. rewrite E. bs.
      eexists. split; [done|]. split; [done|]. exists lb, lb'. cbn. split; [done|]. split; [done|].
      split; [done|]. split; [by apply (fr_td _ _ (H3 eq_refl))|]. done.
    - destruct H as (Hst & lf & lb & H1 & H2 & H3). cbn in Hst, H1, H2, H3. destruct (Hrk s Hs) as [Hr Hr'].
      destruct (add_source_spec n rt rh c WF _ lf _ s (rk c s) d H1 H2 Hr Hd Hr') as (s' & l' & E & Hs1 & Hs2).
      unfold q_add_source. rewrite Hst, bool_decide_true by (by right). cbn [chk]. bs.
      rewrite E. bs. eexists. split; [done|]. split; [done|]. exists l', lb. cbn. done.
    - destruct H as (Hst & lf & lb & H1 & H2 & H3). cbn in Hst, H1, H2, H3. destruct (Hrk t Ht) as [Hr Hr'].
      destruct (add_source_spec n rt rh c WF _ lf _ t (rk c t) d H1 H2 Hr Hd Hr') as (s' & l' & E & Hs1 & Hs2).
      unfold q_add_target. rewrite Hst, bool_decide_true by (by right). cbn [chk]. bs.
      rewrite E. bs. eexists. split; [done|]. split; [done|]. exists l', lb. cbn. done.
    - destruct H as (Hst & lf & lb & H1 & H2 & H3). cbn in Hst, H1, H2, H3. pose proof Hm as (M1 & M2 & M3 & M4).
      destruct (run_to_pinned_spec n rt rh c WF (m_fwd m) (m_bwd m) M1 M2 M3 M4 (q_fw q) (q_bw q) lf lb _ H1 H2 (proj1 H3) (proj1 (proj2 H3)))
        as (t & t1 & p1 & E & U & D).
      unfold q_run_to_pinned_targets. rewrite Hst, bool_decide_true by done. cbn [chk]. bs. rewrite E. bs. cbv iota.
      eexists. split; [done|]. split; [done|]. split; [done|]. eexists lf, lb, _, _, t1, p1. cbn.
      split; [apply side_ok_with; [done|apply D|apply H1]|]. eauto.
    - destruct H as (Hst & lf & lb & H1 & H2 & H3). cbn in Hst, H1, H2, H3. pose proof Hm as (M1 & M2 & M3 & M4).
      destruct (run_to_pinned_spec n rt rh c WF (m_bwd m) (m_fwd m) M2 M1 M4 M3 (q_bw q) (q_fw q) lf lb _ H1 H2 (proj1 H3) (proj1 (proj2 H3)))
        as (t & t1 & p1 & E & U & D).
      unfold q_run_to_pinned_sources. rewrite Hst, bool_decide_true by done. cbn [chk]. bs. rewrite E. bs. cbv iota.
      eexists. split; [done|]. split; [done|]. split; [done|]. eexists lf, lb, _, _, t1, p1. cbn.
      split; [apply side_ok_with; [done|apply D|apply H1]|]. eauto.
    - destruct H as (Hst & lf & lb & H1 & H2 & H3).
      destruct (pinned_reset true q l lb lf H3 H1) as [(s & t & E1 & E2 & Hf) _]; [intros; by eapply srcs_out|].
      cbn in Hst, E1, E2. unfold q_reset_source. rewrite Hst, bool_decide_true by (by left). cbn [chk]. bs. rewrite E1. bs. rewrite E2. bs.
      eexists. split; [done|]. split; [done|]. destruct (fresh_ok n rt rh c WF _ Hf). exists [], lb. cbn. done.
    - destruct H as (Hst & _ & lf & lb & t0 & p0 & t1 & p1 & H1 & H2 & H3 & H4 & H5).
      destruct (pinned_reset true q l lb lf H5 H1) as [(s & t & E1 & E2 & Hf) _]; [intros; eapply pin_out; [exact H5|apply H1|done..]|].
      cbn in Hst, E1, E2. unfold q_reset_source. rewrite Hst, bool_decide_true by (by right). cbn [chk]. bs. rewrite E1. bs. rewrite E2. bs.
      eexists. split; [done|]. split; [done|]. destruct (fresh_ok n rt rh c WF _ Hf). exists [], lb. cbn. done.
    - destruct H as (Hst & lf & lb & H1 & H2 & H3).
      destruct (pinned_reset false q l lb lf H3 H1) as [(s & t & E1 & E2 & Hf) _]; [intros; by eapply srcs_out|].
      cbn in Hst, E1, E2. unfold q_reset_target. rewrite Hst, bool_decide_true by (by left). cbn [chk]. bs. rewrite E1. bs. rewrite E2. bs.
      eexists. split; [done|]. split; [done|]. destruct (fresh_ok n rt rh c WF _ Hf). exists [], lb. cbn. done.
    - destruct H as (Hst & _ & lf & lb & t0 & p0 & t1 & p1 & H1 & H2 & H3 & H4 & H5).
      destruct (pinned_reset false q l lb lf H5 H1) as [(s & t & E1 & E2 & Hf) _]; [intros; eapply pin_out; [exact H5|apply H1|done..]|].
      cbn in Hst, E1, E2. unfold q_reset_target. rewrite Hst, bool_decide_true by (by right). cbn [chk]. bs. rewrite E1. bs. rewrite E2. bs.
      eexists. split; [done|]. split; [done|]. destruct (fresh_ok n rt rh c WF _ Hf). exists [], lb. cbn. done.
    - unfold q_reset. destruct G as [ss ts|m ss ts|d pins ss|d pins m ss].
      + destruct H as (Hst & lf & lb & H1 & H2 & H3 & H4 & H5 & H6).
        rewrite Hst, !decide_False by (intros [|]; done). bs. rewrite !with_td_self.
        destruct (fresh_reset _ lf H1) as (f & E1 & F1 & _); [intros; by eapply srcs_out|].
        destruct (fresh_reset _ lb H4) as (b & E2 & F2 & _); [intros; by eapply srcs_out|].
        rewrite E1. bs. rewrite E2. bs. eexists. split; [done|]. by apply fresh_init.
      + destruct H as (Hst & _ & lf & lb & tf0 & pf0 & tb0 & pb0 & best & H1 & H2 & H3 & H4 & H5 & H6 & _).
        rewrite Hst, !decide_False by (intros [|]; done). bs. rewrite !with_td_self.
        destruct (fresh_reset _ lf H1) as (f & E1 & F1 & _); [intros; eapply upinv_out; [apply H1|done..]|].
        destruct (fresh_reset _ lb H4) as (b & E2 & F2 & _); [intros; eapply upinv_out; [apply H4|done..]|].
        rewrite E1. bs. rewrite E2. bs. eexists. split; [done|]. by apply fresh_init.
      + destruct H as (Hst & l & lb & H1 & H2 & H3).
        destruct (pinned_reset d q pins lb l H3 H1) as (_ & (s & t & E1 & E2 & Hf)); [intros; by eapply srcs_out|].
        destruct (fresh_pinned _ _ _ H3) as (s' & E3 & Hf').
        destruct d; cbn [src_side tgt_side] in *; rewrite Hst.
        * dec_state. rewrite E1. bs. rewrite E2. bs. rewrite with_td_self, E3. bs.
          eexists. split; [done|]. by apply fresh_init.
        * dec_state. bs. rewrite E1. bs. rewrite with_td_self, E3. bs. rewrite E2. bs.
          eexists. split; [done|]. by apply fresh_init.
      + destruct H as (Hst & _ & l & lb & t0 & p0 & t1 & p1 & H1 & H2 & H3 & H4 & H5).
        destruct (pinned_reset d q pins lb l H5 H1) as (_ & (s & t & E1 & E2 & Hf)); [intros; eapply pin_out; [exact H5|apply H1|done..]|].
        destruct (fresh_pinned _ _ _ H5) as (s' & E3 & Hf').
        destruct d; cbn [src_side tgt_side] in *; rewrite Hst.
        * dec_state. rewrite E1. bs. rewrite E2. bs. rewrite with_td_self, E3. bs.
          eexists. split; [done|]. by apply fresh_init.
        * dec_state. bs. rewrite E1. bs. rewrite with_td_self, E3. bs. rewrite E2. bs.
          eexists. split; [done|]. by apply fresh_init.
  Qed.

  Theorem exec_all_ok q G ops G' : qinv q G -> history n c G ops G' -> exists q', exec_all c ops q = Some q' /\ qinv q' G'.
  Proof.
    intros H Hh. revert q H. induction Hh as [G|G o G' ops G'' Ha _ IH]; intros q H; [by exists q|].
    destruct (exec_ok q G o G' H Ha) as (q1 & E & H1). destruct (IH q1 H1) as (q2 & E2 & H2).
    exists q2. split; [|done]. unfold exec_all. cbn [for_each]. rewrite E. bs. exact E2.
  Qed.

  (** ** Answers *)
  Section Answers.
    Context (w : list N) (m : metric) (CU : customized rt rh c w m).

    Lemma run_distance q ss ts : qinv q (GRun m ss ts) ->
      exists best, q_get_distance q = Some best /\ best_route (arcs_of rt rh w) (rks c ss) (rks c ts) best.
    Proof.
      intros (Hst & _ & lf & lb & tf0 & pf0 & tb0 & pb0 & best & H1 & H2 & H3 & H4 & H5 & H6 & H7).
      exists best. split.
      - unfold q_get_distance. rewrite Hst, bool_decide_true by done. cbn [chk]. bs. destruct H7 as (_ & _ & H7).
        destruct (q_meet q) as [x|]; [|by rewrite H7]. destruct H7 as (_ & Hb & Hlt).
        rewrite (tv_Some (td (q_fw q)) x); [|apply tv_lt; lia]. bs. rewrite (tv_Some (td (q_bw q)) x); [|apply tv_lt; lia]. bs.
        rewrite add32_le; [by rewrite Hb|lia|lia].
      - eapply (meet_best n rt rh c WF w m CU lf lb); [apply H1|apply H4|done..].
    Qed.

    (** The two halves of the shortest path. *)
    Lemma run_halves q ss ts x : qinv q (GRun m ss ts) -> q_meet q = Some x ->
      exists up down s t ds dt L1 L2,
        pred_walk (pr (q_fw q)) (length (pr (q_fw q))) x = Some up /\ pred_walk (pr (q_bw q)) (length (pr (q_bw q))) x = Some down /\
        head up = Some x /\ list.last up = Some s /\ head down = Some x /\ list.last down = Some t /\
        (s, ds) ∈ rks c ss /\ (t, dt) ∈ rks c ts /\ upath c (m_fwd m) up L1 /\ upath c (m_bwd m) down L2 /\
        q_get_distance q = Some (ds + L1 + (L2 + dt))%N /\ (ds + L1 + (L2 + dt) < inf_weight)%N.
    Proof.
      intros HG Hx. pose proof (run_distance q ss ts HG) as (best' & Hd & _).
      destruct HG as (Hst & _ & lf & lb & tf0 & pf0 & tb0 & pb0 & best & H1 & H2 & H3 & H4 & H5 & H6 & H7).
      rewrite Hx in H7. destruct H7 as (_ & _ & _ & Hb & Hlt).
      assert (x < n) as Hxn. { rewrite <- (ui_t _ _ _ _ _ _ _ _ H3). apply tv_lt. lia. }
      destruct (up_pred n rt rh c WF _ _ _ _ _ _ _ H2 H3 x ltac:(lia) (length (pr (q_fw q)))) as (up & s & ds & L1 & P1 & P2 & P3 & P4 & P5 & P6).
      { by rewrite (ui_p _ _ _ _ _ _ _ _ H3). }
      destruct (up_pred n rt rh c WF _ _ _ _ _ _ _ H5 H6 x ltac:(lia) (length (pr (q_bw q)))) as (down & t & dt & L2 & Q1 & Q2 & Q3 & Q4 & Q5 & Q6).
      { by rewrite (ui_p _ _ _ _ _ _ _ _ H6). }
      exists up, down, s, t, ds, dt, L1, L2. repeat (split; [done|]). split; [|lia].
      unfold q_get_distance. rewrite Hst, bool_decide_true by done. cbn [chk]. bs. rewrite Hx.
      rewrite (tv_Some (td (q_fw q)) x); [|apply tv_lt; lia]. bs. rewrite (tv_Some (td (q_bw q)) x); [|apply tv_lt; lia]. bs.
      rewrite add32_le by lia. f_equal. lia.
    Qed.

    Context (Hw : length w = length rt) (Hwi : forall e x, w !! e = Some x -> (x <= inf_weight)%N).
    Context (Hor : forall s, s < n -> c_order c !! rk c s = Some s).

    (** Path unpacking, in ranks. *)
    Lemma run_path q ss ts x : qinv q (GRun m ss ts) -> q_meet q = Some x ->
      exists s t ds dt p rs,
        (s, ds) ∈ rks c ss /\ (t, dt) ∈ rks c ts /\ q_get_distance q = Some (ds + total w p + dt)%N /\
        (ds + total w p + dt < inf_weight)%N /\
        awalk rt rh s p t /\ mapM (fun e => rt !! e) p = Some rs /\
        q_used_source c q = (o ← c_order c !! s; Some (Some o)) /\ q_used_target c q = (o ← c_order c !! t; Some (Some o)) /\
        q_arc_path c m w q = Some p /\
        q_node_path c m q = (l ← mapM (fun r => c_order c !! r) rs; o ← c_order c !! t; Some (l ++ [o])).
    Proof.
      intros HG Hx. destruct (run_halves q ss ts x HG Hx) as (up & down & s & t & ds & dt & L1 & L2 & P1 & P2 & P3 & P4 & P5 & P6 & P7 & P8 & P9 & P10 & P11 & P12).
      destruct HG as (Hst & _ & _).
      destruct (unpack_up_spec n rt rh c WF w m CU Hw Hwi up L1 x s P9 P3 P4) as (r1 & U1 & U2); [lia|].
      destruct (unpack_down_spec n rt rh c WF w m CU Hw Hwi down L2 x t P10 P5 P6) as (r2 & D1 & D2); [lia|].
      assert (segs_ok rt rh c w m s (r1 ++ r2) t (L1 + L2)%N) as Hsegs.
      { clear -U2 D2. induction U2 as [|u a f u' y e r v L ? ? ? ? ? _ IH]; [by rewrite N.add_0_l|].
        cbn [app]. rewrite <- N.add_assoc. econstructor; eauto. }
      destruct (segs_arcs n rt rh c WF w m Hw _ _ _ _ Hsegs) as (p & A1 & A2 & A3).
      pose proof (segs_nodes n rt rh c WF w m Hw _ _ _ _ p Hsegs A1) as A4.
      exists s, t, ds, dt, p, ((fun s => fst (fst s)) <$> (r1 ++ r2)). rewrite A3.
      split; [done|]. split; [done|]. split; [rewrite P11; f_equal; lia|]. split; [lia|]. split; [done|]. split; [done|].
      unfold q_used_source, q_used_target, q_used, q_arc_path, q_node_path, unpack_shortest_path.
      rewrite Hst, Hx, bool_decide_true by done. cbn [chk]. bs. rewrite P1, P2. bs. rewrite P4, P6. bs.
      split; [done|]. split; [done|]. rewrite U1. bs. rewrite D1. bs. cbv iota. split; [exact A1|].
      generalize (r1 ++ r2). clear. intros r.
      assert (mapM (fun s => c_order c !! fst (fst s)) r = mapM (fun r => c_order c !! r) ((fun s : nat * nat * bool => fst (fst s)) <$> r)) as ->; [|done].
      induction r as [|a r IH]; [done|]. cbn [fmap list_fmap mapM]. destruct (c_order c !! a.1.1); [|done]. bs. by rewrite IH.
    Qed.
    Lemma run_none q ss ts : qinv q (GRun m ss ts) -> q_meet q = None ->
      q_get_distance q = Some inf_weight /\ q_used_source c q = Some None /\ q_used_target c q = Some None /\
      q_arc_path c m w q = Some [] /\ q_node_path c m q = Some [].
    Proof.
      intros (Hst & _) Hx. unfold q_get_distance, q_used_source, q_used_target, q_used, q_arc_path, q_node_path, unpack_shortest_path.
      rewrite Hst, Hx, bool_decide_true by done. cbn [chk]. bs. done.
    Qed.

    Lemma pin_distances d q pins ss : qinv q (GPinRun d pins m ss) -> Forall (fun t => t < n) pins ->
      exists ds, (if d then q_distances_to_targets q else q_distances_to_sources q) = Some ds /\ length ds = length pins /\
        forall i t x, pins !! i = Some t -> ds !! i = Some x -> best_route (dgraph rt rh w d) (rks c ss) [(rk c t, 0%N)] x.
    Proof.
      intros (Hst & _ & l & lb & t0 & p0 & t1 & p1 & H1 & H2 & H3 & H4 & H5 & H5' & H6 & H7) Hpins.
      exists (tv (td (src_side d q)) <$> (rk c <$> pins)).
      assert (mapM (fun x => td (src_side d q) !! x) (nodes (tgt_side d q)) = Some (tv (td (src_side d q)) <$> (rk c <$> pins))) as Hm.
      { rewrite H6. clear H6 H7. induction Hpins as [|t pins Ht _ IH]; [done|]. cbn [fmap list_fmap mapM].
        rewrite tv_Some by (rewrite (so_td _ _ _ _ H1); by apply Hrk). bs. rewrite IH. done. }
      split.
      { destruct d; cbn in Hm, Hst |- *; unfold q_distances_to_targets, q_distances_to_sources; rewrite Hst, bool_decide_true by done; cbn [chk]; bs; exact Hm. }
      split; [by rewrite !fmap_length|]. intros i t x Hi Hx. rewrite !list_lookup_fmap, Hi in Hx. cbn in Hx. simplify_eq.
      eapply (pin_best n rt rh c WF w m CU d l lb); [apply H1|done|apply H5|done|done|].
      apply H7. rewrite H6. apply elem_of_list_fmap. exists t. split; [done|]. by eapply elem_of_list_lookup_2.
    Qed.
  End Answers.
End Api.
