(** Perfect customization yields a correct contraction hierarchy. *)
From Verif Require Import Base UtilSpec GraphSpec PathSpec CchModel CchSpec CchCustomizeProofs CchTriangleProofs CchBuildModel CchChordalProofs CchFilterProofs
  CchApiSpec CchTransferProofs ChCleanSpec ChBuildModel ChSpec ChCheckModel ChCheckSpec ChCheckProofs CchPerfectModel CchPerfectProofs CchPerfectDistProofs CchExtractProofs WalkSpec.
Ltac Zify.zify_post_hook ::= idtac.

Lemma for_until_all {A S} (l : list A) (f : A -> S -> option (S * bool)) (s : S) :
  (forall x, x ∈ l -> f x s = Some (s, true)) -> for_until l f s = Some (s, true).
Proof.
  induction l as [|x l IH]; intros H; [done|]. cbn [for_until]. rewrite H by constructor. cbn. apply IH. intros. apply H. by constructor.
Qed.
Lemma upstar_mono (A B : warcs) u v L : (forall x y z, A x y z -> B x y z) -> upstar A u v L -> upstar B u v L.
Proof. intros H. induction 1; [constructor|]. econstructor; eauto. Qed.

Section Perfect.
  Context (order tail head rt rh : list nat) (c : cch) (B : built order tail head rt rh c) (Hperm : perm order).
  Notation n := (length order).
  Let WF : wf_cch n rt rh c := bu_wf _ _ _ _ _ _ B.
  Context (w : list N) (m : metric) (CU : customized rt rh c w m) (Hlen : length w = length rt).
  Context (s : pstate) (HP : CchPerfectProofs.pinv rt rh c w m (fun _ _ _ => True) s).
  Context (Hch : forall x y z a b, up_arc c a x y -> up_arc c b x z -> y < z -> exists t, up_arc c t y z).

  Lemma verify_perfect_spec : verify_perfect c (ps_m s) = Some tt.
  Proof.
    unfold verify_perfect.
    match goal with |- for_range 0 _ ?body tt = _ => destruct (for_range_inv (fun _ _ => True) body 0 (c_arc_count c) tt) as ([] & -> & _) end; [lia|done| |done].
    intros a [] Ha _. exists tt. split; [|done]. unfold c_arc_count in Ha.
    destruct (up_arc_exists _ _ _ _ WF a) as (x & y & Hxy); [lia|]. destruct (upper_triangles_list n rt rh c WF x y a Hxy) as (l & Hl & Hf).
    unfold forall_upper_triangles_of_arc. destruct Hxy as [Hx Hy]. rewrite Hx, bind_S, Hy, bind_S, Hf. clear Hf. assert (up_arc c a x y) as Hxy by done.
    rewrite for_until_all; [done|]. intros [[mi t] z] Hin. apply Hl in Hin as [Hm Ht]. cbn [fst snd].
    destruct (up_arc_lt _ _ _ _ WF _ _ _ Hxy) as (La & _), (up_arc_lt _ _ _ _ WF _ _ _ Hm) as (Lm & _), (up_arc_lt _ _ _ _ WF _ _ _ Ht) as (Lt & _).
    assert (forall d e, e < length (up_head c) -> exists v, dw (ps_m s) d e = Some v /\ (v <= inf_weight)%N) as Hex by (eapply s_dw; done).
    destruct (Hex true a La) as (fb & Fb & Ifb), (Hex false a La) as (bb & Bb & Ibb), (Hex true mi Lm) as (fm & Fm & Ifm), (Hex false mi Lm) as (bm & Bm & Ibm), (Hex true t Lt) as (ft & Ft & Ift), (Hex false t Lt) as (bt & Bt & Ibt).
    unfold verify_triangle. unfold dw in Fb, Bb, Fm, Bm, Ft, Bt. rewrite Fb, bind_S, Bb, bind_S, Fm, bind_S, Bm, bind_S, Ft, bind_S, Bt, bind_S.
    rewrite !add32_id by done.
    pose proof (perfect_tri n rt rh c WF w m CU s HP Hch) as HT.
    assert (ft <= bb + fm)%N as ->%N.leb_le by (by eapply (HT true false true t a mi y z x); auto).
    assert (bt <= fb + bm)%N as ->%N.leb_le by (by eapply (HT false true false t a mi y z x); auto).
    assert (fb <= fm + bt)%N as ->%N.leb_le by (by eapply (HT true true false a mi t x y z); auto).
    assert (bb <= bm + ft)%N as ->%N.leb_le by (by eapply (HT false false true a mi t x y z); auto).
    assert (fm <= fb + ft)%N as ->%N.leb_le by (by eapply (HT true true true mi a t x z y); auto).
    assert (bm <= bm + bt)%N as ->%N.leb_le by lia. done.
  Qed.

  (** The hierarchy. *)
  Lemma extract_ok asserts : exists h, extract_ch asserts c w s = Some h /\ ch_ok n tail head w h /\
    Forall (fun x => (x <= inf_weight)%N) (cs_weight (ch_fwd h)) /\ Forall (fun x => (x <= inf_weight)%N) (cs_weight (ch_bwd h)).
  Proof.
    destruct (extract_ch_spec n rt rh c WF w m CU Hlen s HP Hch) with (asserts := asserts) as (h & Eh & Hr & Ho & H).
    { by rewrite (bu_order _ _ _ _ _ _ B). }
    exists h. split; [done|].
    assert (forall d : bool, side_ok n (if d then ch_fwd h else ch_bwd h)) as Hside.
    { intros d. destruct (H d) as (H1 & H2 & H3 & H4 & H5 & _ & H7 & _). split; try done.
      intros e x y v Ha. destruct (H7 _ _ _ _ Ha) as (a & _ & _ & Hxy & _). by eapply (wf_upward _ _ _ _ WF). }
    assert (forall (d : bool) a u v x p, up_arc c a u v -> dw (ps_m s) d a = Some x -> local_id (kp s d) a = Some p -> kp s d !! a = Some true -> sarc (if d then ch_fwd h else ch_bwd h) p u v x) as Hsarc.
    { intros d a u v x p Ha Hx Hp Hk. destruct (H d) as (_ & _ & _ & _ & _ & H6 & _). destruct (H6 a u v x Ha Hx Hk) as (j & Hj & Hs). rewrite Hp in Hj. by injection Hj as <-. }
    assert (forall (d : bool) e x y v, sarc (if d then ch_fwd h else ch_bwd h) e x y v -> exists o a b, side_entry (if d then ch_fwd h else ch_bwd h) e o a b /\
      entry_ok tail head w (ch_order h) (ch_fwd h) (ch_bwd h) (if d then x else y) (if d then y else x) v o a b) as Hentry.
    { intros d e x y v Ha. destruct (H d) as (_ & _ & _ & _ & _ & _ & _ & H8). destruct (H8 _ _ _ _ Ha) as (o & p & q & He & Hg).
      exists o, p, q. split; [done|]. destruct o; cbn [good entry_ok] in *.
      - destruct Hg as (Hd & Hw & Hq).
        assert (rt !! p = Some (if d then x else y) /\ rh !! p = Some (if d then y else x)) as [Hrt Hrh] by (by destruct d).
        destruct (ranked_back _ _ _ _ _ _ B _ _ _ _ (bu_tail _ _ _ _ _ _ B) Hrt) as (u & Hu & Hun & Eu).
        destruct (ranked_back _ _ _ _ _ _ B _ _ _ _ (bu_head _ _ _ _ _ _ B) Hrh) as (u' & Hu' & Hun' & Eu').
        exists u, u'. rewrite Ho, Eu, Eu'. rewrite !(or_ok _ _ _ _ _ _ B) by done. do 2 (split; [done|]). split; [done|].
        rewrite Eu' in Hq. rewrite (or_ok _ _ _ _ _ _ B) in Hq by done. by injection Hq.
      - destruct Hg as (b & f & z & x1 & x2 & A1 & A2 & K1 & K2 & I1 & I2 & W1 & W2 & ->).
        exists z, x1, x2. split; [by apply (Hsarc false b)|]. split; [by apply (Hsarc true f)|done]. }
    split.
    - split.
      + rewrite Ho. by rewrite (bu_order _ _ _ _ _ _ B).
      + rewrite Ho. by rewrite (bu_order _ _ _ _ _ _ B).
      + rewrite Ho, Hr, (bu_order _ _ _ _ _ _ B). apply B.
      + apply (Hside true).
      + apply (Hside false).
      + apply (Hentry true).
      + apply (Hentry false).
      + intros u t L x y HL Hw Hu Ht. rewrite Hr in Hu, Ht.
        assert (x = rk c u) as -> by (unfold rk; by rewrite Hu). assert (y = rk c t) as -> by (unfold rk; by rewrite Ht).
        destruct (kept_complete n rt rh c WF w m CU s HP L (rk c u) (rk c t)) as (z & L1 & L2 & Hle & U1 & U2); [by apply (dist_fwd _ _ _ _ _ _ B)|done|].
        exists z, L1, L2. split; [done|]. split; (eapply upstar_mono; [|done]); intros a b v (e & He & Hv & Hk).
        * destruct (H true) as (_ & _ & _ & _ & _ & H6 & _). destruct (H6 _ _ _ _ He Hv Hk) as (j & _ & Hj). by exists j.
        * destruct (H false) as (_ & _ & _ & _ & _ & H6 & _). destruct (H6 _ _ _ _ He Hv Hk) as (j & _ & Hj). by exists j.
    - assert (forall d : bool, Forall (fun x => (x <= inf_weight)%N) (cs_weight (if d then ch_fwd h else ch_bwd h))) as HF; [|split; [apply (HF true)|apply (HF false)]].
      intros d. apply Forall_lookup_2. intros e v Hv. destruct (side_arc n (if d then ch_fwd h else ch_bwd h) e) as (x & y & v' & Ha); [done|apply lookup_lt_Some in Hv; by rewrite <- (so_weight _ _ (Hside d))|].
      destruct (H d) as (_ & _ & _ & _ & _ & _ & H7 & _). destruct (H7 _ _ _ _ Ha) as (a & _ & _ & Hxy & Hd). destruct Ha as (_ & _ & Hv'). rewrite Hv in Hv'. injection Hv' as <-.
      destruct (up_arc_lt _ _ _ _ WF _ _ _ Hxy) as (La & _). destruct (s_dw rt rh c w m CU Hlen s HP Hch d a La) as (v' & Hv' & Hi). rewrite Hd in Hv'. by injection Hv' as <-.
  Qed.
End Perfect.

(** Everything together, from an unfiltered CCH. *)
Theorem perfect_spec asserts asserts' log order tail head c w m0 :
  graph_input order tail head -> build_cch asserts log false order tail head = Some c -> weights_for tail w ->
  length (m_fwd m0) = length (up_head c) -> length (m_bwd m0) = length (up_head c) ->
  exists s h (ok : bool), perfect_weights c w m0 = Some s /\ build_ch_perfect asserts' c w m0 = Some (if ok then Some h else None) /\
    ((N.of_nat (length tail) <= last_id)%N -> ok = true) /\ ch_ok (length order) tail head w h /\
    Forall (fun x => (x <= inf_weight)%N) (cs_weight (ch_fwd h)) /\ Forall (fun x => (x <= inf_weight)%N) (cs_weight (ch_bwd h)) /\
    forall d a u v, up_arc c a (rk c u) (rk c v) -> u < length order -> v < length order -> exists y, dw (ps_m s) d a = Some y /\
      shortest_capped (fun L => exists k, gw (arcs_of tail head w) (fun _ => True) (if d then u else v) (if d then v else u) L k) y.
Proof.
  intros (Hp & Hl & Ht & Hh) E [Hw Hi] L1 L2. destruct (build_conditions _ _ _ _ _ _ _ E) as [C1 C2].
  destruct (build_cch_spec asserts log false order tail head Hp Hl) as (c' & rt & rh & E' & B & U & HU & _ & _ & Harcs); [by apply Forall_forall|by apply Forall_forall|done|done|].
  rewrite E in E'. injection E' as <-. cbv iota in Harcs.
  assert (forall x y z a b, up_arc c a x y -> up_arc c b x z -> y < z -> exists t, up_arc c t y z) as Hch.
  { intros x y z a b Ha Hb Hyz. apply Harcs. destruct HU as [_ _ Hfill _]. apply (Hfill x); [apply Harcs; by exists a|apply Harcs; by exists b|done]. }
  pose proof (bu_wf _ _ _ _ _ _ B) as WF.
  assert (forall e x, w !! e = Some x -> (x <= inf_weight)%N) as Hwi by (intros e x Hx; by eapply Forall_lookup_1 in Hi; [|exact Hx]).
  assert (length w = length rt) as Hlen by (by rewrite (built_len _ _ _ _ _ _ B)).
  destruct (customize_spec _ rt rh c WF w Hlen Hwi m0 L1 L2) as (m & Em & CU).
  destruct (keep_finite_spec (c_arc_count c) (m_fwd m)) as (kf & Ef & _); [apply CU|].
  destruct (keep_finite_spec (c_arc_count c) (m_bwd m)) as (kb & Eb & _); [apply CU|].
  destruct (perfect_loop_spec _ _ _ _ WF _ _ CU _ (perfect_start _ _ _ _ WF _ _ CU kf kb Ef Eb)) as (s & Es & HP).
  assert (perfect_weights c w m0 = Some s) as Ew. { unfold perfect_weights. rewrite Em, bind_S, Ef, bind_S, Eb, bind_S. done. }
  destruct (extract_ok order tail head rt rh c B Hp w m CU Hlen s HP Hch asserts') as (h & Eh & Hok & W1 & W2).
  assert (perm (ch_order h)) as Hph by (apply Hok).
  destruct (check_ch_spec h Hph) as (ok & Ec & Hc). exists s, h, ok. split; [done|]. split; [|split].
  - unfold build_ch_perfect. rewrite Ew, bind_S. rewrite (verify_perfect_spec order tail head rt rh c B w m CU Hlen s HP Hch).
    assert ((if asserts' then Some tt else Some tt) = Some tt) as -> by (by destruct asserts'). rewrite bind_S, Eh, bind_S.
    rewrite Ec, bind_S. done.
  - intros Hid. apply Hc. assert (forall l, Forall (fun x => (x <= inf_weight)%N) l -> Forall (fun x => (x < 4294967296)%N) l) as Hword. { intros l Hf. eapply Forall_impl; [exact Hf|]. unfold inf_weight. cbn. intros. lia. }
    eapply ok_valid; [exact Hok|by apply Hword|by apply Hword|done].
  - split; [done|]. split; [done|]. split; [done|]. intros d a u v Ha Hu Hv.
    destruct (up_arc_lt _ _ _ _ WF _ _ _ Ha) as (La & _). destruct (s_dw rt rh c w m CU Hlen s HP Hch d a La) as (y & Hy & _). exists y. split; [done|].
    destruct (perfect_distance _ rt rh c WF w m CU s HP Hch d a _ _ y Ha Hy) as (Hyi & Hmin & Hatt). split; [done|]. split.
    + intros L (k & Hk). apply Hmin. exists k. destruct d; cbn [dgraph].
      * by apply (gw_fwd _ _ _ _ _ _ B w u v (fun _ => True)).
      * apply gw_rev. by apply (gw_fwd _ _ _ _ _ _ B w v u (fun _ => True)).
    + destruct Hatt as [|(k & Hk)]; [by left|]. right. exists k. destruct d; cbn [dgraph] in Hk.
      * by apply (gw_back _ _ _ _ _ _ B w _ _ (fun _ => True) _ _ Hk).
      * apply gw_rev' in Hk. by apply (gw_back _ _ _ _ _ _ B w _ _ (fun _ => True) _ _ Hk).
Qed.
