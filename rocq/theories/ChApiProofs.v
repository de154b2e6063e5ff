(** Every allowed sequence of calls on a CH query object succeeds and keeps the invariant below. *)
From Verif Require Import CchPerfectChProofs ChWrapModel ChSmallProofs Base UtilSpec GraphSpec IdQueueModel IdQueueSpec IdQueueProofs IdSetModel IdSetSpec IdSetProofs ChCleanSpec ChBuildModel ChSpec ChBuildProofs
  ChQueryModel ChExtraModel ChApiSpec ChSearchProofs ChRunProofs ChUnpackProofs ChPinProofs ChSweepProofs ChExtraArcProofs ChExtraPinProofs WalkSpec.
Ltac Zify.zify_post_hook ::= idtac.

(** ** Hierarchies *)
Lemma wrap_small x : (x <= 12 * small_weight)%N -> wrap32 x = Some x.
Proof. intros H. unfold wrap32. f_equal. apply N.mod_small. change (2 ^ 32)%N with 4294967296%N. unfold small_weight in H. lia. Qed.
Lemma wrap_total x : is_Some (wrap32 x).
Proof. by eexists. Qed.
Lemma small_full n tail head w c : arc_list n tail head w -> Forall (fun x => (x <= 2 * small_weight)%N) w -> small_ch c -> builds wrap32 n tail head w c -> ch_full n tail head w c.
Proof.
  intros Ha Hw Hs (asserts & mp & [E|[(rank & Hp & <- & E)|(order & Hp & <- & E)]]).
  - exact (small_build wrap32 small_weight wrap_small wrap_total asserts mp n tail head w c Ha Hw E Hs).
  - exact (small_given_rank wrap32 small_weight wrap_small wrap_total asserts mp rank tail head w c Hp Ha Hw E Hs).
  - exact (small_given_order wrap32 small_weight wrap_small wrap_total asserts mp order tail head w c Hp Ha Hw E Hs).
Qed.
Lemma constructed_ok n tail head w c : arc_list n tail head w -> constructed n tail head w c -> ch_ok n tail head w c.
Proof.
  intros Ha (asserts & mp & [E|[(rank & Hp & <- & E)|[(order & Hp & <- & E)|[(asserts' & log & order & b & m & Hp & <- & Eb & Hw & L1 & L2 & E)|(Hw & Hs & Hb)]]]]); [apply ch_full_ok..| |by apply ch_full_ok, small_full].
  - destruct (ch_build_ok asserts mp n tail head w Ha) as (c' & E' & Hok). assert (c' = c) as <- by congruence. done.
  - destruct (ch_build_given_rank_ok asserts mp rank tail head w Hp Ha) as (c' & E' & _ & Hok). assert (c' = c) as <- by congruence. done.
  - destruct (ch_build_given_order_ok asserts mp order tail head w Hp Ha) as (c' & E' & _ & Hok). assert (c' = c) as <- by congruence. done.
  - destruct Ha as (H1 & H2 & H3 & H4).
    destruct (perfect_spec asserts' asserts log order tail head b w m) as (s & h & ok & _ & E' & _ & Hok & _); [done|done|split; [congruence|done]|done|done|].
    rewrite E in E'. destruct ok; [|done]. injection E' as <-. done.
Qed.

Record chfit (c : ch) : Prop := {
  cf_fwd : side_ok (ch_nodes c) (ch_fwd c); cf_bwd : side_ok (ch_nodes c) (ch_bwd c);
  cf_wf : weights_fit (ch_fwd c); cf_wb : weights_fit (ch_bwd c); cf_perm : perm (ch_rank c);
  cf_ok : exists tail head w, arc_list (ch_nodes c) tail head w /\ ch_ok (ch_nodes c) tail head w c }.
Lemma ch_of_fit n tail head w c : ch_of n tail head w c -> ch_ok n tail head w c /\ ch_nodes c = n /\ chfit c.
Proof.
  intros (Ha & Hc & Hf & Hb). pose proof (constructed_ok _ _ _ _ _ Ha Hc) as Hok.
  assert (ch_nodes c = n) as Hn by (by eapply rank_len). split; [done|]. split; [done|]. split; rewrite ?Hn; try done; try apply Hok.
  - eapply inverse_of_perm; apply Hok.
  - by exists tail, head, w.
Qed.
Lemma any_fit c : any_ch c -> chfit c.
Proof. intros (n & tail & head & w & H). by apply ch_of_fit in H as (_ & _ & ?). Qed.

Definition krk (c : ch) (s : nat) : nat := default 0 (ch_rank c !! s).
Definition krks (c : ch) (ss : list (nat * N)) : list (nat * N) := (fun sd => (krk c (fst sd), snd sd)) <$> ss.
Lemma elem_of_krks c ss x d : (x, d) ∈ krks c ss <-> exists s, (s, d) ∈ ss /\ x = krk c s.
Proof.
  unfold krks. rewrite elem_of_list_fmap. split.
  - intros ([s d'] & [= -> ->] & H). by exists s.
  - intros (s & H & ->). by exists (s, d).
Qed.
Lemma krk_ok c s : chfit c -> s < ch_nodes c -> ch_rank c !! s = Some (krk c s) /\ krk c s < ch_nodes c.
Proof.
  intros Hc Hs. destruct (lookup_lt_is_Some_2 (ch_rank c) s) as [x Hx]; [done|]. unfold krk. rewrite Hx. split; [done|].
  cbn. unfold ch_nodes. eapply perm_lookup_lt; [apply Hc|done].
Qed.

(** ** Sides *)
Definition clean_side (n : nat) (s : cside) : Prop := forall g, sbase n g [] ∅ ∅ s.
Lemma sbase_empty n s :
  length (s_dist s) = n -> length (s_pnode s) = n -> length (s_parc s) = n -> fref n (s_pushed s) ∅ -> qref n (s_queue s) ∅ -> clean_side n s.
Proof.
  intros H1 H2 H3 H4 H5 g. assert (fref n (s_pushed s) (∅ ∪ dom (∅ : gmap nat N))) as Hf by (by rewrite dom_empty_L, union_empty_r_L).
  split; try exact Hf; try done.
  - intros x d Hx. by apply elem_of_nil in Hx.
Qed.
Lemma new_side_clean n : clean_side n (new_cside n).
Proof.
  apply sbase_empty; cbn; try apply replicate_length; [apply fref_new|apply qref_new].
Qed.
Lemma clear_side_ok n s : side_shape n s -> exists s', clear_side s = Some s' /\ clean_side n s'.
Proof.
  intros [H1 H2 H3 (P & Hf) (Q & Hq)]. unfold clear_side. destruct (clear_spec _ _ _ Hq) as (q' & -> & Hq'). rewrite bind_S.
  destruct (f_step_refines n (s_pushed s) P FResetAll Hf) as (f' & E & Hf'); [done|]. cbn [f_step f_spec] in E, Hf'. injection E as <-.
  eexists. split; [done|]. by apply sbase_empty.
Qed.
Lemma sbase_shape n g ss S Q s : sbase n g ss S Q s -> side_shape n s.
Proof. intros H. split; try apply H; eexists; apply H. Qed.
Lemma swept_shape n g o ss S s0 pre F s : sbase n g ss S ∅ s0 -> swept n o S s0 pre F s -> side_shape n s.
Proof.
  intros H0 H. split; try apply H.
  - rewrite (sw_pn _ _ _ _ _ _ _ H). apply H0.
  - eexists. apply H.
  - rewrite (sw_q _ _ _ _ _ _ _ H). eexists. apply H0.
Qed.

Lemma sbase_only_sources n g ss Q s x d : sbase n g ss ∅ Q s -> Q !! x = Some d -> s_pnode s !! x = Some None /\ (x, d) ∈ ss.
Proof.
  intros H Hx. destruct (sb_key _ _ _ _ _ _ H x d Hx) as [Hd _].
  destruct (sb_pred _ _ _ _ _ _ H x d) as [[? ?]|(y & a & w & dy & _ & _ & _ & Hy & _)]; [apply elem_of_union_r, elem_of_dom; eauto|done|done|].
  by apply elem_of_empty in Hy.
Qed.
Lemma sbase_nil_queue n g Q s : sbase n g [] ∅ Q s -> Q = ∅.
Proof.
  intros H. apply map_eq. intros x. rewrite lookup_empty. destruct (Q !! x) as [d|] eqn:E; [|done].
  destruct (sbase_only_sources _ _ _ _ _ _ _ H E) as [_ Hin]. by apply elem_of_nil in Hin.
Qed.
Lemma sbase_nonempty n g ss Q s : sbase n g ss ∅ Q s -> ss <> [] -> Q <> ∅.
Proof.
  intros H Hss ->. destruct ss as [|[x d] ss]; [done|]. destruct (sb_src _ _ _ _ _ _ H x d) as (Hin & _); [by left|].
  rewrite dom_empty_L, union_empty_r_L in Hin. by apply elem_of_empty in Hin.
Qed.

(** ** Adding a source *)
Lemma side_add_ok n c g ss Q s t x d :
  sbase n g ss ∅ Q s -> ch_rank c !! t = Some x -> x < n -> (d <= inf_weight)%N ->
  exists s' Q', side_add c t d s = Some s' /\ sbase n g ((x, d) :: ss) ∅ Q' s'.
Proof.
  intros H Hr Hx Hd. unfold side_add. rewrite Hr, bind_S. rewrite (contains_id_spec _ _ _ _ (sb_q _ _ _ _ _ _ H)) by done. rewrite bind_S.
  assert (forall f (Q' : gmap nat N), fref n f (∅ ∪ dom Q) -> dom Q' = {[x]} ∪ dom Q -> exists f', set_flag f x = Some f' /\ fref n f' (∅ ∪ dom Q')) as Hflag.
  { intros f Q' Hf Hdom. destruct (f_step_refines n f _ (FSet x) Hf) as (f' & E & Hf'); [done|]. cbn [f_step f_spec] in E, Hf'.
    exists f'. split; [done|]. by replace (∅ ∪ dom Q') with ({[x]} ∪ (∅ ∪ dom Q)) by set_solver. }
  (* all three cases write [d] or keep a smaller value *)
  assert (forall s' Q', length (s_dist s') = n -> length (s_pnode s') = n -> length (s_parc s') = n ->
    fref n (s_pushed s') (∅ ∪ dom Q') -> qref n (s_queue s') Q' ->
    (forall z, z <> x -> s_dist s' !! z = s_dist s !! z /\ s_pnode s' !! z = s_pnode s !! z /\ Q' !! z = Q !! z) ->
    (exists d', Q' !! x = Some d' /\ s_dist s' !! x = Some d' /\ s_pnode s' !! x = Some None /\ (d' <= d)%N /\
       (forall d0, Q !! x = Some d0 -> (d' <= d0)%N) /\ (x, d') ∈ (x, d) :: ss) ->
    sbase n g ((x, d) :: ss) ∅ Q' s') as Hbuild.
  { intros s' Q' L1 L2 L3 Hf Hq Hne (d' & HQx & Hdx & Hpx & Hle & Hle' & Hin). split; try done.
    - intros z k Hz. destruct (decide (z = x)) as [->|Hzx].
      + assert (k = d') as -> by congruence. split; [done|lia].
      + destruct (Hne z Hzx) as (-> & _ & E). rewrite E in Hz. by apply (sb_key _ _ _ _ _ _ H).
    - intros z k Hz Hk. apply elem_of_union in Hz as [Hz|Hz]; [by apply elem_of_empty in Hz|]. apply elem_of_dom in Hz as [k' Hz].
      left. destruct (decide (z = x)) as [->|Hzx].
      + assert (k = d') as -> by congruence. done.
      + destruct (Hne z Hzx) as (E1 & -> & E). rewrite E in Hz. destruct (sbase_only_sources _ _ _ _ _ _ _ H Hz) as [? ?].
        destruct (sb_key _ _ _ _ _ _ H z k' Hz) as [Hk' _]. assert (k = k') as -> by congruence. split; [done|by right].
    - intros z k [[= -> ->]|Hz]%elem_of_cons.
      + split; [apply elem_of_union_r, elem_of_dom; eauto|]. exists d'. done.
      + destruct (sb_src _ _ _ _ _ _ H z k Hz) as (Hz' & dz & Hdz & Hdle). apply elem_of_union in Hz' as [Hz'|Hz']; [by apply elem_of_empty in Hz'|].
        apply elem_of_dom in Hz' as [k' Hz']. destruct (sb_key _ _ _ _ _ _ H z k' Hz') as [Hk' _]. assert (k' = dz) as -> by congruence.
        destruct (decide (z = x)) as [->|Hzx].
        * split; [apply elem_of_union_r, elem_of_dom; eauto|]. exists d'. split; [done|]. specialize (Hle' _ Hz'). lia.
        * destruct (Hne z Hzx) as (-> & _ & E). split; [apply elem_of_union_r, elem_of_dom; rewrite E; eauto|]. by exists dz.
    - intros z v k Hz Hk Hp. apply elem_of_union in Hz as [Hz|Hz]; [by apply elem_of_empty in Hz|]. apply elem_of_dom in Hz as [k' Hz].
      destruct (decide (z = x)) as [->|Hzx]; [congruence|]. destruct (Hne z Hzx) as (_ & E1 & E). rewrite E in Hz. rewrite E1 in Hp.
      destruct (sbase_only_sources _ _ _ _ _ _ _ H Hz) as [? _]. congruence. }
  case_bool_decide as Hin; cbn [negb].
  - destruct Hin as [old Hold]. destruct (sb_key _ _ _ _ _ _ H x old Hold) as [Hdo Hole]. rewrite Hdo, bind_S.
    destruct (sbase_only_sources _ _ _ _ _ _ _ H Hold) as [Hpn Hsrc].
    assert (x ∈ dom Q) as Hdom by (apply elem_of_dom; eauto).
    destruct (decide (d < old)%N) as [Hlt|Hge].
    + rewrite (wr_Some (s_dist s)) by (by rewrite (sb_ld _ _ _ _ _ _ H)). rewrite bind_S.
      destruct (decrease_key_spec _ _ _ x d old (sb_q _ _ _ _ _ _ H) Hold) as (q' & -> & Hq'). rewrite decide_True in Hq' by done.
      rewrite bind_S. cbv beta iota. rewrite bind_S. cbn [s_pushed].
      destruct (Hflag (s_pushed s) (<[x:=d]> Q)) as (f' & -> & Hf'); [apply H|by rewrite dom_insert_L|]. rewrite bind_S.
      eexists _, (<[x:=d]> Q). split; [done|]. apply Hbuild; cbn [s_pushed s_queue s_dist s_pnode s_parc]; try done; try apply H.
      * rewrite insert_length. apply H.
      * intros z Hz. rewrite list_lookup_insert_ne, lookup_insert_ne by done. done.
      * exists d. rewrite lookup_insert, list_lookup_insert by (by rewrite (sb_ld _ _ _ _ _ _ H)). do 4 (split; [done|]).
        split; [intros d0 Hd0; simplify_eq; lia|by left].
    + rewrite bind_S. destruct (Hflag (s_pushed s) Q) as (f' & -> & Hf'); [apply H|set_solver|]. rewrite bind_S.
      eexists _, Q. split; [done|]. apply Hbuild; cbn [s_pushed s_queue s_dist s_pnode s_parc]; try done; try apply H.
      exists old. do 3 (split; [done|]). split; [lia|]. split; [intros d0 Hd0; simplify_eq; lia|by right].
  - assert (Q !! x = None) as HQ by (by apply eq_None_not_Some).
    destruct (push_spec _ _ _ x d (sb_q _ _ _ _ _ _ H) Hx HQ) as (q' & -> & Hq'). rewrite bind_S.
    rewrite (wr_Some (s_dist s)) by (by rewrite (sb_ld _ _ _ _ _ _ H)). rewrite bind_S.
    rewrite (wr_Some (s_pnode s)) by (by rewrite (sb_ln _ _ _ _ _ _ H)). rewrite !bind_S. cbn [s_pushed].
    destruct (Hflag (s_pushed s) (<[x:=d]> Q)) as (f' & -> & Hf'); [apply H|by rewrite dom_insert_L|]. rewrite bind_S.
    eexists _, (<[x:=d]> Q). split; [done|]. apply Hbuild; cbn [s_pushed s_queue s_dist s_pnode s_parc]; try done; try apply H.
    + rewrite insert_length. apply H.
    + rewrite insert_length. apply H.
    + intros z Hz. rewrite !list_lookup_insert_ne, lookup_insert_ne by done. done.
    + exists d. rewrite lookup_insert, !list_lookup_insert by (rewrite ?(sb_ld _ _ _ _ _ _ H), ?(sb_ln _ _ _ _ _ _ H); done). do 4 (split; [done|]).
      split; [congruence|by left].
Qed.

(** ** The invariant *)
Definition ksrc (d : bool) (q : cquery) : cside := if d then cq_fw q else cq_bw q.
Definition ktgt (d : bool) (q : cquery) : cside := if d then cq_bw q else cq_fw q.
Definition pin_state_of (d : bool) : cstate := if d then CTargetPinned else CSourcePinned.
Definition pin_run_of (d : bool) : cstate := if d then CTargetRun else CSourceRun.

Definition kinv (q : cquery) (cG : ch * kasked) : Prop :=
  let c := fst cG in let n := ch_nodes c in
  cq_ch q = c /\ chfit c /\
  match snd cG with
  | KInit ss ts => cq_state q = CInitialized /\ exists Q1 Q2,
      sbase n (ch_fwd c) (krks c ss) ∅ Q1 (cq_fw q) /\ sbase n (ch_bwd c) (krks c ts) ∅ Q2 (cq_bw q)
  | KDone ss ts => cq_state q = CRun /\ exists S1 Q1 S2 Q2 r,
      rinv n (ch_fwd c) (ch_bwd c) (krks c ss) (krks c ts) S1 Q1 S2 Q2 (cq_fw q) (cq_bw q) r /\ cq_meet q = snd r /\
      (forall x k, Q1 !! x = Some k -> (fst r <= k)%N) /\ (forall x k, Q2 !! x = Some k -> (fst r <= k)%N)
  | KPin d l ss => cq_state q = pin_state_of d /\ exists cnt sel Q,
      cq_meet q = Some cnt /\ cq_count q = Some (length l) /\
      sbase n (csd c d) (krks c ss) ∅ Q (ksrc d q) /\ pinned n c (csd c (negb d)) l cnt (ktgt d q) sel
  | KPinDone d l ss => cq_state q = pin_run_of d /\ exists cnt sel s0 S F,
      cq_meet q = Some cnt /\ cq_count q = Some (length l) /\
      sbase n (csd c d) (krks c ss) S ∅ s0 /\ (forall x, x ∈ S -> expanded (csd c d) S ∅ s0 x) /\
      swept n (csd c (negb d)) S s0 sel F (ksrc d q) /\ pinned n c (csd c (negb d)) l cnt (ktgt d q) sel
  end.

Lemma kinv_shapes q c G : kinv q (c, G) -> side_shape (ch_nodes c) (cq_fw q) /\ side_shape (ch_nodes c) (cq_bw q).
Proof.
  intros (_ & _ & H). destruct G as [ss ts|ss ts|d l ss|d l ss]; cbn [fst snd] in H.
  - destruct H as (_ & Q1 & Q2 & H1 & H2). split; by eapply sbase_shape.
  - destruct H as (_ & S1 & Q1 & S2 & Q2 & r & H & _). split; eapply sbase_shape; apply H.
  - destruct H as (_ & cnt & sel & Q & _ & _ & H1 & H2). destruct d; (split; [|]); (apply H2 || (by eapply sbase_shape)).
  - destruct H as (_ & cnt & sel & s0 & S & F & _ & _ & H1 & _ & H2 & H3). destruct d; (split; [|]); (apply H3 || (by eapply swept_shape)).
Qed.

Lemma new_kinv c : chfit c -> kinv (new_cquery c) (c, KInit [] []).
Proof.
  intros Hc. split; [done|]. split; [done|]. cbn. split; [done|]. exists ∅, ∅. split; apply new_side_clean.
Qed.
Lemma clean_init c f b o k : chfit c -> clean_side (ch_nodes c) f -> clean_side (ch_nodes c) b ->
  kinv (mkCQuery c f b o k CInitialized) (c, KInit [] []).
Proof. intros Hc Hf Hb. split; [done|]. split; [done|]. cbn. split; [done|]. exists ∅, ∅. split; [apply Hf|apply Hb]. Qed.

(** ** Extra weights *)
Lemma arc_extra_some {W} (link : W -> W -> W) n tail head w c l : ch_ok n tail head w c -> extra_fits c (XInput l) ->
  forall fuel d a x y v, x < fuel -> sarc (csd c d) a x y v -> exists u, arc_extra link c l fuel d a = Some u.
Proof.
  intros H Hl. induction fuel as [|fuel IH]; intros d a x y v Hx Ha; [lia|]. cbn [arc_extra]. change (if d then ch_fwd c else ch_bwd c) with (csd c d). cbv zeta.
  destruct (arc_entry n tail head w c H d a x y v Ha) as (o & e & e' & Hse & Hent). pose proof Hse as (Ho & He & He'). rewrite Ho, bind_S, He, bind_S.
  destruct o.
  { apply lookup_lt_is_Some_2. eapply (Hl (csd c d)); [destruct d; [by left|by right]|done|done]. }
  rewrite He', bind_S. destruct (shortcut_parts n tail head w c d a x y v e e' H Ha Hent) as (z & s & t & x1 & x2 & Hz & Hb & Hf).
  destruct (IH false e z s x1) as (u1 & ->); [lia|done|]. destruct (IH true e' z t x2) as (u2 & ->); [lia|done|]. rewrite !bind_S. eauto.
Qed.
Lemma get_weight_some {W} (link : W -> W -> W) n tail head w c e : ch_ok n tail head w c -> ch_nodes c = n -> extra_fits c e ->
  forall d a x y v, sarc (csd c d) a x y v -> exists u, get_weight link c e d a = Some u.
Proof.
  intros H Hn He d a x y v Ha. destruct (sarc_lt _ _ _ _ _ _ (co_side _ _ _ _ _ H d) Ha) as [Hx _]. destruct e as [l|f b]; cbn.
  - rewrite Hn. by eapply arc_extra_some.
  - apply lookup_lt_is_Some_2. destruct He as [Hf Hb]. destruct Ha as (_ & Hh & _). apply lookup_lt_Some in Hh. destruct d; cbn in *; lia.
Qed.

(** What a call on a finished pinned query computes. *)
Lemma extra_to_ok {W} (dflt : W) link d q c l ss e tmp out :
  kinv q (c, KPinDone d l ss) -> Forall (fun x => x < ch_nodes c) l -> extra_fits c e -> ch_nodes c <= length tmp -> length l <= length out ->
  exists q' tmp' out', (if d then cq_extra_to_targets dflt link else cq_extra_to_sources dflt link) q e tmp out = Some (q', tmp', out') /\
    kinv q' (c, KPinDone d l ss) /\ length out' = length out /\ (forall i, length l <= i -> out' !! i = out !! i) /\
    s_dist (ksrc d q') = s_dist (ksrc d q) /\
    exists S F s0 sel R, forall i t x, l !! i = Some t -> s_dist (ksrc d q) !! krk c t = Some x -> exists v, out' !! i = Some v /\
      ((x < inf_weight)%N /\ extracted dflt (if d then link else inverse_link link) (fun b => get_weight link c e (if d then b else negb b)) (csd c d) (csd c (negb d)) R (krks c ss) S F s0 (ksrc d q) sel (krk c t) x v
       \/ x = inf_weight /\ v = dflt).
Proof.
  intros (Hqc & Hfit & Hst & cnt & sel & s0 & S & F & Hm & Hk & H0 & Hexp & Hsw & Hp) Hbl He Htmp Hout. cbn [fst snd] in *. subst c. set (c := cq_ch q) in *.
  destruct (cf_ok _ Hfit) as (tail & head & w & Hal & Hok).
  set (R := fun x y L => if d then rwalk tail head w c x y L else rwalk tail head w c y x L).
  assert (covers (ch_nodes c) (ch_fwd c) (ch_bwd c) (rwalk tail head w c)) as Hcov.
  { apply ch_covers; [done|]. destruct Hal as (? & ? & _). congruence. }
  assert (covers (ch_nodes c) (csd c d) (csd c (negb d)) R) as HR.
  { unfold R. destruct d; [done|]. by apply (covers_swap _ _ _ _ Hcov). }
  assert (side_ok (ch_nodes c) (csd c d)) as Hg by (apply (co_side _ _ _ _ _ Hok)). assert (side_ok (ch_nodes c) (csd c (negb d))) as Ho by (apply (co_side _ _ _ _ _ Hok)).
  pose proof (pn_lt _ _ _ _ _ _ _ Hp) as Hlt.
  destruct (extract_extras_ok dflt (if d then link else inverse_link link) (fun b => get_weight link c e (if d then b else negb b)) (ch_nodes c)
    (csd c d) (csd c (negb d)) R (krks c ss) S F s0 (ksrc d q) sel HR Hg Ho H0 Hexp Hsw Hlt) with (p := ktgt d q) (l := krk c <$> l) (tmp := tmp) (out := out)
    as (p' & tmp' & out' & E & A1 & A2 & A3 & A4 & A5 & A6 & A7).
  - intros a x y v Ha. edestruct (get_weight_some link) as [u Hu]; [exact Hok|done|exact He|exact Ha|]. exists u. by destruct d.
  - intros a x y v Ha. edestruct (get_weight_some link) as [u Hu]; [exact Hok|done|exact He|exact Ha|]. exists u. by destruct d.
  - apply Hp.
  - done.
  - by rewrite fmap_length.
  - intros i x Hi. rewrite list_lookup_fmap in Hi. destruct (l !! i) as [t|] eqn:Ht; [|done]. injection Hi as <-.
    eapply (pn_list _ _ _ _ _ _ _ Hp); [done|]. apply krk_ok; [done|]. by eapply Forall_lookup_1 in Hbl; [|exact Ht].
  - rewrite fmap_length in E, A6.
    assert (pinned (ch_nodes c) c (csd c (negb d)) l cnt p' sel) as Hp'.
    { destruct Hp. split; try done; by rewrite ?A3, ?A4. }
    assert (forall q', (if d then q' = mkCQuery c (cq_fw q) p' (cq_meet q) (cq_count q) (cq_state q) else q' = mkCQuery c p' (cq_bw q) (cq_meet q) (cq_count q) (cq_state q)) ->
      kinv q' (c, KPinDone d l ss) /\ s_dist (ksrc d q') = s_dist (ksrc d q)) as Hq'.
    { intros q' Eq. destruct d; subst q'; cbn in *; (split; [|done]); (split; [done|]); (split; [done|]); (split; [done|]); cbn; exists cnt, sel, s0, S, F; done. }
    assert (exists q', (if d then cq_extra_to_targets dflt link else cq_extra_to_sources dflt link) q e tmp out = Some (q', tmp', out') /\
       if d then q' = mkCQuery c (cq_fw q) p' (cq_meet q) (cq_count q) (cq_state q) else q' = mkCQuery c p' (cq_bw q) (cq_meet q) (cq_count q) (cq_state q)) as (q' & E' & Eq).
    { destruct d; unfold cq_extra_to_targets, cq_extra_to_sources; rewrite Hst, bool_decide_eq_true_2 by done; cbn [chk]; rewrite bind_S, Hk, bind_S; fold c; cbn [csd negb ktgt ksrc] in *.
      - change (fun b => get_weight link c e b) with (get_weight link c e) in E. rewrite E, bind_S. eexists. done.
      - rewrite E, bind_S. eexists. done. }
    exists q', tmp', out'. split; [done|]. destruct (Hq' q' Eq) as [? ?]. split; [done|]. split; [done|]. split; [done|]. split; [done|].
    exists S, F, s0, sel, R. intros i t x Hi Hx. apply (A7 i (krk c t) x); [by rewrite list_lookup_fmap, Hi|done].
Qed.

Definition asked_nodes (G : kasked) : list nat :=
  match G with
  | KInit ss ts | KDone ss ts => ss.*1 ++ ts.*1
  | KPin _ l ss | KPinDone _ l ss => l ++ ss.*1
  end.
Definition asked_below (cG : ch * kasked) : Prop := Forall (fun x => x < ch_nodes (fst cG)) (asked_nodes (snd cG)).
Lemma kallowed_below H cG o cG' : kallowed H cG o cG' -> asked_below cG -> asked_below cG'.
Proof.
  unfold asked_below. intros Ha HG. destruct Ha; cbn [fst snd asked_nodes fmap list_fmap] in *; rewrite ?Forall_app, ?Forall_cons in *; cbn [fst] in *; try (split_and!; tauto || done); done.
Qed.

Theorem kexec_ok (H : ch -> Prop) q cG o cG' : (forall c, H c -> chfit c) -> kinv q cG -> asked_below cG -> kallowed H cG o cG' -> exists q', kexec o q = Some q' /\ kinv q' cG'.
Proof.
  intros HH Hq HG Ha. destruct Ha as [c ss ts s d Hs Hd|c ss ts s d Hs Hd|c ss ts Hss Hts|c ss l Hl Hll|c ts l Hl Hll|c l ss s d Hs Hd|c l ss s d Hs Hd
    |c l ss Hss|c l ss Hss|c l ss|c l ss|c l ss|c l ss|c G|c c' G Hc'|c d l ss W dflt link e tmp dist He Htmp Hdist]; cbn [kexec].
  - destruct Hq as (Hqc & Hc & Hst & Q1 & Q2 & H1 & H2). cbn [fst snd] in *. subst c. destruct (krk_ok _ _ Hc Hs) as [Hr Hrn].
    unfold cq_add_source. rewrite Hst. rewrite bool_decide_eq_true_2 by (by left). cbn [chk]. rewrite bind_S.
    destruct (side_add_ok _ _ _ _ _ _ _ _ d H1 Hr Hrn Hd) as (s' & Q' & -> & H1'). rewrite bind_S. eexists. split; [done|].
    split; [done|]. split; [done|]. split; [done|]. exists Q', Q2. done.
  - destruct Hq as (Hqc & Hc & Hst & Q1 & Q2 & H1 & H2). cbn [fst snd] in *. subst c. destruct (krk_ok _ _ Hc Hs) as [Hr Hrn].
    unfold cq_add_target. rewrite Hst. rewrite bool_decide_eq_true_2 by (by left). cbn [chk]. rewrite bind_S.
    destruct (side_add_ok _ _ _ _ _ _ _ _ d H2 Hr Hrn Hd) as (s' & Q' & -> & H2'). rewrite bind_S. eexists. split; [done|].
    split; [done|]. split; [done|]. split; [done|]. exists Q1, Q'. done.
  - destruct Hq as (Hqc & Hc & Hst & Q1 & Q2 & H1 & H2). cbn [fst snd] in *. subst c.
    unfold cq_run. rewrite (q_empty_spec _ _ _ (sb_q _ _ _ _ _ _ H1)), (q_empty_spec _ _ _ (sb_q _ _ _ _ _ _ H2)).
    rewrite (bool_decide_eq_false_2 (Q1 = ∅)) by (eapply sbase_nonempty; [done|]; by destruct ss).
    rewrite (bool_decide_eq_false_2 (Q2 = ∅)) by (eapply sbase_nonempty; [done|]; by destruct ts).
    rewrite Hst, bool_decide_eq_true_2 by done. cbn [negb chk]. rewrite !bind_S.
    destruct (run_loop_ok (ch_nodes (cq_ch q)) (cq_ch q) (cf_fwd _ Hc) (cf_bwd _ Hc) (cf_wf _ Hc) (cf_wb _ Hc) (krks (cq_ch q) ss) (krks (cq_ch q) ts)
      (S (2 * ch_nodes (cq_ch q))) ∅ Q1 ∅ Q2 (cq_fw q) (cq_bw q) (inf_weight, None) true) as (f & b & r & S1 & Q1' & S2 & Q2' & -> & HR & HQ1 & HQ2).
    { split; try done; try (by left); intros x; intros; exfalso; by eapply not_elem_of_empty. }
    { rewrite !size_empty. lia. }
    rewrite bind_S. cbv beta iota. eexists. split; [done|]. split; [done|]. split; [done|]. split; [done|]. exists S1, Q1', S2, Q2', r. done.
  - destruct Hq as (Hqc & Hc & Hst & Q1 & Q2 & H1 & H2). cbn [fst snd] in *. subst c.
    unfold cq_pin_targets. rewrite Hst, bool_decide_eq_true_2 by done. cbn [chk]. rewrite bind_S.
    pose proof (sbase_nil_queue _ _ _ _ H2) as ->.
    destruct (pin_ok (ch_nodes (cq_ch q)) (cq_ch q) (ch_bwd (cq_ch q)) l (cq_bw q)) as (s' & cnt & sel & -> & Hp);
      [apply Hc|apply Hc|done|by eapply sbase_shape|apply H2|done|done|].
    rewrite bind_S. cbv beta iota. eexists. split; [done|]. split; [done|]. split; [done|]. split; [done|]. exists cnt, sel, Q1. done.
  - destruct Hq as (Hqc & Hc & Hst & Q1 & Q2 & H1 & H2). cbn [fst snd] in *. subst c.
    unfold cq_pin_sources. rewrite Hst, bool_decide_eq_true_2 by done. cbn [chk]. rewrite bind_S.
    pose proof (sbase_nil_queue _ _ _ _ H1) as ->.
    destruct (pin_ok (ch_nodes (cq_ch q)) (cq_ch q) (ch_fwd (cq_ch q)) l (cq_fw q)) as (s' & cnt & sel & -> & Hp);
      [apply Hc|apply Hc|done|by eapply sbase_shape|apply H1|done|done|].
    rewrite bind_S. cbv beta iota. eexists. split; [done|]. split; [done|]. split; [done|]. split; [done|]. exists cnt, sel, Q2. done.
  - destruct Hq as (Hqc & Hc & Hst & cnt & sel & Q & Hm & Hk & H1 & H2). cbn [fst snd ksrc ktgt negb csd] in *. subst c. destruct (krk_ok _ _ Hc Hs) as [Hr Hrn].
    unfold cq_add_source. rewrite Hst. rewrite bool_decide_eq_true_2 by (by right). cbn [chk]. rewrite bind_S.
    destruct (side_add_ok _ _ _ _ _ _ _ _ d H1 Hr Hrn Hd) as (s' & Q' & -> & H1'). rewrite bind_S. eexists. split; [done|].
    split; [done|]. split; [done|]. split; [done|]. exists cnt, sel, Q'. done.
  - destruct Hq as (Hqc & Hc & Hst & cnt & sel & Q & Hm & Hk & H1 & H2). cbn [fst snd ksrc ktgt negb csd] in *. subst c. destruct (krk_ok _ _ Hc Hs) as [Hr Hrn].
    unfold cq_add_target. rewrite Hst. rewrite bool_decide_eq_true_2 by (by right). cbn [chk]. rewrite bind_S.
    destruct (side_add_ok _ _ _ _ _ _ _ _ d H1 Hr Hrn Hd) as (s' & Q' & -> & H1'). rewrite bind_S. eexists. split; [done|].
    split; [done|]. split; [done|]. split; [done|]. exists cnt, sel, Q'. done.
  - destruct Hq as (Hqc & Hc & Hst & cnt & sel & Q & Hm & Hk & H1 & H2). cbn [fst snd ksrc ktgt negb csd] in *. subst c.
    unfold cq_run_to_targets. rewrite (q_empty_spec _ _ _ (sb_q _ _ _ _ _ _ H1)).
    rewrite (bool_decide_eq_false_2 (Q = ∅)) by (eapply sbase_nonempty; [done|]; by destruct ss).
    rewrite Hst, bool_decide_eq_true_2 by done. cbn [negb chk]. rewrite !bind_S, Hm, bind_S.
    destruct (pinned_run_ok (ch_nodes (cq_ch q)) (cq_ch q) (ch_fwd (cq_ch q)) (ch_bwd (cq_ch q)) l cnt (cq_bw q) sel (krks (cq_ch q) ss) Q (cq_fw q)) as (s0 & S & F & s' & -> & H3 & H4 & H5);
      [apply Hc|apply Hc|apply Hc|apply Hc|done|done|exact H1|].
    rewrite bind_S. eexists. split; [done|]. split; [done|]. split; [done|]. split; [done|]. exists cnt, sel, s0, S, F. done.
  - destruct Hq as (Hqc & Hc & Hst & cnt & sel & Q & Hm & Hk & H1 & H2). cbn [fst snd ksrc ktgt negb csd] in *. subst c.
    unfold cq_run_to_sources. rewrite (q_empty_spec _ _ _ (sb_q _ _ _ _ _ _ H1)).
    rewrite (bool_decide_eq_false_2 (Q = ∅)) by (eapply sbase_nonempty; [done|]; by destruct ss).
    rewrite Hst, bool_decide_eq_true_2 by done. cbn [negb chk]. rewrite !bind_S, Hm, bind_S.
    destruct (pinned_run_ok (ch_nodes (cq_ch q)) (cq_ch q) (ch_bwd (cq_ch q)) (ch_fwd (cq_ch q)) l cnt (cq_fw q) sel (krks (cq_ch q) ss) Q (cq_bw q)) as (s0 & S & F & s' & -> & H3 & H4 & H5);
      [apply Hc|apply Hc|apply Hc|apply Hc|done|done|exact H1|].
    rewrite bind_S. eexists. split; [done|]. split; [done|]. split; [done|]. split; [done|]. exists cnt, sel, s0, S, F. done.
  - destruct (kinv_shapes _ _ _ Hq) as [Hf Hb]. destruct Hq as (Hqc & Hc & Hst & cnt & sel & Q & Hm & Hk & H1 & H2). cbn [fst snd ksrc ktgt negb csd] in *. subst c.
    unfold cq_reset_source. rewrite Hst, bool_decide_eq_true_2 by (by left). cbn [chk]. rewrite bind_S.
    destruct (clear_side_ok _ _ Hf) as (s' & -> & Hs'). rewrite bind_S. eexists. split; [done|]. split; [done|]. split; [done|]. split; [done|].
    exists cnt, sel, ∅. do 2 (split; [done|]). split; [apply Hs'|done].
  - destruct (kinv_shapes _ _ _ Hq) as [Hf Hb]. destruct Hq as (Hqc & Hc & Hst & cnt & sel & s0 & S & F & Hm & Hk & H1 & _ & _ & H2). cbn [fst snd ksrc ktgt negb csd] in *. subst c.
    unfold cq_reset_source. rewrite Hst, bool_decide_eq_true_2 by (by right). cbn [chk]. rewrite bind_S.
    destruct (clear_side_ok _ _ Hf) as (s' & -> & Hs'). rewrite bind_S. eexists. split; [done|]. split; [done|]. split; [done|]. split; [done|].
    exists cnt, sel, ∅. do 2 (split; [done|]). split; [apply Hs'|done].
  - destruct (kinv_shapes _ _ _ Hq) as [Hf Hb]. destruct Hq as (Hqc & Hc & Hst & cnt & sel & Q & Hm & Hk & H1 & H2). cbn [fst snd ksrc ktgt negb csd] in *. subst c.
    unfold cq_reset_target. rewrite Hst, bool_decide_eq_true_2 by (by left). cbn [chk]. rewrite bind_S.
    destruct (clear_side_ok _ _ Hb) as (s' & -> & Hs'). rewrite bind_S. eexists. split; [done|]. split; [done|]. split; [done|]. split; [done|].
    exists cnt, sel, ∅. do 2 (split; [done|]). split; [apply Hs'|done].
  - destruct (kinv_shapes _ _ _ Hq) as [Hf Hb]. destruct Hq as (Hqc & Hc & Hst & cnt & sel & s0 & S & F & Hm & Hk & H1 & _ & _ & H2). cbn [fst snd ksrc ktgt negb csd] in *. subst c.
    unfold cq_reset_target. rewrite Hst, bool_decide_eq_true_2 by (by right). cbn [chk]. rewrite bind_S.
    destruct (clear_side_ok _ _ Hb) as (s' & -> & Hs'). rewrite bind_S. eexists. split; [done|]. split; [done|]. split; [done|]. split; [done|].
    exists cnt, sel, ∅. do 2 (split; [done|]). split; [apply Hs'|done].
  - destruct (kinv_shapes _ _ _ Hq) as [Hf Hb]. destruct Hq as (Hqc & Hc & _). cbn [fst snd] in *. subst c.
    unfold cq_reset. destruct (clear_side_ok _ _ Hf) as (f' & -> & Hf'). rewrite bind_S.
    destruct (clear_side_ok _ _ Hb) as (b' & -> & Hb'). rewrite bind_S. eexists. split; [done|]. by apply clean_init.
  - destruct (kinv_shapes _ _ _ Hq) as [Hf Hb]. destruct Hq as (Hqc & Hc & _). cbn [fst snd] in *. subst c.
    unfold cq_reset_ch. rewrite (sh_d _ _ Hf). destruct (decide _) as [E|E].
    + unfold cq_reset. destruct (clear_side_ok _ _ Hf) as (f' & -> & Hf'). rewrite bind_S.
      destruct (clear_side_ok _ _ Hb) as (b' & -> & Hb'). rewrite !bind_S. cbn. rewrite E in Hf', Hb'. eexists. split; [done|]. apply clean_init; [by apply HH|done|done].
    + eexists. split; [done|]. apply new_kinv. by apply HH.
  - destruct (extra_to_ok dflt link d q c l ss e tmp dist Hq (proj1 (proj1 (Forall_app _ _ _) HG)) He Htmp Hdist) as (q' & tmp' & out' & E & Hq' & _). rewrite E, bind_S. by exists q'.
Qed.

Lemma kexec_all_ok (H : ch -> Prop) q cG ops cG' : (forall c, H c -> chfit c) -> kinv q cG -> asked_below cG -> khistory H cG ops cG' ->
  exists q', kexec_all ops q = Some q' /\ kinv q' cG' /\ asked_below cG'.
Proof.
  intros HH Hq HG Hh. revert q Hq HG. induction Hh as [G|G o G' ops G'' Ha Hh IH]; intros q Hq HG; [by exists q|].
  destruct (kexec_ok _ _ _ _ _ HH Hq HG Ha) as (q' & E & Hq'). destruct (IH q' Hq' (kallowed_below _ _ _ _ Ha HG)) as (q'' & E' & Hq''). exists q''.
  split; [|done]. unfold kexec_all. cbn [for_each]. rewrite E, bind_S. done.
Qed.
