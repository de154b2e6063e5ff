(** The bidirectional search with stalling and early stopping finds a shortest route. *)
From Verif Require Import Base UtilSpec GraphSpec WalkSpec IdQueueModel IdQueueSpec IdQueueProofs IdSetModel IdSetSpec IdSetProofs ChBuildModel ChSpec ChQueryModel ChSearchProofs.
Ltac Zify.zify_post_hook ::= idtac.

Definition settled (g o : chside) (S : gset nat) (Q : gmap nat N) (s : cside) : Prop :=
  forall x, x ∈ S -> expanded g S Q s x \/ stalled o S Q s x.

Lemma settled_better n g o ss S Q Q' s s' :
  sbase n g ss S Q s -> sbase n g ss S Q' s' -> better S Q Q' s s' ->
  settled g o S Q s -> settled g o S Q' s'.
Proof.
  intros H H' B Hs x Hx. destruct (Hs x Hx) as [He|He]; [left; by eapply (expanded_better _ _ _ _ _ _ _ _ _ H H' B)|right; by eapply (stalled_better _ _ _ _ _ _ _ _ _ _ H H' B)].
Qed.

(** Both sides and the best path found so far. *)
Record rinv (n : nat) (g o : chside) (ss tt : list (nat * N)) (S1 : gset nat) (Q1 : gmap nat N) (S2 : gset nat) (Q2 : gmap nat N)
    (f b : cside) (r : N * option nat) : Prop := {
  ri_f : sbase n g ss S1 Q1 f; ri_b : sbase n o tt S2 Q2 b;
  ri_fs : settled g o S1 Q1 f; ri_bs : settled o g S2 Q2 b;
  ri_rec : forall x df db, x ∈ S1 -> x ∈ S2 -> s_dist f !! x = Some df -> s_dist b !! x = Some db -> (fst r <= df + db)%N;
  ri_meet : (r = (inf_weight, None)) \/
    exists m df db, snd r = Some m /\ m ∈ S1 ∪ dom Q1 /\ m ∈ S2 ∪ dom Q2 /\ s_dist f !! m = Some df /\ s_dist b !! m = Some db /\
      (df + db <= fst r)%N /\ (fst r < inf_weight)%N }.

Lemma rinv_swap n g o ss tt S1 Q1 S2 Q2 f b r :
  rinv n g o ss tt S1 Q1 S2 Q2 f b r -> rinv n o g tt ss S2 Q2 S1 Q1 b f r.
Proof.
  intros [? ? ? ? Hrec Hmeet]. split; try done.
  - intros x df db ? ? ? ?. rewrite N.add_comm. by eapply Hrec.
  - destruct Hmeet as [?|(m & df & db & ? & ? & ? & ? & ? & ? & ?)]; [by left|]. right. exists m, db, df.
    do 5 (split; [done|]). split; [lia|done].
Qed.

Lemma settle_ok n g o ss tt S1 Q1 S2 Q2 f b r :
  side_ok n g -> side_ok n o -> weights_fit g -> weights_fit o ->
  rinv n g o ss tt S1 Q1 S2 Q2 f b r -> Q1 <> ∅ ->
  exists f' r' x Q1', settle_node g o b f r = Some (f', r') /\ x ∉ S1 /\ x < n /\
    rinv n g o ss tt ({[x]} ∪ S1) Q1' S2 Q2 f' b r'.
Proof.
  intros Hg Ho Hgf Hof [Hf Hb Hfs Hbs Hrec Hmeet] Hne.
  destruct (pop_ok _ _ _ _ _ _ Hf Hne) as (x & key & q' & E & Hxn & HxS & HxQ & Hkle & Hf1 & Hkey & Hdom & Hpop & Hq).
  cbv zeta in Hf1. unfold settle_node. rewrite E, bind_S. cbv beta iota zeta.
  set (f1 := mkCSide (s_pushed f) q' (s_dist f) (s_pnode f) (s_parc f)) in *.
  rewrite (is_set_spec _ _ _ _ (sb_f _ _ _ _ _ _ Hb)) by done. rewrite bind_S.
  set (S1' := {[x]} ∪ S1) in *. set (Qd := delete x Q1) in *.
  assert (x ∈ S1') as HxS' by (apply elem_of_union_l, elem_of_singleton; done).
  (* the recorded path *)
  assert (exists r', (if bool_decide (x ∈ S2 ∪ dom Q2) then
         d ← s_dist b !! x;
         Some (if decide (sum32 key d < fst r)%N then (sum32 key d, Some x) else r)
       else Some r) = Some r' /\
     (fst r' <= fst r)%N /\ (forall db, x ∈ S2 ∪ dom Q2 -> s_dist b !! x = Some db -> (fst r' <= key + db)%N) /\
     (r' = (inf_weight, None) \/
      exists m df db, snd r' = Some m /\ m ∈ S1 ∪ dom Q1 /\ m ∈ S2 ∪ dom Q2 /\ s_dist f !! m = Some df /\ s_dist b !! m = Some db /\
      (df + db <= fst r')%N /\ (fst r' < inf_weight)%N)) as (r' & Er & Hr1 & Hr2 & Hr3).
  { case_bool_decide as Hin.
    - destruct (sb_dist _ _ _ _ _ _ _ Hb Hin) as (d & Hd & Hdle). rewrite Hd, bind_S.
      rewrite (sum32_le key d) by done. destruct (decide (key + d < fst r)%N) as [Hlt|Hge].
      + eexists. split; [done|]. cbn [fst snd]. split; [lia|]. split; [intros db _ Hdb; assert (db = d) as -> by congruence; lia|].
        right. exists x, key, d. split; [done|]. split; [apply elem_of_union_r, elem_of_dom; eauto|]. do 3 (split; [done|]).
        split; [lia|]. destruct Hmeet as [->|(m & df & db & _ & _ & _ & _ & _ & _ & ?)]; [done|lia].
      + exists r. split; [done|]. split; [lia|]. split; [intros db _ Hdb; assert (db = d) as -> by congruence; lia|done].
    - exists r. split; [done|]. split; [lia|]. done. }
  rewrite Er, bind_S.
  destruct (can_stall_ok n g o ss S1' Qd f1 x Ho Hof Hf1) as (stall & Es & Hstall); [by apply elem_of_union_l|].
  rewrite Es, bind_S.
  assert (exists f' Q1', (if stall then Some f1 else expand g x key f1) = Some f' /\ sbase n g ss S1' Q1' f' /\ better S1' Qd Q1' f1 f' /\
     (expanded g S1' Q1' f' x \/ stalled o S1' Q1' f' x)) as (f' & Q1' & Ex & Hf' & HB & Hx).
  { destruct stall.
    - exists f1, Qd. split; [done|]. split; [done|]. split; [apply better_refl|]. right. by apply Hstall.
    - destruct (expand_ok n g Hg Hgf ss S1' Qd f1 x key) as (f' & Q1' & ? & ? & ? & ?); [done..|].
      exists f', Q1'. split; [done|]. split; [done|]. split; [done|]. by left. }
  rewrite Ex, bind_S. exists f', r', x, Q1'. split; [done|]. split; [done|]. split; [done|].
  assert (forall z, z ∈ S1' -> s_dist f' !! z = s_dist f !! z) as Hsame by (apply HB).
  split; try done.
  - intros z Hz. apply elem_of_union in Hz as Hz'. destruct Hz' as [->%elem_of_singleton|Hz']; [done|].
    assert (expanded g S1' Qd f1 z \/ stalled o S1' Qd f1 z) as Hzz.
    { unfold expanded, stalled. rewrite Hdom. cbn [s_dist f1]. apply Hfs. done. }
    destruct Hzz as [He|He]; [left; by eapply (expanded_better _ _ _ _ _ _ _ _ _ Hf1 Hf' HB)|right; by eapply (stalled_better _ _ _ _ _ _ _ _ _ _ Hf1 Hf' HB)].
  - intros z df db Hz Hz2 Hdf Hdb. rewrite Hsame in Hdf by done.
    apply elem_of_union in Hz as [->%elem_of_singleton|Hz].
    + assert (df = key) as -> by congruence. apply Hr2; [by apply elem_of_union_l|done].
    + specialize (Hrec z df db Hz Hz2 Hdf Hdb). lia.
  - destruct Hr3 as [?|(m & df & db & ? & Hm1 & ? & Hdf & ? & ? & ?)]; [by left|]. right.
    destruct (better_dist n g ss S1' Qd Q1' f1 f' m df) as (Hm' & df' & Hdf' & Hle); [done|done|done| |done|].
    { rewrite Hdom. done. }
    exists m, df', db. do 5 (split; [done|]). split; [lia|done].
Qed.

Lemma finished_ok n g ss S Q s best :
  sbase n g ss S Q s -> exists b, finished s best = Some b /\
    (b = true -> forall x k, Q !! x = Some k -> (best <= k)%N) /\ (b = false -> Q <> ∅).
Proof.
  intros H. unfold finished. rewrite (q_empty_spec _ _ _ (sb_q _ _ _ _ _ _ H)). case_bool_decide as HQ.
  - exists true. split; [done|]. split; [|done]. intros _ x k Hx. rewrite HQ in Hx. by rewrite lookup_empty in Hx.
  - destruct (q_step_refines n _ _ OPeek (sb_q _ _ _ _ _ _ H) HQ) as (out & q' & m' & E & Hs & _).
    cbn [spec_step] in Hs. destruct Hs as (id & k & -> & (Hid & Hmin) & ->).
    cbn [q_step] in E. destruct (peek (s_queue s)) as [[id' k']|]; [|done]. cbn in E. simplify_eq. rewrite bind_S. cbv beta iota.
    eexists. split; [done|]. split; [|done]. intros Hb%bool_decide_eq_true x k' Hx. specialize (Hmin x k' Hx). lia.
Qed.

Lemma set_bound (n : nat) (S : gset nat) : (forall x, x ∈ S -> x < n) -> size S <= n.
Proof. apply set_size_bound. Qed.

Section run.
Context (n : nat) (c : ch).
Hypothesis Hg : side_ok n (ch_fwd c).
Hypothesis Ho : side_ok n (ch_bwd c).
Hypothesis Hgf : weights_fit (ch_fwd c).
Hypothesis Hof : weights_fit (ch_bwd c).

Lemma run_loop_ok ss tt fuel : forall S1 Q1 S2 Q2 f b r next,
  rinv n (ch_fwd c) (ch_bwd c) ss tt S1 Q1 S2 Q2 f b r -> 2 * n < fuel + size S1 + size S2 ->
  exists f' b' r' S1' Q1' S2' Q2', run_loop c fuel f b r next = Some (f', b', r') /\
    rinv n (ch_fwd c) (ch_bwd c) ss tt S1' Q1' S2' Q2' f' b' r' /\
    (forall x k, Q1' !! x = Some k -> (fst r' <= k)%N) /\ (forall x k, Q2' !! x = Some k -> (fst r' <= k)%N).
Proof.
  assert (forall g ss' S Q s, sbase n g ss' S Q s -> size S <= n) as Hsz.
  { intros g ss' S Q s H. apply set_bound. intros x Hx. eapply sb_lt; [done|by apply elem_of_union_l]. }
  induction fuel as [|fuel IH]; intros S1 Q1 S2 Q2 f b r next H Hfuel.
  { pose proof (Hsz _ _ _ _ _ (ri_f _ _ _ _ _ _ _ _ _ _ _ _ H)). pose proof (Hsz _ _ _ _ _ (ri_b _ _ _ _ _ _ _ _ _ _ _ _ H)). lia. }
  cbn [run_loop].
  destruct (finished_ok _ _ _ _ _ _ (fst r) (ri_f _ _ _ _ _ _ _ _ _ _ _ _ H)) as (ff & -> & Hff & Hff').
  destruct (finished_ok _ _ _ _ _ _ (fst r) (ri_b _ _ _ _ _ _ _ _ _ _ _ _ H)) as (bf & -> & Hbf & Hbf').
  rewrite !bind_S.
  destruct (ff && bf) eqn:Efb.
  { apply andb_true_iff in Efb as [-> ->]. exists f, b, r, S1, Q1, S2, Q2. split; [done|]. split; [done|]. split; [by apply Hff|by apply Hbf]. }
  cbv zeta. set (nx := if bf then true else if ff then false else next).
  destruct nx eqn:Enx.
  - assert (ff = false) as Hf0. { unfold nx in Enx. destruct ff, bf, next; done. }
    destruct (settle_ok n (ch_fwd c) (ch_bwd c) ss tt S1 Q1 S2 Q2 f b r) as (f' & r' & x & Q1' & -> & Hx & Hxn & H'); [done..|by apply Hff'|].
    rewrite bind_S. cbv beta iota. eapply IH; [exact H'|]. rewrite size_union by set_solver. rewrite size_singleton. lia.
  - assert (bf = false) as Hb0. { unfold nx in Enx. destruct ff, bf, next; done. }
    destruct (settle_ok n (ch_bwd c) (ch_fwd c) tt ss S2 Q2 S1 Q1 b f r) as (b' & r' & x & Q2' & -> & Hx & Hxn & H'); [done..|by apply rinv_swap|by apply Hbf'|].
    rewrite bind_S. cbv beta iota. eapply IH; [apply rinv_swap; exact H'|]. rewrite size_union by set_solver. rewrite size_singleton. lia.
Qed.
End run.

(** ** The result is a shortest route *)
Lemma upstar_inv (A : warcs) u v L : upstar A u v L -> (u = v /\ L = 0%N) \/ exists x w L', A u x w /\ upstar A x v L' /\ L = (w + L')%N.
Proof.
  induction 1 as [u|u x v L w H IH Ha]; [by left|]. right. destruct IH as [[-> ->]|(y & w' & L' & Hy & Hup & ->)].
  - exists v, w, 0%N. split; [done|]. split; [constructor|lia].
  - exists y, w', (L' + w)%N. split; [done|]. split; [by econstructor|lia].
Qed.

(** What the hierarchy has to provide: [R x y L], there is a walk of length [L] from [x] to [y]. *)
Record covers (n : nat) (g o : chside) (R : nat -> nat -> N -> Prop) : Prop := {
  cv_refl : forall x, x < n -> R x x 0%N;
  cv_fwd : forall a x y w, sarc g a x y w -> R x y w;
  cv_bwd : forall a x y w, sarc o a x y w -> R y x w;
  cv_trans : forall x y z L M, R x y L -> R y z M -> R x z (L + M)%N;
  cv_up : forall x y L, (L < inf_weight)%N -> x < n -> y < n -> R x y L ->
    exists z L1 L2, (L1 + L2 <= L)%N /\ upstar (swarcs g) x z L1 /\ upstar (swarcs o) y z L2 }.

Lemma covers_swap n g o R : covers n g o R -> covers n o g (fun x y => R y x).
Proof.
  intros [H1 H2 H3 H4 H5]. split; cbn; try done.
  - intros x y z L M ? ?. rewrite N.add_comm. by eapply H4.
  - intros x y L HL Hx Hy HR. destruct (H5 y x L HL Hy Hx HR) as (z & L1 & L2 & ? & ? & ?). exists z, L2, L1. split; [lia|done].
Qed.
Lemma covers_upstar n g o R x z L : covers n g o R -> side_ok n g -> x < n -> upstar (swarcs g) x z L -> R x z L /\ z < n.
Proof.
  intros HC Hg Hx. induction 1 as [u|u y v L w H IH (a & Ha)].
  - split; [by apply (cv_refl _ _ _ _ HC)|done].
  - destruct (IH Hx) as [HR _]. split.
    + eapply (cv_trans _ _ _ _ HC); [done|by eapply (cv_fwd _ _ _ _ HC)].
    + by eapply sarc_lt.
Qed.

Section optimal.
Context (n : nat) (g o : chside) (R : nat -> nat -> N -> Prop).

(** A step up from a popped node that is not the meeting point. *)
Lemma step_up ss S Q s u u' L x w L1 du :
  covers n g o R -> side_ok n g -> side_ok n o -> sbase n g ss S Q s -> settled g o S Q s ->
  u ∈ S -> s_dist s !! u = Some du -> R u u' L ->
  swarcs g u x w -> R x u' L1 -> (w + L1 <= L)%N -> (du + L < inf_weight)%N ->
  exists v dv Lv, u < v /\ v ∈ S ∪ dom Q /\ s_dist s !! v = Some dv /\ R v u' Lv /\ (dv + Lv <= du + L)%N.
Proof.
  intros HC Hg Ho Hs Hset Hu Hdu HR (a & Ha) HR1 Hle Hinf.
  destruct (Hset u Hu) as [He|(d & b & y & w' & dy & Hd & Hb & Hy & Hdy & Hle')].
  - destruct (He du a x w Hdu Ha) as (Hx & dx & Hdx & Hdle); [lia|].
    exists x, dx, L1. split; [by eapply (so_up _ _ Hg)|]. do 3 (split; [done|]). lia.
  - assert (d = du) as -> by congruence. exists y, dy, (w' + L)%N. split; [by eapply (so_up _ _ Ho)|].
    do 2 (split; [done|]). split; [|lia]. eapply (cv_trans _ _ _ _ HC); [by eapply (cv_bwd _ _ _ _ HC)|done].
Qed.

End optimal.

Lemma run_complete n g o R ss tt S1 Q1 S2 Q2 f b r D :
  covers n g o R -> side_ok n g -> side_ok n o ->
  rinv n g o ss tt S1 Q1 S2 Q2 f b r ->
  (forall x k, Q1 !! x = Some k -> (fst r <= k)%N) -> (forall x k, Q2 !! x = Some k -> (fst r <= k)%N) ->
  (D < inf_weight)%N ->
  forall k u u' du du' L, 2 * n - (u + u') <= k -> u ∈ S1 ∪ dom Q1 -> u' ∈ S2 ∪ dom Q2 ->
    s_dist f !! u = Some du -> s_dist b !! u' = Some du' -> R u u' L -> (du + L + du' <= D)%N -> (fst r <= D)%N.
Proof.
  intros HC Hg Ho [Hf Hb Hfs Hbs Hrec Hmeet] HQ1 HQ2 HD k. induction k as [k IH] using lt_wf_ind.
  intros u u' du du' L Hk Hu Hu' Hdu Hdu' HR Hle.
  pose proof (sb_lt _ _ _ _ _ _ _ Hf Hu) as Hun. pose proof (sb_lt _ _ _ _ _ _ _ Hb Hu') as Hun'.
  pose proof Hu as Hu0. pose proof Hu' as Hu0'.
  apply elem_of_union in Hu as [Hu|(k1 & Hk1)%elem_of_dom].
  2:{ destruct (sb_key _ _ _ _ _ _ Hf u k1 Hk1) as [? _]. specialize (HQ1 u k1 Hk1). assert (k1 = du) as -> by congruence. lia. }
  apply elem_of_union in Hu' as [Hu'|(k1 & Hk1)%elem_of_dom].
  2:{ destruct (sb_key _ _ _ _ _ _ Hb u' k1 Hk1) as [? _]. specialize (HQ2 u' k1 Hk1). assert (k1 = du') as -> by congruence. lia. }
  pose proof (covers_swap _ _ _ _ HC) as HC'.
  destruct (cv_up _ _ _ _ HC u u' L ltac:(lia) Hun Hun' HR) as (z & L1 & L2 & HL & Hup1 & Hup2).
  destruct (covers_upstar _ _ _ _ _ _ _ HC' Ho Hun' Hup2) as [HR2 _]. cbn in HR2.
  destruct (upstar_inv _ _ _ _ Hup1) as [[-> ->]|(x & w & L1' & Ha & Hup1' & ->)].
  - destruct (upstar_inv _ _ _ _ Hup2) as [[-> ->]|(x & w & L2' & Ha & Hup2' & ->)].
    + specialize (Hrec z du du' Hu Hu' Hdu Hdu'). lia.
    + assert (x < n) as Hxn by (destruct Ha as [? Ha]; by eapply (sarc_lt _ _ _ _ _ _ Ho)).
      destruct (covers_upstar _ _ _ _ _ _ _ HC' Ho Hxn Hup2') as [HR2' _]. cbn in HR2'.
      destruct (step_up n o g (fun x y => R y x) tt S2 Q2 b u' z L x w L2' du' HC' Ho Hg Hb Hbs Hu' Hdu' HR Ha HR2')
        as (v & dv & Lv & Huv & Hv & Hdv & HRv & Hlev); [lia|lia|].
      pose proof (sb_lt _ _ _ _ _ _ _ Hb Hv).
      eapply (IH (2 * n - (z + v)) ltac:(lia) z v du dv Lv); try done. lia.
  - assert (x < n) as Hxn by (destruct Ha as [? Ha]; by eapply (sarc_lt _ _ _ _ _ _ Hg)).
    destruct (covers_upstar _ _ _ _ _ _ _ HC Hg Hxn Hup1') as [HR1' _].
    destruct (step_up n g o R ss S1 Q1 f u u' L x w (L1' + L2)%N du HC Hg Ho Hf Hfs Hu Hdu HR Ha)
      as (v & dv & Lv & Huv & Hv & Hdv & HRv & Hlev); [by eapply (cv_trans _ _ _ _ HC)|lia|lia|].
    pose proof (sb_lt _ _ _ _ _ _ _ Hf Hv).
    eapply (IH (2 * n - (v + u')) ltac:(lia) v u' dv du' Lv); try done. lia.
Qed.

(** The distance of a reached node is that of a walk from a source. *)
Lemma dist_route n g o R ss S Q s : covers n g o R -> side_ok n g -> sbase n g ss S Q s ->
  forall x d, x ∈ S ∪ dom Q -> s_dist s !! x = Some d -> exists y d0 L, (y, d0) ∈ ss /\ y < n /\ R y x L /\ d = (d0 + L)%N.
Proof.
  intros HC Hg H x. induction x as [x IH] using lt_wf_ind. intros d Hx Hd.
  destruct (sb_pred _ _ _ _ _ _ H x d Hx Hd) as [[_ Hs]|(y & a & w & dy & _ & _ & Ha & Hy & Hdy & ->)].
  - pose proof (sb_lt _ _ _ _ _ _ _ H Hx). exists x, d, 0%N. split; [done|]. split; [done|]. split; [by apply (cv_refl _ _ _ _ HC)|lia].
  - destruct (IH y (so_up _ _ Hg _ _ _ _ Ha) dy) as (z & d0 & L & Hz & Hzn & HR & ->); [by apply elem_of_union_l|done|].
    exists z, d0, (L + w)%N. split; [done|]. split; [done|]. split; [|lia]. eapply (cv_trans _ _ _ _ HC); [done|by eapply (cv_fwd _ _ _ _ HC)].
Qed.

Lemma run_optimal n g o R ss tt S1 Q1 S2 Q2 f b r :
  covers n g o R -> side_ok n g -> side_ok n o -> (forall s d, (s, d) ∈ ss -> s < n) -> (forall t d, (t, d) ∈ tt -> t < n) ->
  rinv n g o ss tt S1 Q1 S2 Q2 f b r ->
  (forall x k, Q1 !! x = Some k -> (fst r <= k)%N) -> (forall x k, Q2 !! x = Some k -> (fst r <= k)%N) ->
  (forall s ds t dt L, (s, ds) ∈ ss -> (t, dt) ∈ tt -> R s t L -> (fst r <= ds + L + dt)%N) /\
  ((r = (inf_weight, None)) \/
   exists m df db, snd r = Some m /\ m ∈ S1 ∪ dom Q1 /\ m ∈ S2 ∪ dom Q2 /\ s_dist f !! m = Some df /\ s_dist b !! m = Some db /\ fst r = (df + db)%N /\ (fst r < inf_weight)%N).
Proof.
  intros HC Hg Ho Hss Htt H HQ1 HQ2.
  assert (forall s ds t dt L, (s, ds) ∈ ss -> (t, dt) ∈ tt -> R s t L -> (fst r <= ds + L + dt)%N) as Hlow.
  { intros s ds t dt L Hs Ht HR. destruct (N.lt_ge_cases (ds + L + dt) inf_weight) as [HD|HD].
    - destruct (sb_src _ _ _ _ _ _ (ri_f _ _ _ _ _ _ _ _ _ _ _ _ H) s ds Hs) as (Hs' & d1 & Hd1 & Hle1).
      destruct (sb_src _ _ _ _ _ _ (ri_b _ _ _ _ _ _ _ _ _ _ _ _ H) t dt Ht) as (Ht' & d2 & Hd2 & Hle2).
      eapply (run_complete n g o R ss tt S1 Q1 S2 Q2 f b r (ds + L + dt) HC Hg Ho H HQ1 HQ2 HD (2 * n - (s + t)) s t d1 d2 L); try done. lia.
    - destruct (ri_meet _ _ _ _ _ _ _ _ _ _ _ _ H) as [->|(m & df & db & _ & _ & _ & _ & _ & _ & ?)]; cbn [fst]; lia. }
  split; [done|]. destruct (ri_meet _ _ _ _ _ _ _ _ _ _ _ _ H) as [->|(m & df & db & Hm & Hm1 & Hm2 & Hdf & Hdb & Hle & Hinf)]; [by left|].
  right. exists m, df, db. do 5 (split; [done|]). split; [|done].
  destruct (dist_route n g o R ss S1 Q1 f HC Hg (ri_f _ _ _ _ _ _ _ _ _ _ _ _ H) m df Hm1 Hdf) as (s & ds & L & Hs & _ & HRs & ->).
  destruct (dist_route n o g (fun x y => R y x) tt S2 Q2 b (covers_swap _ _ _ _ HC) Ho (ri_b _ _ _ _ _ _ _ _ _ _ _ _ H) m db Hm2 Hdb) as (t & dt & M & Ht & _ & HRt & ->).
  cbn in HRt. pose proof (Hlow s ds t dt (L + M)%N Hs Ht (cv_trans _ _ _ _ HC _ _ _ _ _ HRs HRt)). lia.
Qed.
