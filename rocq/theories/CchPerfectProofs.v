(** The weights and flags that perfect customization ends with. *)
From Verif Require Import Base UtilSpec GraphSpec PermutationModel CchModel CchSpec CchTriangleProofs CchQueryProofs ChCheckModel ChBuildModel CchPerfectModel WalkSpec.
Ltac Zify.zify_post_hook ::= idtac.

Definition kp (s : pstate) (d : bool) : list bool := if d then ps_kf s else ps_kb s.
Definition mw (m : metric) (d : bool) : list N := if d then m_fwd m else m_bwd m.

Lemma lower_arc_spec v k a o b x : v !! a = Some o -> k !! a = Some b ->
  lower_arc v k a x = Some (<[a := N.min o x]> v, <[a := b && (o <=? x)%N]> k).
Proof.
  intros Ho Hb. unfold lower_arc. rewrite Ho, bind_S. destruct (N.ltb_spec x o) as [Hlt|Hge].
  - rewrite (wr_Some v) by (by eapply lookup_lt_Some). rewrite bind_S. rewrite (wr_Some k) by (by eapply lookup_lt_Some). rewrite bind_S.
    rewrite N.min_r by lia. replace (o <=? x)%N with false by (symmetry; apply N.leb_gt; lia). by rewrite andb_false_r.
  - rewrite N.min_l by lia. replace (o <=? x)%N with true by (symmetry; apply N.leb_le; lia). rewrite andb_true_r.
    by rewrite !list_insert_id.
Qed.
Lemma add32_id x y : (x <= inf_weight)%N -> (y <= inf_weight)%N -> add32 x y = (x + y)%N.
Proof. intros. unfold add32, word32, inf_weight in *. apply N.mod_small. lia. Qed.

(** The effect of one triangle on one direction. *)
Definition low_w (b mi : nat) (xb xm xt yt : N) (v : list N) : list N :=
  <[mi := N.min xm (N.min xb (xm + yt) + xt)]> (<[b := N.min xb (xm + yt)]> v).
Definition low_k (b mi : nat) (xb xm xt yt : N) (kb km : bool) (k : list bool) : list bool :=
  <[mi := km && (xm <=? N.min xb (xm + yt) + xt)%N]> (<[b := kb && (xb <=? xm + yt)%N]> k).
Lemma upper_relax_spec b mi t s xb xm xt kb km :
  b <> mi -> b <> t -> mi <> t ->
  (forall d, mw (ps_m s) d !! b = Some (xb d) /\ mw (ps_m s) d !! mi = Some (xm d) /\ mw (ps_m s) d !! t = Some (xt d)) ->
  (forall d, (xb d <= inf_weight)%N /\ (xm d <= inf_weight)%N /\ (xt d <= inf_weight)%N) ->
  (forall d, kp s d !! b = Some (kb d) /\ kp s d !! mi = Some (km d)) ->
  exists s', upper_relax b mi t s = Some s' /\ forall d,
    mw (ps_m s') d = low_w b mi (xb d) (xm d) (xt d) (xt (negb d)) (mw (ps_m s) d) /\
    kp s' d = low_k b mi (xb d) (xm d) (xt d) (xt (negb d)) (kb d) (km d) (kp s d).
Proof.
  intros H1 H2 H3 Hx Hi Hk. destruct s as [[f g] kf kg]. unfold upper_relax. cbn [ps_m ps_kf ps_kb] in *.
  destruct (Hx true) as (F1 & F2 & F3), (Hx false) as (G1 & G2 & G3), (Hk true) as (K1 & K2), (Hk false) as (K3 & K4).
  destruct (Hi true) as (I1 & I2 & I3), (Hi false) as (J1 & J2 & J3). unfold mw, kp in *. cbn [m_fwd m_bwd ps_kf ps_kb] in *.
  rewrite F2, bind_S, G3, bind_S. rewrite (lower_arc_spec f kf b _ _ _ F1 K1), bind_S. cbv beta iota.
  rewrite G2, bind_S. rewrite list_lookup_insert_ne by done. rewrite F3, bind_S. rewrite (lower_arc_spec g kg b _ _ _ G1 K3), bind_S. cbv beta iota.
  assert (b < length f) as Lf by (by eapply lookup_lt_Some). assert (b < length g) as Lg by (by eapply lookup_lt_Some).
  rewrite (list_lookup_insert f) by done. rewrite !bind_S.
  rewrite (lower_arc_spec _ _ mi (xm true) (km true)); [|by rewrite list_lookup_insert_ne|by rewrite list_lookup_insert_ne].
  rewrite bind_S. cbv beta iota. rewrite (list_lookup_insert g) by done. rewrite bind_S. rewrite (list_lookup_insert_ne g) by done. rewrite G3, bind_S.
  rewrite (lower_arc_spec _ _ mi (xm false) (km false)); [|by rewrite list_lookup_insert_ne|by rewrite list_lookup_insert_ne].
  rewrite bind_S. cbv beta iota. eexists. split; [done|].
  rewrite (add32_id (xm true)), (add32_id (xm false)) by done.
  rewrite (add32_id (N.min (xb true) _)), (add32_id (N.min (xb false) _)) by lia.
  intros []; split; done.
Qed.

Lemma keep_finite_spec count v : length v = count ->
  exists k, keep_finite count v = Some k /\ length k = count /\ forall a x, v !! a = Some x -> k !! a = Some (negb (x =? inf_weight)%N).
Proof.
  intros Hl. unfold keep_finite.
  destruct (for_range_inv (fun i k => length k = count /\ forall a x, v !! a = Some x -> k !! a = Some (if decide (a < i) then negb (x =? inf_weight)%N else true))
    (fun a k => x ← v !! a; if (x =? inf_weight)%N then wr k a false else Some k) 0 count (replicate count true)) as (k & -> & Hk & H); [lia| | |].
  - split; [apply replicate_length|]. intros a x Ha. rewrite lookup_replicate_2; [by rewrite decide_False by lia|]. apply lookup_lt_Some in Ha. lia.
  - intros i k Hi [Hk H]. destruct (lookup_lt_is_Some_2 v i) as [x Hx]; [lia|]. rewrite Hx, bind_S. destruct (N.eqb_spec x inf_weight) as [E|E].
    + rewrite (wr_Some k) by lia. eexists. split; [done|]. split; [by rewrite insert_length|]. intros a y Ha. destruct (decide (a = i)) as [->|Hne].
      * rewrite list_lookup_insert by lia. rewrite decide_True by lia. rewrite Hx in Ha. injection Ha as <-. rewrite (proj2 (N.eqb_eq _ _) E). done.
      * rewrite list_lookup_insert_ne by done. rewrite (H _ _ Ha). destruct (decide (a < i)); [rewrite decide_True by lia|rewrite decide_False by lia]; done.
    + exists k. split; [done|]. split; [done|]. intros a y Ha. rewrite (H _ _ Ha). destruct (decide (a < i)); [by rewrite decide_True by lia|].
      destruct (decide (a < S i)); [|done]. assert (a = i) as -> by lia. rewrite Hx in Ha. injection Ha as <-.
      by rewrite (proj2 (N.eqb_neq _ _) E).
  - exists k. split; [done|]. split; [done|]. intros a x Ha. rewrite (H _ _ Ha). rewrite decide_True; [done|]. apply lookup_lt_Some in Ha. lia.
Qed.

Section Perfect.
  Context (n : nat) (rt rh : list nat) (c : cch) (WF : wf_cch n rt rh c).
  Context (w : list N) (m : metric) (CU : customized rt rh c w m).
  Notation E d := (dgraph rt rh w d).

  (** [b = (x,y)], [mi = (x,z)], [t = (y,z)]; [Q] are the triangles that have been looked at. *)
  Record pinv (Q : nat -> nat -> nat -> Prop) (s : pstate) : Prop := {
    pi_len : forall d, length (mw (ps_m s) d) = length (up_head c) /\ length (kp s d) = length (up_head c);
    pi_le : forall d a x y, dw m d a = Some x -> dw (ps_m s) d a = Some y -> (y <= x)%N;
    pi_keep : forall d a x y, dw m d a = Some x -> dw (ps_m s) d a = Some y -> kp s d !! a = Some (bool_decide (y = x /\ x <> inf_weight));
    pi_sound : forall d a u v y, up_arc c a u v -> dw (ps_m s) d a = Some y -> (y < inf_weight)%N -> exists k, gw (E d) (fun _ => True) u v y k;
    pi_bottom : forall d b mi t x y z, lower_tri c b mi t -> Q b mi t -> dw (ps_m s) d b = Some x -> dw m d mi = Some y -> dw (ps_m s) (negb d) t = Some z -> (x <= y + z)%N;
    pi_mid : forall d b mi t x y z, lower_tri c b mi t -> Q b mi t -> dw (ps_m s) d mi = Some x -> dw m d b = Some y -> dw (ps_m s) d t = Some z -> (x <= y + z)%N }.

  Lemma mw_dw m' d a : mw m' d !! a = dw m' d a.
  Proof. by destruct d. Qed.
  Lemma pi_dw Q s d a : pinv Q s -> a < length (up_head c) -> exists x y, dw m d a = Some x /\ dw (ps_m s) d a = Some y /\ (y <= x)%N /\ (x <= inf_weight)%N.
  Proof.
    intros H Ha. destruct (cu_dw rt rh c w m CU d a Ha) as (x & Hx & Hxi).
    destruct (lookup_lt_is_Some_2 (mw (ps_m s) d) a) as [y Hy]; [rewrite (proj1 (pi_len _ _ H d)); done|]. rewrite mw_dw in Hy.
    exists x, y. do 2 (split; [done|]). split; [|done]. by eapply (pi_le _ _ H).
  Qed.

  Lemma perfect_step Q s b mi t : pinv Q s -> lower_tri c b mi t -> (forall b' mi' t', Q b' mi' t' -> lower_tri c b' mi' t' -> t' <> b /\ t' <> mi) ->
    exists s', upper_relax b mi t s = Some s' /\ pinv (fun b' mi' t' => Q b' mi' t' \/ (b' = b /\ mi' = mi /\ t' = t)) s'.
  Proof.
    intros H Ht HQ. destruct Ht as (x & y & z & Hb & Hm & Htt).
    pose proof (lower_tri_lt _ _ _ _ WF b mi t ltac:(by exists x, y, z)) as [Hlt1 Hlt2].
    destruct (up_arc_lt _ _ _ _ WF _ _ _ Hb) as (Lb & _ & _), (up_arc_lt _ _ _ _ WF _ _ _ Hm) as (Lm & _ & _), (up_arc_lt _ _ _ _ WF _ _ _ Htt) as (Lt & _ & _).
    assert (forall d a, a < length (up_head c) -> exists v, dw (ps_m s) d a = Some v) as Hex.
    { intros d a Ha. destruct (pi_dw _ _ d a H Ha) as (? & v & ? & ? & _). by exists v. }
    pose (g := fun a d => default 0%N (dw (ps_m s) d a)).
    assert (forall a d, a < length (up_head c) -> dw (ps_m s) d a = Some (g a d)) as Hg.
    { intros a d Ha. unfold g. destruct (Hex d a Ha) as [v ->]. done. }
    assert (forall a d, a < length (up_head c) -> (g a d <= inf_weight)%N) as Hgi.
    { intros a d Ha. destruct (pi_dw _ _ d a H Ha) as (v & v' & ? & E' & ? & ?). rewrite (Hg a d Ha) in E'. injection E' as ->. lia. }
    pose (q := fun a d => default false (kp s d !! a)).
    assert (forall a d, a < length (up_head c) -> kp s d !! a = Some (q a d)) as Hq.
    { intros a d Ha. unfold q. destruct (lookup_lt_is_Some_2 (kp s d) a) as [v ->]; [rewrite (proj2 (pi_len _ _ H d)); done|]. done. }
    destruct (upper_relax_spec b mi t s (g b) (g mi) (g t) (q b) (q mi)) as (s' & Es & Hs'); [lia|lia|lia| | | |].
    { intros d. rewrite !mw_dw, !Hg by lia. done. }
    { intros d. repeat split; apply Hgi; lia. }
    { intros d. rewrite !Hq by lia. done. }
    exists s'. split; [done|].
    assert (forall d a, a < length (up_head c) -> dw (ps_m s') d a = Some (
      if decide (a = mi) then N.min (g mi d) (N.min (g b d) (g mi d + g t (negb d)) + g t d)
      else if decide (a = b) then N.min (g b d) (g mi d + g t (negb d)) else g a d)) as Hw'.
    { intros d a Ha. rewrite <- mw_dw. rewrite (proj1 (Hs' d)). unfold low_w. pose proof (proj1 (pi_len _ _ H d)) as Hl. repeat case_decide; subst.
      - by rewrite list_lookup_insert by (rewrite insert_length; lia).
      - rewrite list_lookup_insert_ne by done. by rewrite list_lookup_insert by lia.
      - rewrite !list_lookup_insert_ne by done. rewrite mw_dw. by apply Hg. }
    assert (forall d a, a < length (up_head c) -> kp s' d !! a = Some (
      if decide (a = mi) then q mi d && (g mi d <=? N.min (g b d) (g mi d + g t (negb d)) + g t d)%N
      else if decide (a = b) then q b d && (g b d <=? g mi d + g t (negb d))%N else q a d)) as Hk'.
    { intros d a Ha. rewrite (proj2 (Hs' d)). unfold low_k. pose proof (proj2 (pi_len _ _ H d)) as Hl. repeat case_decide; subst.
      - by rewrite list_lookup_insert by (rewrite insert_length; lia).
      - rewrite list_lookup_insert_ne by done. by rewrite list_lookup_insert by lia.
      - rewrite !list_lookup_insert_ne by done. by apply Hq. }
    assert (forall m' d a v, length (mw m' d) = length (up_head c) -> dw m' d a = Some v -> a < length (up_head c)) as Hlt.
    { intros m' d a v Hl Ha. rewrite <- mw_dw in Ha. apply lookup_lt_Some in Ha. lia. }
    assert (forall d, length (mw m d) = length (up_head c)) as Hlm by (intros []; apply CU).
    assert (forall d, length (mw (ps_m s') d) = length (up_head c)) as Hls.
    { intros d. rewrite (proj1 (Hs' d)). unfold low_w. rewrite !insert_length. apply (pi_len _ _ H). }
    assert (forall d a v v', dw (ps_m s) d a = Some v -> dw (ps_m s') d a = Some v' -> (v' <= v)%N) as Hdec.
    { intros d a v v' Hv Hv'. pose proof (Hlt _ _ _ _ (Hls d) Hv') as Ha. rewrite (Hw' d a Ha) in Hv'. rewrite (Hg a d Ha) in Hv. injection Hv as <-. injection Hv' as <-.
      repeat case_decide; subst; lia. }
    assert (forall d a u v y0, up_arc c a u v -> dw (ps_m s') d a = Some y0 -> (y0 < inf_weight)%N -> exists k, gw (E d) (fun _ => True) u v y0 k) as Hsnd.
    { assert (forall d u v x1 x2 L1 L2, (exists k, gw (E d) (fun _ => True) u x1 L1 k) -> x1 = x2 -> (exists k, gw (E (negb d)) (fun _ => True) v x2 L2 k) -> exists k, gw (E d) (fun _ => True) u v (L1 + L2)%N k) as Hjoin.
      { intros d u v x1 x2 L1 L2 [k1 G1] <- [k2 G2]. apply dgraph_rev in G2. rewrite negb_involutive in G2. exists (k1 + k2). by eapply gw_app. }
      assert (forall d u v x1 L1 L2, (exists k, gw (E d) (fun _ => True) u x1 L1 k) -> (exists k, gw (E d) (fun _ => True) x1 v L2 k) -> exists k, gw (E d) (fun _ => True) u v (L1 + L2)%N k) as Hjoin'.
      { intros d u v x1 L1 L2 [k1 G1] [k2 G2]. exists (k1 + k2). by eapply gw_app. }
      assert (forall d a u v, up_arc c a u v -> (g a d < inf_weight)%N -> exists k, gw (E d) (fun _ => True) u v (g a d) k) as Hs0.
      { intros d a u v Ha Hi. eapply (pi_sound _ _ H); [exact Ha| |done]. apply Hg. by apply (up_arc_lt _ _ _ _ WF) in Ha as (? & _). }
      assert (forall d, (N.min (g b d) (g mi d + g t (negb d)) < inf_weight)%N -> exists k, gw (E d) (fun _ => True) x y (N.min (g b d) (g mi d + g t (negb d)))%N k) as Hsb.
      { intros d Hi. destruct (N.min_spec (g b d) (g mi d + g t (negb d))) as [[? Emin]|[? Emin]]; rewrite Emin in Hi |- *.
        - by apply (Hs0 d b).
        - eapply Hjoin; [apply (Hs0 d _ _ _ Hm); lia|done|apply (Hs0 (negb d) _ _ _ Htt); lia]. }
      intros d a u v y0 Ha Hy0 Hi. pose proof (Hlt _ _ _ _ (Hls d) Hy0) as La. rewrite (Hw' d a La) in Hy0. injection Hy0 as <-. repeat case_decide; subst.
      - destruct (up_arc_fun _ _ _ _ _ _ Ha Hm) as [-> ->].
        destruct (N.min_spec (g mi d) (N.min (g b d) (g mi d + g t (negb d)) + g t d)) as [[? Emin]|[? Emin]]; rewrite Emin in Hi |- *; [by apply (Hs0 d mi)|].
        eapply Hjoin'; [apply Hsb; lia|]. apply (Hs0 d _ _ _ Htt). lia.
      - destruct (up_arc_fun _ _ _ _ _ _ Ha Hb) as [-> ->]. by apply Hsb.
      - by apply Hs0. }
    split.
    - intros d. split; [done|]. rewrite (proj2 (Hs' d)). unfold low_k. rewrite !insert_length. apply (pi_len _ _ H).
    - intros d a v v' Hv Hv'. pose proof (Hlt _ _ _ _ (Hlm d) Hv) as Ha. pose proof (pi_le _ _ H _ _ _ _ Hv (Hg a d Ha)).
      pose proof (Hdec _ _ _ _ (Hg a d Ha) Hv'). lia.
    - intros d a v v' Hv Hv'. pose proof (Hlt _ _ _ _ (Hlm d) Hv) as Ha. rewrite (Hk' d a Ha). f_equal. rewrite (Hw' d a Ha) in Hv'. injection Hv' as <-.
      assert (q a d = bool_decide (g a d = v /\ v <> inf_weight)) as Hqa.
      { pose proof (pi_keep _ _ H _ _ _ _ Hv (Hg a d Ha)) as Hq'. rewrite (Hq a d Ha) in Hq'. by injection Hq'. }
      pose proof (pi_le _ _ H _ _ _ _ Hv (Hg a d Ha)) as Hle.
      assert (forall x0, bool_decide (g a d = v /\ v <> inf_weight) && (g a d <=? x0)%N = bool_decide (N.min (g a d) x0 = v /\ v <> inf_weight)) as Hb'.
      { intros x0. destruct (N.leb_spec (g a d) x0); [rewrite andb_true_r; by rewrite N.min_l|]. rewrite andb_false_r. symmetry. apply bool_decide_eq_false. intros [? _]. lia. }
      destruct (decide (a = mi)) as [->|]; [rewrite Hqa; apply Hb'|]. destruct (decide (a = b)) as [->|]; [rewrite Hqa; apply Hb'|done].
    - exact Hsnd.
    - intros d b' mi' t' v1 v2 v3 Htri HQ' H1 H2 H3. destruct HQ' as [HQ'|(-> & -> & ->)].
      + destruct (HQ _ _ _ HQ' Htri) as [N1 N2]. pose proof (Hlt _ _ _ _ (Hls (negb d)) H3) as La. pose proof (Hlt _ _ _ _ (Hls d) H1) as La1.
        rewrite (Hw' (negb d) t' La) in H3. rewrite !decide_False in H3 by done. injection H3 as <-.
        pose proof (Hdec _ _ _ _ (Hg b' d La1) H1). pose proof (pi_bottom _ _ H _ _ _ _ _ _ _ Htri HQ' (Hg b' d La1) H2 (Hg t' (negb d) La)). lia.
      + pose proof (pi_le _ _ H _ _ _ _ H2 (Hg mi d Lm)). rewrite (Hw' (negb d) t Lt) in H3. rewrite !decide_False in H3 by lia. injection H3 as <-.
        rewrite (Hw' d b Lb) in H1. rewrite decide_False, decide_True in H1 by lia. injection H1 as <-. lia.
    - intros d b' mi' t' v1 v2 v3 Htri HQ' H1 H2 H3. destruct HQ' as [HQ'|(-> & -> & ->)].
      + destruct (HQ _ _ _ HQ' Htri) as [N1 N2]. pose proof (Hlt _ _ _ _ (Hls d) H3) as La. pose proof (Hlt _ _ _ _ (Hls d) H1) as La1.
        rewrite (Hw' d t' La) in H3. rewrite !decide_False in H3 by done. injection H3 as <-.
        pose proof (Hdec _ _ _ _ (Hg mi' d La1) H1). pose proof (pi_mid _ _ H _ _ _ _ _ _ _ Htri HQ' (Hg mi' d La1) H2 (Hg t' d La)). lia.
      + pose proof (pi_le _ _ H _ _ _ _ H2 (Hg b d Lb)). rewrite (Hw' d t Lt) in H3. rewrite !decide_False in H3 by lia. injection H3 as <-.
        rewrite (Hw' d mi Lm) in H1. rewrite decide_True in H1 by lia. injection H1 as <-. lia.
  Qed.

  Lemma pinv_weaken (Q Q' : nat -> nat -> nat -> Prop) s : (forall b mi t, lower_tri c b mi t -> Q' b mi t -> Q b mi t) -> pinv Q s -> pinv Q' s.
  Proof.
    intros HQ [H1 H2 H3 H4 H5 H6]. split; try done.
    - intros d b mi t x y z Ht Hq. eapply H5; [exact Ht|by apply HQ].
    - intros d b mi t x y z Ht Hq. eapply H6; [exact Ht|by apply HQ].
  Qed.

  Lemma perfect_loop_spec s : pinv (fun _ _ _ => False) s -> exists s', perfect_loop c s = Some s' /\ pinv (fun _ _ _ => True) s'.
  Proof.
    intros H. unfold perfect_loop.
    destruct (for_range_inv (fun i s => pinv (fun b _ _ => c_arc_count c - i <= b) s)
      (fun i s => '(s, _) ← forall_upper_triangles_of_arc c (c_arc_count c - 1 - i)
         (fun bottom mid top _ _ _ s => s ← upper_relax bottom mid top s; Some (s, true)) s; Some s) 0 (c_arc_count c) s) as (s' & Es & Hs'); [lia| | |].
    - eapply pinv_weaken; [|exact H]. intros b mi t (x & y & z & Hb & _ & _) Hle. apply (up_arc_lt _ _ _ _ WF) in Hb as (? & _). unfold c_arc_count in Hle. lia.
    - intros i s1 Hi H1. set (a := c_arc_count c - 1 - i). assert (a < length (up_head c)) as Ha by (unfold a, c_arc_count in *; lia).
      destruct (up_arc_exists _ _ _ _ WF a Ha) as (x & y & Hxy). unfold forall_upper_triangles_of_arc.
      rewrite (proj1 Hxy), bind_S, (proj2 Hxy), bind_S.
      destruct (upper_triangles_list _ _ _ _ WF x y a Hxy) as (l & Hl & El). rewrite El.
      destruct (for_until_inv (fun pre s => pinv (fun b mi t => a < b \/ (b = a /\ exists z, (mi, t, z) ∈ pre)) s) l
        (fun p s => s ← upper_relax a (fst (fst p)) (snd (fst p)) s; Some (s, true)) s1) as (s2 & E2 & H2).
      + eapply pinv_weaken; [|exact H1]. intros b mi t _ [Hlt|(_ & z & Hz%elem_of_nil)]; [|done]. unfold a in Hlt. lia.
      + intros pre [[mi t] z] post s2 Hpre H2. cbn [fst snd].
        assert ((mi, t, z) ∈ l) as Hin by (rewrite Hpre; apply elem_of_app; right; constructor). apply Hl in Hin as [Hmi Ht].
        assert (lower_tri c a mi t) as Htri by (by exists x, y, z).
        destruct (perfect_step _ s2 a mi t H2 Htri) as (s3 & -> & H3).
        { intros b' mi' t' HQ (x' & y' & z' & Hb' & Hm' & Ht'). assert (x <= x') as Hx.
          { destruct HQ as [Hlt|[-> _]]; [|by destruct (up_arc_fun _ _ _ _ _ _ Hb' Hxy) as [-> ->]].
            destruct (le_lt_dec x x') as [|Hx']; [done|]. pose proof (up_arc_tail_lt _ _ _ _ WF _ _ _ _ _ _ Hb' Hxy Hx'). lia. }
          destruct (up_arc_lt _ _ _ _ WF _ _ _ Hb') as (_ & ? & _).
          split; intros ->; [destruct (up_arc_fun _ _ _ _ _ _ Ht' Hxy)|destruct (up_arc_fun _ _ _ _ _ _ Ht' Hmi)]; lia. }
        rewrite bind_S. eexists. split; [done|]. eapply pinv_weaken; [|exact H3]. intros b' mi' t' _ [Hlt|(-> & z' & Hz')]; [by left; left|].
        apply elem_of_app in Hz' as [Hz'|Hz'%elem_of_list_singleton]; [left; right; split; [done|by exists z']|right]. by injection Hz' as -> -> _.
      + rewrite E2, bind_S. eexists. split; [done|]. eapply pinv_weaken; [|exact H2]. intros b mi t (x' & y' & z' & Hb' & Hm' & Ht') Hle.
        destruct (decide (b = a)) as [->|]; [right|left; unfold a in *; lia]. split; [done|]. exists z'. apply Hl.
        by destruct (up_arc_fun _ _ _ _ _ _ Hb' Hxy) as [-> ->].
    - exists s'. split; [done|]. eapply pinv_weaken; [|exact Hs']. intros. cbn. lia.
  Qed.

  Lemma perfect_start kf kb : keep_finite (c_arc_count c) (m_fwd m) = Some kf -> keep_finite (c_arc_count c) (m_bwd m) = Some kb ->
    pinv (fun _ _ _ => False) (mkPstate m kf kb).
  Proof.
    intros Hf Hb.
    destruct (keep_finite_spec (c_arc_count c) (m_fwd m)) as (kf' & Ef & Lf & Sf); [apply CU|].
    destruct (keep_finite_spec (c_arc_count c) (m_bwd m)) as (kb' & Eb & Lb & Sb); [apply CU|]. simplify_eq.
    split; cbn [ps_m]; try done.
    - intros []; (split; [apply CU|done]).
    - intros d a x y Hx Hy. assert (x = y) as -> by congruence. done.
    - intros d a x y Hx Hy. assert (x = y) as -> by congruence.
      transitivity (Some (negb (y =? inf_weight)%N)); [destruct d; [by apply Sf|by apply Sb]|]. f_equal.
      destruct (N.eqb_spec y inf_weight); symmetry; [apply bool_decide_eq_false|apply bool_decide_eq_true]; tauto.
    - intros d a u v y Ha Hy Hi. destruct (cu_sound _ _ _ _ WF w m CU d a u v y Ha Hy Hi) as [k Hk]. exists k. eapply gw_mono; [|exact Hk]. done.
  Qed.
End Perfect.
