(** The customization loop computes the customization equations. *)
From Verif Require Import Base GraphSpec PathSpec WalkSpec CchModel CchSpec.
Ltac Zify.zify_post_hook ::= idtac.

Ltac bs := repeat match goal with
  | H : context [Some ?a ≫= ?f] |- _ => change (Some a ≫= f) with (f a) in H; cbv beta in H
  | |- context [Some ?a ≫= ?f] => change (Some a ≫= f) with (f a); cbv beta end.

Lemma add32_le a b : (a <= inf_weight)%N -> (b <= inf_weight)%N -> add32 a b = (a + b)%N.
Proof. intros. unfold add32, inf_weight, word32 in *. apply N.mod_small. lia. Qed.

Lemma min_to_spec v a x o : v !! a = Some o -> min_to v a x = Some (<[a := N.min o x]> v).
Proof. intros H. unfold min_to. rewrite H, bind_S. apply wr_Some. by eapply lookup_lt_Some. Qed.

Section Extract.
  Context (n : nat) (rt rh : list nat) (c : cch) (WF : wf_cch n rt rh c).
  Context (w : list N) (Hlen : length w = length rt) (Hw : forall e x, w !! e = Some x -> (x <= inf_weight)%N).

  (** value of an arc without triangles *)
  Definition initial (d : bool) (u v : nat) (x : N) : Prop :=
    (x <= inf_weight)%N /\ (forall e y, dir_arc rt rh d u v e -> w !! e = Some y -> (x <= y)%N) /\
    (x = inf_weight \/ exists e, dir_arc rt rh d u v e /\ w !! e = Some x).

  Lemma extra_weights_spec first extra i lo hi l v a x0 :
    first !! i = Some lo -> first !! S i = Some hi ->
    mapM (fun k => extra !! k) (seq lo (hi - lo)) = Some l ->
    Forall (fun e => is_Some (w !! e)) l -> v !! a = Some x0 ->
    exists v' x, extra_weights first extra i w v a = Some v' /\ length v' = length v /\
      (forall b, b <> a -> v' !! b = v !! b) /\ v' !! a = Some x /\ (x <= x0)%N /\
      (forall e y, e ∈ l -> w !! e = Some y -> (x <= y)%N) /\ (x = x0 \/ exists e, e ∈ l /\ w !! e = Some x).
  Proof.
    intros Hlo Hhi. unfold extra_weights. rewrite Hlo, bind_S, Hhi, bind_S. unfold for_range.
    generalize (hi - lo) as k. intros k. clear Hlo Hhi. revert lo l v x0.
    induction k as [|k IH]; intros lo l v x0 Hl Hall Hx0.
    - injection Hl as <-. exists v, x0. cbn [for_n]. split; [done|]. split; [done|]. split; [done|]. split; [done|]. split; [lia|].
      split; [|by left]. by intros ? ? ?%elem_of_nil.
    - cbn [seq mapM] in Hl. destruct (extra !! lo) as [e|] eqn:He; [|done]. rewrite bind_S in Hl.
      destruct (mapM (fun k => extra !! k) (seq (S lo) k)) as [l'|] eqn:Hl'; [|done]. injection Hl as <-.
      apply Forall_cons in Hall as [[y Hy] Hall].
      cbn [for_n]. rewrite He, bind_S, Hy, bind_S, (min_to_spec _ _ _ _ Hx0), bind_S.
      destruct (IH (S lo) l' (<[a := N.min x0 y]> v) (N.min x0 y) Hl' Hall) as (v' & x & Hr & Hlen' & Hother & Hx & Hle & Hall' & Hor).
      { rewrite list_lookup_insert; [done|]. by eapply lookup_lt_Some. }
      exists v', x. split; [done|]. split; [by rewrite Hlen', insert_length|].
      split. { intros b Hb. rewrite Hother by done. by rewrite list_lookup_insert_ne. }
      split; [done|]. split; [lia|]. split.
      + intros e' y' [->|He']%elem_of_cons Hy'; [simplify_eq; lia|eauto].
      + destruct Hor as [->|(e' & ? & ?)].
        * destruct (N.min_spec x0 y) as [[? ->]|[? ->]]; [by left|right]. exists e. split; [constructor|done].
        * right. exists e'. split; [by constructor|done].
  Qed.

  Lemma first_weight_spec input i o :
    input !! i = Some o -> (forall e, o = Some e -> e < length w) ->
    exists x, first_weight input i w = Some x /\ (x <= inf_weight)%N /\
      (forall e y, o = Some e -> w !! e = Some y -> (x <= y)%N) /\
      (x = inf_weight \/ exists e, o = Some e /\ w !! e = Some x).
  Proof.
    intros Ho Hin. unfold first_weight. rewrite Ho, bind_S. destruct o as [e|].
    - destruct (lookup_lt_is_Some_2 w e) as [x Hx]; [by apply Hin|]. exists x. rewrite Hx. split; [done|].
      split; [by eapply Hw|]. split; [intros; simplify_eq; lia|]. right. eauto.
    - exists inf_weight. split; [done|]. split; [lia|]. split; [done|by left].
  Qed.

  Lemma dir_arc_lt d u v e : dir_arc rt rh d u v e -> e < length w.
  Proof. rewrite Hlen. destruct (wf_ends _ _ _ _ WF) as (Hl & _). destruct d; intros []; by eapply lookup_lt_Some. Qed.

  Lemma extract_arc_spec a u v m :
    up_arc c a u v -> length (m_fwd m) = length (up_head c) -> length (m_bwd m) = length (up_head c) ->
    exists m', extract_arc c w a m = Some m' /\ length (m_fwd m') = length (up_head c) /\ length (m_bwd m') = length (up_head c) /\
      (forall d b, b <> a -> dw m' d b = dw m d b) /\
      (forall d, exists x, dw m' d a = Some x /\ initial d u v x).
  Proof.
    intros Ha Hf Hb. destruct (up_arc_lt _ _ _ _ WF _ _ _ Ha) as (Hal & _).
    destruct (wf_inputs _ _ _ _ WF true _ _ _ Ha) as (of_ & lf & Hif & Hnf & Hsf).
    destruct (wf_inputs _ _ _ _ WF false _ _ _ Ha) as (ob & lb & Hib & Hnb & Hsb).
    unfold extract_arc. unfold arc_inputs in Hif, Hib.
    destruct (has_input c !! a) as [h|]; [|done]. bs. destruct h; cbn [negb] in *.
    2:{ simplify_eq. rewrite !wr_Some, !bind_S by lia. eexists. split; [done|]. cbn [m_fwd m_bwd]. rewrite !insert_length.
        split; [done|]. split; [done|]. split.
        - intros d b Hne. destruct d; unfold dw; cbn [m_fwd m_bwd]; by rewrite list_lookup_insert_ne.
        - intros d. exists inf_weight. split; [destruct d; unfold dw; cbn [m_fwd m_bwd]; apply list_lookup_insert; lia|].
          split; [lia|]. split; [|by left]. intros e y He. exfalso. destruct d.
          + apply Hsf in He as [?|?%elem_of_nil]; done.
          + apply Hsb in He as [?|?%elem_of_nil]; done. }
    destruct (local_id (has_input c) a) as [i|]; [|done]. bs.
    destruct (fwd_input c !! i) as [o1|] eqn:Ho1; [|done]. bs.
    destruct (bwd_input c !! i) as [o2|] eqn:Ho2; [|done]. bs.
    destruct (has_extra c !! a) as [h|] eqn:Hh; [|done]. bs.
    assert (o1 = of_) as ->.
    { destruct h; cbn [negb] in Hif; [|by simplify_eq]. repeat (case_match; cbn in Hif; try done; []).
      repeat match type of Hif with (?x ≫= _) = _ => destruct x; [rewrite bind_S in Hif|done] end. by simplify_eq. }
    assert (o2 = ob) as ->.
    { destruct h; cbn [negb] in Hib; [|by simplify_eq]. repeat (case_match; cbn in Hib; try done; []).
      repeat match type of Hib with (?x ≫= _) = _ => destruct x; [rewrite bind_S in Hib|done] end. by simplify_eq. }
    destruct (first_weight_spec _ _ _ Ho1) as (x & Hx & Hxi & Hxle & Hxt).
    { intros e He. eapply (dir_arc_lt true u v). apply Hsf. by left. }
    destruct (first_weight_spec _ _ _ Ho2) as (y & Hy & Hyi & Hyle & Hyt).
    { intros e He. eapply (dir_arc_lt false u v). apply Hsb. by left. }
    rewrite Hx, bind_S, wr_Some, bind_S, Hy, bind_S, wr_Some, bind_S by lia.
    destruct h; cbn [negb] in *.
    - destruct (local_id (has_extra c) a) as [j|]; [|done]. bs.
      destruct (first_extra_fwd c !! j) as [lo|] eqn:Hlo; [|done]. bs.
      destruct (first_extra_fwd c !! S j) as [hi|] eqn:Hhi; [|done]. bs.
      destruct (mapM (fun k => extra_fwd c !! k) (seq lo (hi - lo))) as [l|] eqn:Hl; [|done]. bs.
      destruct (first_extra_bwd c !! j) as [lo'|] eqn:Hlo'; [|done]. bs.
      destruct (first_extra_bwd c !! S j) as [hi'|] eqn:Hhi'; [|done]. bs.
      destruct (mapM (fun k => extra_bwd c !! k) (seq lo' (hi' - lo'))) as [l'|] eqn:Hl'; [|done]. bs.
      simplify_eq.
      destruct (extra_weights_spec _ _ _ _ _ _ (<[a:=x]> (m_fwd m)) a x Hlo Hhi Hl) as (f & x' & -> & Hfl & Hfo & Hfa & Hfle & Hfall & Hft).
      { apply Forall_forall. intros e He. apply lookup_lt_is_Some_2. eapply (dir_arc_lt true u v), Hsf. by right. }
      { apply list_lookup_insert; lia. }
      rewrite bind_S.
      destruct (extra_weights_spec _ _ _ _ _ _ (<[a:=y]> (m_bwd m)) a y Hlo' Hhi' Hl') as (g & y' & -> & Hgl & Hgo & Hga & Hgle & Hgall & Hgt).
      { apply Forall_forall. intros e He. apply lookup_lt_is_Some_2. eapply (dir_arc_lt false u v), Hsb. by right. }
      { apply list_lookup_insert; lia. }
      rewrite bind_S. eexists. split; [done|]. cbn [m_fwd m_bwd]. rewrite insert_length in Hfl, Hgl.
      split; [lia|]. split; [lia|]. split.
      { intros [] b Hne; unfold dw; cbn [m_fwd m_bwd]; [rewrite Hfo by done|rewrite Hgo by done]; by rewrite list_lookup_insert_ne. }
      intros []; unfold dw; cbn [m_fwd m_bwd].
      + exists x'. split; [done|]. split; [lia|]. split.
        * intros e z He Hz. apply Hsf in He as [->|He]; [|eauto]. specialize (Hxle _ _ eq_refl Hz). lia.
        * destruct Hft as [->|(e & He & Hz)].
          -- destruct Hxt as [->|(e & -> & Hz)]; [by left|right; exists e; split; [apply Hsf; by left|done]].
          -- right. exists e. split; [apply Hsf; by right|done].
      + exists y'. split; [done|]. split; [lia|]. split.
        * intros e z He Hz. apply Hsb in He as [->|He]; [|eauto]. specialize (Hyle _ _ eq_refl Hz). lia.
        * destruct Hgt as [->|(e & He & Hz)].
          -- destruct Hyt as [->|(e & -> & Hz)]; [by left|right; exists e; split; [apply Hsb; by left|done]].
          -- right. exists e. split; [apply Hsb; by right|done].
    - simplify_eq. eexists. split; [done|]. cbn [m_fwd m_bwd]. rewrite !insert_length.
      split; [done|]. split; [done|]. split.
      { intros [] b Hne; unfold dw; cbn [m_fwd m_bwd]; by rewrite list_lookup_insert_ne. }
      intros []; unfold dw; cbn [m_fwd m_bwd]; rewrite list_lookup_insert by lia.
      + exists x. split; [done|]. split; [done|]. split.
        * intros e z He Hz. apply Hsf in He as [->|He%elem_of_nil]; [|done]. eauto.
        * destruct Hxt as [->|(e & -> & Hz)]; [by left|right; exists e; split; [apply Hsf; by left|done]].
      + exists y. split; [done|]. split; [done|]. split.
        * intros e z He Hz. apply Hsb in He as [->|He%elem_of_nil]; [|done]. eauto.
        * destruct Hyt as [->|(e & -> & Hz)]; [by left|right; exists e; split; [apply Hsb; by left|done]].
  Qed.

  Lemma extract_all_spec m :
    length (m_fwd m) = length (up_head c) -> length (m_bwd m) = length (up_head c) ->
    exists m', extract_all c w m = Some m' /\ length (m_fwd m') = length (up_head c) /\ length (m_bwd m') = length (up_head c) /\
      (forall d a u v, up_arc c a u v -> exists x, dw m' d a = Some x /\ initial d u v x).
  Proof.
    intros Hf Hb. unfold extract_all.
    destruct (for_range_inv (fun k m => length (m_fwd m) = length (up_head c) /\ length (m_bwd m) = length (up_head c) /\
      forall d a u v, a < k -> up_arc c a u v -> exists x, dw m d a = Some x /\ initial d u v x) (extract_arc c w) 0 (c_arc_count c) m) as (m' & Hm & H1 & H2 & H3).
    - lia.
    - split; [done|]. split; [done|]. intros. lia.
    - intros a m1 Ha (H1 & H2 & H3). unfold c_arc_count in Ha. destruct (up_arc_exists _ _ _ _ WF a) as (u & v & Hau); [lia|].
      destruct (extract_arc_spec a u v m1 Hau H1 H2) as (m2 & Hm2 & H4 & H5 & H6 & H7).
      exists m2. split; [done|]. split; [done|]. split; [done|]. intros d a' u' v' Ha' Hau'.
      destruct (decide (a' = a)) as [->|Hne].
      + destruct (up_arc_fun _ _ _ _ _ _ Hau Hau') as [-> ->]. eauto.
      + destruct (H3 d a' u' v') as (x & Hx & Hi); [lia|done|]. exists x. by rewrite H6.
    - exists m'. split; [done|]. split; [done|]. split; [done|]. intros d a u v Ha. eapply H3; [|done].
      by apply (up_arc_lt _ _ _ _ WF) in Ha as [? _].
  Qed.
End Extract.

Section Customize.
  Context (n : nat) (rt rh : list nat) (c : cch) (WF : wf_cch n rt rh c).
  Context (w : list N) (Hlen : length w = length rt) (Hw : forall e x, w !! e = Some x -> (x <= inf_weight)%N).

  (** value [x] of arc [a = (u,v)] when the triangles in [T] have been relaxed *)
  Definition arcok (m : metric) (T : nat -> nat -> Prop) (a u v : nat) (d : bool) (x : N) : Prop :=
    (x <= inf_weight)%N /\ (forall e y, dir_arc rt rh d u v e -> w !! e = Some y -> (x <= y)%N) /\
    (forall b mi p q, lower_tri c b mi a -> T b mi -> dw m (negb d) b = Some p -> dw m d mi = Some q -> (x <= p + q)%N) /\
    (x = inf_weight \/ (exists e, dir_arc rt rh d u v e /\ w !! e = Some x) \/
     exists b mi p q, lower_tri c b mi a /\ T b mi /\ dw m (negb d) b = Some p /\ dw m d mi = Some q /\ x = (p + q)%N).

  Lemma arcok_ext m m' (T T' : nat -> nat -> Prop) a u v d x :
    (forall b mi, lower_tri c b mi a -> T b mi <-> T' b mi) ->
    (forall b mi d, lower_tri c b mi a -> T b mi -> dw m' d b = dw m d b /\ dw m' d mi = dw m d mi) ->
    arcok m T a u v d x -> arcok m' T' a u v d x.
  Proof.
    intros HT Hm (H1 & H2 & H3 & H4). split; [done|]. split; [done|]. split.
    - intros b mi p q Hl HTb Hp Hq. apply HT in HTb; [|done].
      destruct (Hm b mi (negb d) Hl HTb) as [Hb _]. destruct (Hm b mi d Hl HTb) as [_ Hmi].
      rewrite Hb in Hp. rewrite Hmi in Hq. eauto.
    - destruct H4 as [->|[?|(b & mi & p & q & Hl & HTb & Hp & Hq & ->)]]; [by left|by right; left|].
      right. right. exists b, mi, p, q. split; [done|]. split; [by apply HT|].
      destruct (Hm b mi (negb d) Hl HTb) as [-> _]. by destruct (Hm b mi d Hl HTb) as [_ ->].
  Qed.

  Record inv (x : nat) (T : nat -> nat -> Prop) (m : metric) : Prop := {
    inv_f : length (m_fwd m) = length (up_head c);
    inv_b : length (m_bwd m) = length (up_head c);
    inv_ok : forall d a u v, up_arc c a u v ->
      exists y, dw m d a = Some y /\ arcok m (fun b mi => u < x \/ (u = x /\ T b mi)) a u v d y }.

  Lemma inv_sound x T m d a u v y : inv x T m -> up_arc c a u v -> dw m d a = Some y -> (y < inf_weight)%N ->
      exists k, gw (dgraph rt rh w d) (fun y => y < u) u v y k.
  Proof.
    intros I. eapply (tight_sound _ _ _ _ WF). clear d a u v y. intros d a u v y Ha Hy.
    destruct (inv_ok _ _ _ I d a u v Ha) as (y' & Hy' & _ & _ & _ & Ht). simplify_eq.
    destruct Ht as [?|[?|(b & mi & p & q & ? & _ & ?)]]; [by left|by right; left|right; right]. eauto 10.
  Qed.

  Lemma relax_valid (m : metric) b mi t bf bb mf mb tf tb :
    b <> t -> mi <> t ->
    dw m true b = Some bf -> dw m false b = Some bb -> dw m true mi = Some mf -> dw m false mi = Some mb ->
    dw m true t = Some tf -> dw m false t = Some tb ->
    relax_triangle b mi t m = Some (mkMetric (<[t := N.min tf (add32 bb mf)]> (m_fwd m)) (<[t := N.min tb (add32 bf mb)]> (m_bwd m))).
  Proof.
    unfold dw. intros Hb Hm H1 H2 H3 H4 H5 H6. unfold relax_triangle. rewrite H2, bind_S, H3, bind_S.
    rewrite (min_to_spec _ _ _ _ H5), bind_S. rewrite list_lookup_insert_ne, H1, bind_S, H4, bind_S by done.
    by rewrite (min_to_spec _ _ _ _ H6).
  Qed.
  Lemma relax_noop (m : metric) b mi t bf bb mf mb tf tb :
    dw m true b = Some bf -> dw m false b = Some bb -> dw m true mi = Some mf -> dw m false mi = Some mb ->
    dw m true t = Some tf -> dw m false t = Some tb -> (tf <= add32 bb mf)%N -> (tb <= add32 bf mb)%N ->
    relax_triangle b mi t m = Some m.
  Proof.
    unfold dw. intros H1 H2 H3 H4 H5 H6 H7 H8. unfold relax_triangle. rewrite H2, bind_S, H3, bind_S.
    rewrite (min_to_spec _ _ _ _ H5), bind_S. rewrite N.min_l by done. rewrite (list_insert_id (m_fwd m)) by done.
    rewrite H1, bind_S, H4, bind_S, (min_to_spec _ _ _ _ H6), bind_S, N.min_l by done. rewrite list_insert_id by done.
    by destruct m.
  Qed.

  (** one call of the relaxer *)
  Lemma relax_step x T m y z yx yz t :
    inv x T m -> up_arc c yx y x -> up_arc c yz y z -> x < z -> t < length (up_head c) ->
    (forall a, up_arc c a x z -> t = a) ->
    exists m', relax_triangle yx yz t m = Some m' /\ inv x (fun b mi => T b mi \/ (b = yx /\ mi = yz)) m'.
  Proof.
    intros I Hyx Hyz Hxz Ht Hcache.
    pose proof (up_arc_lt _ _ _ _ WF _ _ _ Hyx) as Hyx'. pose proof (up_arc_lt _ _ _ _ WF _ _ _ Hyz) as Hyz'.
    destruct (up_arc_exists _ _ _ _ WF t Ht) as (tu & tv & Htuv).
    destruct (inv_ok _ _ _ I true _ _ _ Hyx) as (bf & Hbf & Hbfi & _), (inv_ok _ _ _ I false _ _ _ Hyx) as (bb & Hbb & Hbbi & _).
    destruct (inv_ok _ _ _ I true _ _ _ Hyz) as (mf & Hmf & Hmfi & _), (inv_ok _ _ _ I false _ _ _ Hyz) as (mb & Hmb & Hmbi & _).
    destruct (inv_ok _ _ _ I true _ _ _ Htuv) as (tf & Htf & Htfok), (inv_ok _ _ _ I false _ _ _ Htuv) as (tb & Htb & Htbok).
    assert (up_arc c t x z \/ (forall a, ~ up_arc c a x z)) as [Hxzt|Hno].
    { destruct (decide (tu = x /\ tv = z)) as [[-> ->]|Hn]; [by left|right].
      intros a Ha. specialize (Hcache a Ha). subst a. destruct (up_arc_fun _ _ _ _ _ _ Ha Htuv). naive_solver. }
    - destruct (up_arc_fun _ _ _ _ _ _ Hxzt Htuv) as [<- <-].
      assert (lower_tri c yx yz t) as Htri by (by exists y, x, z).
      pose proof (lower_tri_lt _ _ _ _ WF _ _ _ Htri).
      rewrite (relax_valid m yx yz t bf bb mf mb tf tb ltac:(lia) ltac:(lia) Hbf Hbb Hmf Hmb Htf Htb).
      rewrite !add32_le by done. eexists. split; [done|].
      assert (forall d a, a <> t -> dw (mkMetric (<[t := N.min tf (bb + mf)]> (m_fwd m)) (<[t := N.min tb (bf + mb)]> (m_bwd m))) d a = dw m d a) as Hsame.
      { intros [] a Ha; unfold dw; cbn [m_fwd m_bwd]; by rewrite list_lookup_insert_ne. }
      split; cbn [m_fwd m_bwd]; rewrite ?insert_length; [apply I|apply I|].
      intros d a u v Ha. destruct (decide (a = t)) as [->|Hne].
      + destruct (up_arc_fun _ _ _ _ _ _ Ha Hxzt) as [-> ->].
        assert (forall val p q, dw m d t = Some val -> dw m (negb d) yx = Some p -> dw m d yz = Some q ->
          arcok m (fun b mi => x < x \/ x = x /\ T b mi) t x z d val ->
          dw (mkMetric (<[t := N.min tf (bb + mf)]> (m_fwd m)) (<[t := N.min tb (bf + mb)]> (m_bwd m))) d t = Some (N.min val (p + q)) ->
          exists y, dw (mkMetric (<[t := N.min tf (bb + mf)]> (m_fwd m)) (<[t := N.min tb (bf + mb)]> (m_bwd m))) d t = Some y /\
            arcok (mkMetric (<[t := N.min tf (bb + mf)]> (m_fwd m)) (<[t := N.min tb (bf + mb)]> (m_bwd m)))
              (fun b mi => x < x \/ x = x /\ (T b mi \/ b = yx /\ mi = yz)) t x z d y) as Hgo.
        { intros val p q Hval Hp Hq Hok Hnew. eexists. split; [exact Hnew|].
          destruct Hok as (H1 & H2 & H3 & H4). split; [lia|]. split.
          { intros e y' He Hy'. specialize (H2 _ _ He Hy'). lia. }
          split.
          - intros b mi p' q' Hl HT Hp' Hq'. pose proof (lower_tri_lt _ _ _ _ WF _ _ _ Hl).
            rewrite Hsame in Hp', Hq' by lia.
            destruct HT as [?|[_ [HT|[-> ->]]]]; [lia| |].
            + assert (val <= p' + q')%N by (eapply H3; eauto). lia.
            + simplify_eq. lia.
          - destruct (N.min_spec val (p + q)) as [[? ->]|[? ->]].
            + destruct H4 as [?|[?|(b & mi & p' & q' & Hl & HT & Hp' & Hq' & ->)]]; [by left|by right; left|right; right].
              pose proof (lower_tri_lt _ _ _ _ WF _ _ _ Hl).
              exists b, mi, p', q'. rewrite !Hsame by lia. split; [done|]. split; [naive_solver|]. done.
            + right. right. exists yx, yz, p, q. rewrite !Hsame by lia. split; [done|]. split; [|done]. right. split; [done|]. by right. }
        destruct d.
        * apply (Hgo tf bb mf); [done..|]. unfold dw. cbn [m_fwd]. apply list_lookup_insert. rewrite (inv_f _ _ _ I). lia.
        * apply (Hgo tb bf mb); [done..|]. unfold dw. cbn [m_bwd]. apply list_lookup_insert. rewrite (inv_b _ _ _ I). lia.
      + destruct (inv_ok _ _ _ I d a u v Ha) as (val & Hval & Hok). exists val. split; [by rewrite Hsame|].
        eapply arcok_ext; [| |exact Hok].
        * intros b mi Hl. split; [naive_solver|]. intros [?|[-> [?|[-> ->]]]]; [by left|by right|].
          exfalso. apply Hne. destruct Hl as (z' & x' & y' & Hb & Hm & Ha').
          destruct (up_arc_fun _ _ _ _ _ _ Hm Hyz) as [-> ->]. destruct (up_arc_fun _ _ _ _ _ _ Ha Ha') as [-> ->].
          by eapply (up_arc_unique _ _ _ _ WF).
        * intros b mi d' Hl HT.
          assert (u <= x) by (destruct HT; lia).
          destruct Hl as (z' & x' & y' & Hb & Hm & Ha'). destruct (up_arc_fun _ _ _ _ _ _ Ha Ha') as [-> ->].
          pose proof (up_arc_lt _ _ _ _ WF _ _ _ Hb).
          rewrite !Hsame; [done|..].
          -- intros ->. destruct (up_arc_fun _ _ _ _ _ _ Hm Hxzt). lia.
          -- intros ->. destruct (up_arc_fun _ _ _ _ _ _ Hb Hxzt). lia.
    - assert (forall d p q, dw m (negb d) yx = Some p -> dw m d yz = Some q -> (inf_weight <= p + q)%N) as Hge.
      { intros d p q Hp Hq. destruct (N.le_gt_cases inf_weight (p + q)) as [|Hlt]; [done|]. exfalso.
        destruct (inv_sound _ _ _ _ _ _ _ _ I Hyx Hp ltac:(lia)) as [k1 H1].
        destruct (inv_sound _ _ _ _ _ _ _ _ I Hyz Hq ltac:(lia)) as [k2 H2].
        apply dgraph_rev in H1. rewrite negb_involutive in H1.
        destruct (arc_of_walk _ _ _ _ WF w d x z (p + q) (k1 + k2)) as [a Ha]; [done| |by eapply Hno].
        eapply gw_app; [eapply gw_mono; [|exact H1]| |eapply gw_mono; [|exact H2]]; cbn; lia. }
      assert (inf_weight <= bb + mf)%N by by apply (Hge true).
      assert (inf_weight <= bf + mb)%N by by apply (Hge false).
      assert (tf <= inf_weight)%N by apply Htfok. assert (tb <= inf_weight)%N by apply Htbok.
      exists m. split.
      { eapply relax_noop; try done; rewrite add32_le by done; lia. }
      split; [apply I|apply I|].
      intros d a u v Ha. destruct (inv_ok _ _ _ I d a u v Ha) as (val & Hval & Hok). exists val. split; [done|].
      eapply arcok_ext; [|done|exact Hok].
      intros b mi Hl. split; [naive_solver|]. intros [?|[-> [?|[-> ->]]]]; [by left|by right|].
      exfalso. destruct Hl as (z' & x' & y' & Hb & Hm & Ha').
      destruct (up_arc_fun _ _ _ _ _ _ Hm Hyz) as [-> ->]. destruct (up_arc_fun _ _ _ _ _ _ Ha Ha') as [-> ->].
      by eapply Hno.
  Qed.

  Definition cache_ok (x : nat) (cache : list nat) : Prop :=
    length cache = n /\ (forall z t, cache !! z = Some t -> t = 0 \/ t < length (up_head c)) /\
    (forall z a, up_arc c a x z -> cache !! z = Some a).

  (** the loop over the arcs of [y] (lines 790-796) *)
  Lemma relax_mids_spec x T y yx lo hi cache k m :
    inv x T m -> cache_ok x cache -> up_arc c yx y x ->
    up_first_out c !! y = Some lo -> up_first_out c !! S y = Some hi -> lo + k <= hi ->
    exists m', relax_mids c x yx lo cache k m = Some m' /\
      inv x (fun b mi => T b mi \/ (b = yx /\ lo <= mi < lo + k)) m'.
  Proof.
    intros I (HC1 & HC2 & HC3) Hyx Hlo Hhi. revert T m I. induction k as [|k IH]; intros T m I Hk; cbn [relax_mids].
    - exists m. split; [done|]. split; [apply I|apply I|]. intros d a u v Ha.
      destruct (inv_ok _ _ _ I d a u v Ha) as (val & Hval & Hok). exists val. split; [done|].
      eapply arcok_ext; [|done|exact Hok]. intros; naive_solver lia.
    - assert (out_arc (up_first_out c) y (lo + k)) as Hout by (exists lo, hi; split; [done|split; [done|lia]]).
      destruct (out_arc_lt _ _ _ _ _ (wf_up _ _ _ _ WF) Hout) as [Hyn Hmi].
      destruct (lookup_lt_is_Some_2 (up_head c) (lo + k) Hmi) as [z Hz].
      assert (up_arc c (lo + k) y z) as Hyz by (by apply (up_arc_out _ _ _ _ WF)).
      pose proof (up_arc_lt _ _ _ _ WF _ _ _ Hyz). pose proof (up_arc_lt _ _ _ _ WF _ _ _ Hyx) as Hyx'.
      rewrite Hz, bind_S. case_decide as Hzx.
      + exists m. split; [done|]. split; [apply I|apply I|]. intros d a u v Ha.
        destruct (inv_ok _ _ _ I d a u v Ha) as (val & Hval & Hok). exists val. split; [done|].
        eapply arcok_ext; [|done|exact Hok]. intros b mi Hl. split; [naive_solver|].
        intros [?|[-> [?|[-> Hmi']]]]; [by left|by right|]. exfalso.
        destruct Hl as (z' & x' & y' & Hb & Hm & Ha').
        destruct (up_arc_fun _ _ _ _ _ _ Hb Hyx) as [-> ->]. destruct (up_arc_fun _ _ _ _ _ _ Ha Ha') as [_ ->].
        pose proof (up_arc_lt _ _ _ _ WF _ _ _ Ha).
        destruct (decide (mi = lo + k)) as [->|]; [destruct (up_arc_fun _ _ _ _ _ _ Hm Hyz); lia|].
        pose proof (wf_upsorted _ _ _ _ WF _ _ _ _ _ Hm Hyz ltac:(lia)). lia.
      + destruct (lookup_lt_is_Some_2 cache z) as [t Ht]; [lia|]. rewrite Ht, bind_S.
        destruct (relax_step x T m y z yx (lo + k) t I Hyx Hyz) as (m1 & -> & I1); [lia|destruct (HC2 _ _ Ht); lia| |].
        { intros a Ha. apply HC3 in Ha. by simplify_eq. }
        rewrite bind_S. destruct (IH _ _ I1) as (m2 & -> & I2); [lia|]. exists m2. split; [done|].
        split; [apply I2|apply I2|]. intros d a u v Ha.
        destruct (inv_ok _ _ _ I2 d a u v Ha) as (val & Hval & Hok). exists val. split; [done|].
        eapply arcok_ext; [|done|exact Hok]. intros b mi Hl. split; [naive_solver lia|].
        intros [?|[-> [?|[-> Hmi']]]]; [by left|right; naive_solver|]. right. split; [done|].
        destruct (decide (mi = lo + k)) as [->|]; [naive_solver|]. right. split; [done|lia].
  Qed.

  Definition stale (cache : list nat) : Prop :=
    length cache = n /\ forall z t, cache !! z = Some t -> t = 0 \/ t < length (up_head c).

  Lemma customize_node_spec x cache m :
    x < n -> stale cache -> inv x (fun _ _ => False) m ->
    exists cache' m', customize_node c x (cache, m) = Some (cache', m') /\ stale cache' /\ inv (S x) (fun _ _ => False) m'.
  Proof.
    intros Hx [HS1 HS2] I. unfold customize_node.
    destruct (csr_range _ _ _ _ (wf_up _ _ _ _ WF) Hx) as (lo & hi & Hlo & Hhi & Hle).
    rewrite Hlo, bind_S, Hhi, bind_S.
    destruct (for_range_inv (fun k cache => stale cache /\ forall z a, up_arc c a x z -> a < k -> cache !! z = Some a)
       (fun xz cache => z ← up_head c !! xz; wr cache z xz) lo hi cache) as (cache' & -> & (HC1 & HC2) & HC3).
    { lia. }
    { split; [done|]. intros z a Ha Hlt. apply (up_arc_out _ _ _ _ WF) in Ha as [(lo' & hi' & ? & ? & ?) _]. simplify_eq. lia. }
    { intros xz ca Hxz ((HC1 & HC2) & HC3). destruct (lookup_lt_is_Some_2 (up_head c) xz) as [z Hz]; [lia|].
      assert (up_arc c xz x z) as Hxz'. { apply (up_arc_out _ _ _ _ WF). split; [|done]. by exists lo, hi. }
      pose proof (up_arc_lt _ _ _ _ WF _ _ _ Hxz').
      rewrite Hz, bind_S, wr_Some by lia. eexists. split; [done|]. split; [split|].
      - by rewrite insert_length.
      - intros z' t. destruct (decide (z' = z)) as [->|].
        + rewrite list_lookup_insert by lia. intros [= <-]. right. lia.
        + rewrite list_lookup_insert_ne by done. eauto.
      - intros z' a Ha Hlt. destruct (decide (z' = z)) as [->|].
        + rewrite list_lookup_insert by lia. f_equal. by eapply (up_arc_unique _ _ _ _ WF).
        + rewrite list_lookup_insert_ne by done. apply HC3; [done|].
          destruct (decide (a = xz)) as [->|]; [|lia]. destruct (up_arc_fun _ _ _ _ _ _ Ha Hxz'). done. }
    rewrite bind_S.
    assert (cache_ok x cache') as HC.
    { split; [done|]. split; [done|]. intros z a Ha. apply HC3; [done|].
      apply (up_arc_out _ _ _ _ WF) in Ha as [(lo' & hi' & ? & ? & ?) _]. simplify_eq. lia. }
    destruct (csr_range _ _ _ _ (wf_down _ _ _ _ WF) Hx) as (dlo & dhi & Hdlo & Hdhi & Hdle).
    rewrite Hdlo, bind_S, Hdhi, bind_S.
    match goal with |- context [for_range dlo dhi ?f m] =>
      destruct (for_range_inv (fun k m => inv x (fun b mi => exists j, dlo <= j < k /\ down_to_up c !! j = Some b) m) f dlo dhi m) as (m' & -> & I') end.
    { lia. }
    { split; [apply I|apply I|]. intros d a u v Ha.
      destruct (inv_ok _ _ _ I d a u v Ha) as (val & Hval & Hok). exists val. split; [done|].
      eapply arcok_ext; [|done|exact Hok]. intros; naive_solver lia. }
    { intros xy m1 Hxy I1. cbn beta.
      destruct (lookup_lt_is_Some_2 (down_head c) xy) as [y Hy]; [lia|].
      destruct (wf_down_up _ _ _ _ WF x xy y) as (yx & Hyx & Hyx'); [by exists dlo, dhi|done|].
      pose proof (up_arc_lt _ _ _ _ WF _ _ _ Hyx').
      rewrite Hyx, bind_S, Hy, bind_S.
      destruct (csr_range _ _ _ y (wf_up _ _ _ _ WF)) as (ylo & yhi & Hylo & Hyhi & Hyle); [lia|].
      rewrite Hylo, bind_S, Hyhi, bind_S.
      destruct (relax_mids_spec x _ y yx ylo yhi cache' (yhi - ylo) m1 I1 HC Hyx' Hylo Hyhi ltac:(lia)) as (m2 & -> & I2).
      exists m2. split; [done|]. split; [apply I2|apply I2|]. intros d a u v Ha.
      destruct (inv_ok _ _ _ I2 d a u v Ha) as (val & Hval & Hok). exists val. split; [done|].
      eapply arcok_ext; [|done|exact Hok]. intros b mi Hl. split.
      - intros [?|[-> [(j & Hj & Hjb)|[-> Hmi]]]]; [by left| |]; right; (split; [done|]).
        + exists j. split; [lia|done]. + exists xy. split; [lia|done].
      - intros [?|[-> (j & Hj & Hjb)]]; [by left|right]. split; [done|].
        destruct (decide (j = xy)) as [->|]; [right|left; exists j; split; [lia|done]].
        simplify_eq. split; [done|]. destruct Hl as (z' & x' & y' & Hb & Hm & Ha').
        destruct (up_arc_fun _ _ _ _ _ _ Hb Hyx') as [-> ->].
        apply (up_arc_out _ _ _ _ WF) in Hm as [(l & h & ? & ? & ?) _]. simplify_eq. lia. }
    rewrite bind_S. exists cache', m'. split; [done|]. split; [done|].
    split; [apply I'|apply I'|]. intros d a u v Ha.
    destruct (inv_ok _ _ _ I' d a u v Ha) as (val & Hval & Hok). exists val. split; [done|].
    eapply arcok_ext; [|done|exact Hok]. intros b mi Hl. split.
    - intros [?|[-> _]]; left; lia.
    - intros [Hlt|[-> []]]. destruct (decide (u = x)) as [->|]; [right|left; lia]. split; [done|].
      destruct Hl as (z' & x' & y' & Hb & Hm & Ha'). destruct (up_arc_fun _ _ _ _ _ _ Ha Ha') as [-> ->].
      destruct (wf_up_down _ _ _ _ WF _ _ _ Hb) as (j & (l & h & ? & ? & ?) & _ & ?). simplify_eq. by exists j.
  Qed.

  (** customizable_contraction_hierarchy.cpp:773-805 *)
  Theorem customize_spec m :
    length (m_fwd m) = length (up_head c) -> length (m_bwd m) = length (up_head c) ->
    exists m', customize c w m = Some m' /\ customized rt rh c w m'.
  Proof.
    intros Hf Hb. unfold customize.
    destruct (extract_all_spec n rt rh c WF w Hlen Hw m Hf Hb) as (m1 & -> & H1 & H2 & H3). rewrite bind_S.
    unfold c_node_count. rewrite (wf_n _ _ _ _ WF).
    destruct (for_range_inv (fun x '(cache, m) => stale cache /\ inv x (fun _ _ => False) m) (customize_node c) 0 n (replicate n 0, m1))
      as ([cache m'] & -> & HS & I).
    - lia.
    - split; [split; [apply replicate_length|intros z t [-> _]%lookup_replicate; by left]|].
      split; [done..|]. intros d a u v Ha. destruct (H3 d a u v Ha) as (x & Hx & Hi1 & Hi2 & Hi3).
      exists x. split; [done|]. split; [done|]. split; [done|]. split; [intros; naive_solver lia|]. naive_solver.
    - intros x [ca m2] Hx [HS I]. destruct (customize_node_spec x ca m2) as (ca' & m3 & -> & HS' & I'); [lia|done|done|].
      exists (ca', m3). done.
    - rewrite bind_S. exists m'. split; [done|].
      assert (forall d a x, dw m' d a = Some x -> a < length (up_head c)) as Hin.
      { intros d a x Hx. apply lookup_lt_Some in Hx. destruct d; [rewrite <- (inv_f _ _ _ I)|rewrite <- (inv_b _ _ _ I)]; done. }
      assert (forall d a u v x, up_arc c a u v -> dw m' d a = Some x -> arcok m' (fun _ _ => True) a u v d x) as Hall.
      { intros d a u v x Ha Hx. destruct (inv_ok _ _ _ I d a u v Ha) as (x' & Hx' & Hok). simplify_eq.
        eapply arcok_ext; [|done|exact Hok]. intros. split; [done|]. intros _. left.
        pose proof (up_arc_lt _ _ _ _ WF _ _ _ Ha). lia. }
      split; [apply I|apply I|..].
      + intros d a x Hx. destruct (up_arc_exists _ _ _ _ WF a) as (u & v & Ha); [eauto|]. by destruct (Hall d a u v x Ha Hx).
      + intros d a u v x e y Ha Hx He Hy. destruct (Hall d a u v x Ha Hx) as (_ & H & _). eauto.
      + intros d b mi t x p q Hl Hx Hp Hq. destruct Hl as (z & x' & y & ? & ? & ?).
        destruct (Hall d t x' y x) as (_ & _ & Ht & _); [done|done|]. eapply Ht; [|done..]. by exists z, x', y.
      + intros d a u v x Ha Hx. destruct (Hall d a u v x Ha Hx) as (_ & _ & _ & Ht).
        destruct Ht as [?|[?|(b & mi & p & q & ? & _ & ?)]]; [by left|by right; left|right; right]. eauto 10.
  Qed.
End Customize.
