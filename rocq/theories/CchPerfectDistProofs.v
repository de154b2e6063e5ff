(** Perfect weights are distances, and the kept arcs preserve distances. *)
From Verif Require Import Base UtilSpec GraphSpec PermutationModel CchModel CchSpec CchTriangleProofs CchQueryProofs CchPerfectModel CchPerfectProofs WalkSpec.
Ltac Zify.zify_post_hook ::= idtac.

Lemma upstar_first (A : warcs) u v L : upstar A u v L -> (u = v /\ L = 0%N) \/ exists x w L', A u x w /\ upstar A x v L' /\ L = (w + L')%N.
Proof.
  induction 1 as [u|u x v L w H IH Ha]; [by left|]. right. destruct IH as [[-> ->]|(y & w' & L' & Hy & Hup & ->)].
  - exists v, w, 0%N. split; [done|]. split; [constructor|lia].
  - exists y, w', (L' + w)%N. split; [done|]. split; [by econstructor|lia].
Qed.

Section Dist.
  Context (n : nat) (rt rh : list nat) (c : cch) (WF : wf_cch n rt rh c).
  Context (w : list N) (m : metric) (CU : customized rt rh c w m).
  Context (s : pstate) (HP : pinv rt rh c w m (fun _ _ _ => True) s).
  Notation E d := (dgraph rt rh w d).

  (** The arcs that are kept, with their weights. *)
  Definition kept (d : bool) : warcs := fun u v x => exists a, up_arc c a u v /\ dw (ps_m s) d a = Some x /\ kp s d !! a = Some true.

  Lemma kept_dw d a x : dw (ps_m s) d a = Some x -> kp s d !! a = Some true -> dw m d a = Some x /\ (x < inf_weight)%N.
  Proof.
    intros Hx Hk. assert (a < length (up_head c)) as Ha. { rewrite <- (proj1 (pi_len _ _ _ _ _ _ _ HP d)), <- mw_dw in *. by eapply lookup_lt_Some. }
    destruct (pi_dw _ _ _ _ _ CU _ _ d a HP Ha) as (y & y' & Hy & Hy' & Hle & Hi). rewrite Hx in Hy'. injection Hy' as <-.
    rewrite (pi_keep _ _ _ _ _ _ _ HP _ _ _ _ Hy Hx) in Hk. injection Hk as Hk. apply bool_decide_eq_true in Hk as [<- Hne]. split; [done|lia].
  Qed.
  Lemma kept_or_shorter d a u v x : up_arc c a u v -> dw m d a = Some x -> (x < inf_weight)%N ->
    (dw (ps_m s) d a = Some x /\ kp s d !! a = Some true) \/ exists y k, (y < x)%N /\ gw (E d) (fun _ => True) u v y k.
  Proof.
    intros Ha Hx Hi. destruct (up_arc_lt _ _ _ _ WF _ _ _ Ha) as (La & _ & _).
    destruct (pi_dw _ _ _ _ _ CU _ _ d a HP La) as (x' & y & Hx' & Hy & Hle & _). rewrite Hx in Hx'. injection Hx' as <-.
    destruct (decide (y = x)) as [->|Hne].
    - left. split; [done|]. rewrite (pi_keep _ _ _ _ _ _ _ HP _ _ _ _ Hx Hy). f_equal. apply bool_decide_eq_true. split; [done|lia].
    - right. destruct (pi_sound _ _ _ _ _ _ _ HP d a u v y Ha Hy) as [k Hk]; [lia|]. exists y, k. split; [lia|done].
  Qed.

  Lemma kept_upstar d u v L : upstar (upw c (wts m d)) u v L -> (L < inf_weight)%N ->
    upstar (kept d) u v L \/ exists L', (L' < L)%N /\ dist_walk (E d) u v L'.
  Proof.
    induction 1 as [u|u x v L y Hup IH (a & Ha & Hy)]; intros HL; [left; constructor|]. rewrite wts_dw in Hy.
    destruct (kept_or_shorter d a x v y Ha Hy) as [[H1 H2]|(y' & k & Hlt & Hk)]; [lia| |].
    - destruct IH as [IH|(L' & Hlt & Hw)]; [lia| |].
      + left. econstructor; [exact IH|]. by exists a.
      + right. exists (L' + y)%N. split; [lia|]. eapply dist_walk_app; [exact Hw|]. right.
        destruct (cu_sound _ _ _ _ WF w m CU d a x v y Ha Hy) as [k Hk]; [lia|]. exists k. eapply gw_mono; [|exact Hk]. done.
    - right. exists (L + y')%N. split; [lia|]. eapply dist_walk_app.
      + eapply (upstar_walk _ _ _ _ WF w m CU); [exact Hup|lia].
      + right. by exists k.
  Qed.

  Lemma kept_complete L : forall x y, dist_walk (arcs_of rt rh w) x y L -> (L < inf_weight)%N ->
    exists z L1 L2, (L1 + L2 <= L)%N /\ upstar (kept true) x z L1 /\ upstar (kept false) y z L2.
  Proof.
    induction (N.lt_wf_0 L) as [L _ IH]. intros x y Hw HL.
    destruct (walk_apex _ _ _ _ Hw) as (z & L1 & L2 & Hle & Hsz & Htz & H1 & H2).
    destruct (climb _ _ _ _ WF w m CU true x z L1 Hsz) as (L1' & HL1 & Hup1); [exact H1|lia|].
    destruct (climb _ _ _ _ WF w m CU false y z L2 Htz) as (L2' & HL2 & Hup2); [|lia|].
    { destruct H2 as [?|[k H2]]; [by left|right]. exists k. apply (dgraph_rev rt rh w true). exact H2. }
    pose proof (upstar_walk _ _ _ _ WF w m CU _ _ _ _ Hup1 ltac:(lia)) as W1. pose proof (upstar_walk _ _ _ _ WF w m CU _ _ _ _ Hup2 ltac:(lia)) as W2.
    apply dist_walk_rev in W2. cbn [negb dgraph] in W2.
    destruct (kept_upstar _ _ _ _ Hup1) as [K1|(M & HM & HW)]; [lia| |].
    2:{ destruct (IH (M + L2')%N ltac:(lia) x y) as (z' & M1 & M2 & ? & ? & ?); [by eapply dist_walk_app|lia|]. exists z', M1, M2. split; [lia|done]. }
    destruct (kept_upstar _ _ _ _ Hup2) as [K2|(M & HM & HW)]; [lia| |].
    2:{ apply dist_walk_rev in HW. cbn [negb dgraph] in HW.
        destruct (IH (L1' + M)%N ltac:(lia) x y) as (z' & M1 & M2 & ? & ? & ?); [by eapply dist_walk_app|lia|]. exists z', M1, M2. split; [lia|done]. }
    exists z, L1', L2'. split; [lia|done].
  Qed.

  Lemma kept_walk d u v x : kept d u v x -> exists k, gw (E d) (fun _ => True) u v x k.
  Proof.
    intros (a & Ha & Hx & Hk). destruct (kept_dw _ _ _ Hx Hk) as [_ Hi]. by eapply (pi_sound _ _ _ _ _ _ _ HP).
  Qed.

  (** ** Exactness, for an unfiltered hierarchy *)
  Context (Hch : forall x y z a b, up_arc c a x y -> up_arc c b x z -> y < z -> exists t, up_arc c t y z).

  Lemma perfect_exact j : forall d a u v y L k, n - u <= j -> up_arc c a u v -> dw (ps_m s) d a = Some y ->
    gw (E d) (fun _ => True) u v L k -> (L < inf_weight)%N -> (y <= L)%N.
  Proof.
    induction (lt_wf j) as [j _ IH]. intros d a u v y L k Hj Ha Hy Hw HL.
    destruct (up_arc_lt _ _ _ _ WF _ _ _ Ha) as (La & Huv & Hvn).
    destruct (walk_apex (E d) u v L) as (z & L1 & L2 & Hle & Huz & Hvz & H1 & H2); [right; by exists k|].
    destruct (climb _ _ _ _ WF w m CU d u z L1 Huz H1) as (L1' & HL1 & Hup1); [lia|].
    destruct (upstar_first _ _ _ _ Hup1) as [[-> ->]|(x & wt & L' & (b & Hb & Hwt) & Hup' & ->)]; [lia|]. rewrite wts_dw in Hwt.
    assert (dist_walk (E d) x v (L' + L2)%N) as Hxv.
    { eapply dist_walk_app; [eapply (upstar_walk _ _ _ _ WF w m CU); [exact Hup'|lia]|].
      destruct H2 as [[-> ->]|[k2 H2]]; [by left|right]. exists k2. eapply gw_mono; [|exact H2]. done. }
    destruct (up_arc_lt _ _ _ _ WF _ _ _ Hb) as (Lb & Hux & Hxn).
    destruct (pi_dw _ _ _ _ _ CU _ _ d a HP La) as (y0 & y1 & Hy0 & Hy1 & Hyle & _). rewrite Hy in Hy1. injection Hy1 as <-.
    destruct (lt_eq_lt_dec x v) as [[Hlt| ->]|Hlt].
    - destruct (Hch _ _ _ _ _ Hb Ha Hlt) as [t Ht]. destruct (up_arc_lt _ _ _ _ WF _ _ _ Ht) as (Lt & _ & _).
      destruct (pi_dw _ _ _ _ _ CU _ _ d t HP Lt) as (_ & yt & _ & Hyt & _ & _).
      destruct Hxv as [[-> _]|(k2 & Hk2)]; [lia|]. pose proof (IH (n - x) ltac:(lia) d t x v yt _ k2 ltac:(lia) Ht Hyt Hk2 ltac:(lia)).
      pose proof (pi_mid _ _ _ _ _ _ _ HP d b a t y wt yt ltac:(by exists u, x, v) I Hy Hwt Hyt). lia.
    - pose proof (up_arc_unique _ _ _ _ WF _ _ _ _ Ha Hb) as ->. rewrite Hwt in Hy0. injection Hy0 as <-. lia.
    - destruct (Hch _ _ _ _ _ Ha Hb Hlt) as [t Ht]. destruct (up_arc_lt _ _ _ _ WF _ _ _ Ht) as (Lt & _ & _).
      destruct (pi_dw _ _ _ _ _ CU _ _ (negb d) t HP Lt) as (_ & yt & _ & Hyt & _ & _).
      destruct Hxv as [[-> _]|(k2 & Hk2%dgraph_rev)]; [lia|]. pose proof (IH (n - v) ltac:(lia) (negb d) t v x yt _ k2 ltac:(lia) Ht Hyt Hk2 ltac:(lia)).
      pose proof (pi_bottom _ _ _ _ _ _ _ HP d a b t y wt yt ltac:(by exists u, v, x) I Hy Hwt Hyt). lia.
  Qed.
  Lemma perfect_distance d a u v y : up_arc c a u v -> dw (ps_m s) d a = Some y ->
    shortest_capped (fun L => exists k, gw (E d) (fun _ => True) u v L k) y.
  Proof.
    intros Ha Hy. destruct (up_arc_lt _ _ _ _ WF _ _ _ Ha) as (La & _ & _).
    destruct (pi_dw _ _ _ _ _ CU _ _ d a HP La) as (y0 & y1 & Hy0 & Hy1 & Hyle & Hi). rewrite Hy in Hy1. injection Hy1 as <-.
    split; [lia|]. split.
    - intros L [k Hk]. destruct (N.lt_ge_cases L inf_weight); [|lia]. by eapply (perfect_exact (n - u)).
    - destruct (N.lt_ge_cases y inf_weight) as [Hlt|]; [right|left; lia]. by eapply (pi_sound _ _ _ _ _ _ _ HP).
  Qed.
  Lemma perfect_le d a u v y L k : up_arc c a u v -> dw (ps_m s) d a = Some y -> gw (E d) (fun _ => True) u v L k -> (y <= L)%N.
  Proof. intros Ha Hy Hw. destruct (perfect_distance _ _ _ _ _ Ha Hy) as (_ & H & _). apply H. by exists k. Qed.

  (** All triangle inequalities hold. *)
  Lemma perfect_tri d1 d2 d3 a1 a2 a3 u v x y1 y2 y3 :
    up_arc c a1 u v -> dw (ps_m s) d1 a1 = Some y1 -> dw (ps_m s) d2 a2 = Some y2 -> dw (ps_m s) d3 a3 = Some y3 ->
    (d2 = d1 /\ up_arc c a2 u x \/ d2 = negb d1 /\ up_arc c a2 x u) -> (d3 = d1 /\ up_arc c a3 x v \/ d3 = negb d1 /\ up_arc c a3 v x) -> (y1 <= y2 + y3)%N.
  Proof.
    intros Ha1 Hy1 Hy2 Hy3 H2 H3. destruct (perfect_distance _ _ _ _ _ Ha1 Hy1) as (Hi & Hmin & _).
    destruct (N.lt_ge_cases (y2 + y3) inf_weight) as [Hlt|]; [|lia].
    assert (exists k, gw (E d1) (fun _ => True) u x y2 k) as [k2 W2].
    { destruct H2 as [[-> Ha2]|[-> Ha2]].
      - eapply (pi_sound _ _ _ _ _ _ _ HP); [exact Ha2|done|lia].
      - destruct (pi_sound _ _ _ _ _ _ _ HP _ _ _ _ _ Ha2 Hy2 ltac:(lia)) as [k Hk%dgraph_rev]. rewrite negb_involutive in Hk. by exists k. }
    assert (exists k, gw (E d1) (fun _ => True) x v y3 k) as [k3 W3].
    { destruct H3 as [[-> Ha3]|[-> Ha3]].
      - eapply (pi_sound _ _ _ _ _ _ _ HP); [exact Ha3|done|lia].
      - destruct (pi_sound _ _ _ _ _ _ _ HP _ _ _ _ _ Ha3 Hy3 ltac:(lia)) as [k Hk%dgraph_rev]. rewrite negb_involutive in Hk. by exists k. }
    apply Hmin. exists (k2 + k3). by eapply gw_app.
  Qed.

  (** A kept arc is an input arc or a lower triangle of kept arcs. *)
  Lemma kept_entry d a u v x : up_arc c a u v -> dw (ps_m s) d a = Some x -> kp s d !! a = Some true ->
    (exists e, dir_arc rt rh d u v e /\ w !! e = Some x) \/
    exists b mi p q, lower_tri c b mi a /\ dw (ps_m s) (negb d) b = Some p /\ dw (ps_m s) d mi = Some q /\ x = (p + q)%N /\
      kp s (negb d) !! b = Some true /\ kp s d !! mi = Some true.
  Proof.
    intros Ha Hx Hk. destruct (kept_dw _ _ _ Hx Hk) as [Hm Hi].
    destruct (cu_tight _ _ _ _ _ CU _ _ _ _ _ Ha Hm) as [->|[He|(b & mi & p & q & Htri & Hp & Hq & ->)]]; [lia|by left|]. right.
    destruct Htri as (z & x' & y & Hb & Hmi & Ht). destruct (up_arc_fun _ _ _ _ _ _ Ht Ha) as [-> ->].
    exists b, mi, p, q.
    destruct (cu_sound _ _ _ _ WF w m CU _ _ _ _ _ Hb Hp) as [k1 W1%dgraph_rev]; [lia|]. rewrite negb_involutive in W1.
    destruct (cu_sound _ _ _ _ WF w m CU _ _ _ _ _ Hmi Hq) as [k2 W2]; [lia|].
    assert (forall P u v L k, gw (E d) P u v L k -> gw (E d) (fun _ => True) u v L k) as Hany by (intros; eapply gw_mono; [|done]; done).
    apply Hany in W1, W2.
    destruct (kept_or_shorter _ _ _ _ _ Hb Hp) as [[K1 K2]|(y1 & k & Hlt & W%dgraph_rev)]; [lia| |].
    2:{ rewrite negb_involutive in W. pose proof (perfect_le d a u v _ _ _ Ha Hx (gw_app _ _ _ _ _ _ _ _ _ W I W2)). lia. }
    destruct (kept_or_shorter _ _ _ _ _ Hmi Hq) as [[K3 K4]|(y1 & k & Hlt & W)]; [lia| |].
    2:{ pose proof (perfect_le d a u v _ _ _ Ha Hx (gw_app _ _ _ _ _ _ _ _ _ W1 I W)). lia. }
    split; [by exists z, u, v|]. done.
  Qed.
End Dist.
