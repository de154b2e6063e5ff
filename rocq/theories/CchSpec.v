(** What a CCH and a customized metric have to satisfy. Nodes are ranks; [rt], [rh] are
    the tails and heads of the input arcs as ranks. *)
From Verif Require Import Base GraphSpec PathSpec WalkSpec CchModel.
Ltac Zify.zify_post_hook ::= idtac.

Definition up_arc (c : cch) (a u v : nat) : Prop := up_tail c !! a = Some u /\ up_head c !! a = Some v.

(** Input arc [e] runs along the CCH arc from [u] to [v]; [d]: upwards, otherwise downwards. *)
Definition dir_arc (rt rh : list nat) (d : bool) (u v e : nat) : Prop :=
  if d then rt !! e = Some u /\ rh !! e = Some v else rt !! e = Some v /\ rh !! e = Some u.

(** The graph without weights. *)
Definition skel (rt rh : list nat) : warcs := fun u v w => w = 0%N /\ exists e, rt !! e = Some u /\ rh !! e = Some v.

(** The input arcs recorded for a CCH arc: the first one and the others. *)
Definition arc_inputs (c : cch) (d : bool) (a : nat) : option (option nat * list nat) :=
  b ← has_input c !! a;
  if negb b then Some (None, []) else
  i ← local_id (has_input c) a;
  o ← (if d then fwd_input c else bwd_input c) !! i;
  b ← has_extra c !! a;
  if negb b then Some (o, []) else
  j ← local_id (has_extra c) a;
  lo ← (if d then first_extra_fwd c else first_extra_bwd c) !! j;
  hi ← (if d then first_extra_fwd c else first_extra_bwd c) !! S j;
  l ← mapM (fun k => (if d then extra_fwd c else extra_bwd c) !! k) (seq lo (hi - lo));
  Some (o, l).

(** [y] is reached from [x] by going to the parent any number of times. *)
Inductive ancestor (parent : list (option nat)) : nat -> nat -> Prop :=
  | anc_refl x : ancestor parent x x
  | anc_step x p y : parent !! x = Some (Some p) -> ancestor parent p y -> ancestor parent x y.

Record wf_cch (n : nat) (rt rh : list nat) (c : cch) : Prop := {
  wf_n : length (c_rank c) = n;
  wf_up : csr n (up_first_out c) (up_head c);
  wf_tails : tails_ok (up_first_out c) (up_tail c) (up_head c);
  wf_upward : forall a u v, up_arc c a u v -> u < v;
  wf_upsorted : forall a b u x y, up_arc c a u x -> up_arc c b u y -> a < b -> x < y;
  wf_down : csr n (down_first_out c) (down_head c);
  wf_down_up : forall y b z, out_arc (down_first_out c) y b -> down_head c !! b = Some z ->
    exists a, down_to_up c !! b = Some a /\ up_arc c a z y;
  wf_up_down : forall a z y, up_arc c a z y ->
    exists b, out_arc (down_first_out c) y b /\ down_head c !! b = Some z /\ down_to_up c !! b = Some a;
  wf_downsorted : forall y b b' z z', out_arc (down_first_out c) y b -> out_arc (down_first_out c) y b' -> b < b' ->
    down_head c !! b = Some z -> down_head c !! b' = Some z' -> z < z';
  wf_ends : length rt = length rh /\ (forall e u, rt !! e = Some u -> u < n) /\ (forall e u, rh !! e = Some u -> u < n);
  (** every directed low walk has an arc *)
  wf_complete : forall u v L k, u <> v -> gw (skel rt rh) (below u v) u v L k ->
    exists a, up_arc c a (u `min` v) (u `max` v);
  wf_inlen : length (in_to_cch c) = length rt;
  wf_inmap : forall e u v, rt !! e = Some u -> rh !! e = Some v -> u <> v ->
    exists a, in_to_cch c !! e = Some (Some a) /\ up_arc c a (u `min` v) (u `max` v);
  wf_inloop : forall e u, rt !! e = Some u -> rh !! e = Some u -> in_to_cch c !! e = Some None;
  wf_inputs : forall d a u v, up_arc c a u v ->
    exists o l, arc_inputs c d a = Some (o, l) /\ (o = None -> l = []) /\
      forall e, o = Some e \/ e ∈ l <-> dir_arc rt rh d u v e;
  wf_plen : length (c_parent c) = n;
  wf_parent : forall x p, c_parent c !! x = Some (Some p) -> x < p < n;
  wf_ancestor : forall a u v, up_arc c a u v -> ancestor (c_parent c) u v }.

(** ** Customized weights *)
(** Weight of arc [a] upwards ([d]) or downwards. *)
Definition dw (m : metric) (d : bool) (a : nat) : option N := (if d then m_fwd m else m_bwd m) !! a.

(** [b = (z,x)], [mi = (z,y)], [t = (x,y)] with [z < x < y]. *)
Definition lower_tri (c : cch) (b mi t : nat) : Prop :=
  exists z x y, up_arc c b z x /\ up_arc c mi z y /\ up_arc c t x y.

(** The customization equations: every weight is the minimum of [inf_weight], the input
    arcs and the lower triangles. *)
Record customized (rt rh : list nat) (c : cch) (w : list N) (m : metric) : Prop := {
  cu_fwd : length (m_fwd m) = length (up_head c);
  cu_bwd : length (m_bwd m) = length (up_head c);
  cu_inf : forall d a x, dw m d a = Some x -> (x <= inf_weight)%N;
  cu_in : forall d a u v x e y, up_arc c a u v -> dw m d a = Some x -> dir_arc rt rh d u v e -> w !! e = Some y -> (x <= y)%N;
  cu_tri : forall d b mi t x p q, lower_tri c b mi t -> dw m d t = Some x -> dw m (negb d) b = Some p -> dw m d mi = Some q -> (x <= p + q)%N;
  cu_tight : forall d a u v x, up_arc c a u v -> dw m d a = Some x ->
    x = inf_weight \/ (exists e, dir_arc rt rh d u v e /\ w !! e = Some x) \/
    exists b mi p q, lower_tri c b mi a /\ dw m (negb d) b = Some p /\ dw m d mi = Some q /\ x = (p + q)%N }.

(** The input graph seen upwards or downwards. *)
Definition dgraph (rt rh : list nat) (w : list N) (d : bool) : warcs :=
  if d then arcs_of rt rh w else rev_arcs (arcs_of rt rh w).

(** ** Elementary facts *)
Section Facts.
  Context (n : nat) (rt rh : list nat) (c : cch) (WF : wf_cch n rt rh c).

  Lemma up_arc_fun a u v u' v' : up_arc c a u v -> up_arc c a u' v' -> u = u' /\ v = v'.
  Proof. intros [] []. by simplify_eq. Qed.
  Lemma up_arc_lt a u v : up_arc c a u v -> a < length (up_head c) /\ u < v /\ v < n.
  Proof.
    intros H. split; [by eapply lookup_lt_Some, H|]. split; [by eapply (wf_upward _ _ _ _ WF)|].
    apply (csr_head _ _ _ (wf_up _ _ _ _ WF)). eapply elem_of_list_lookup_2, H.
  Qed.
  Lemma up_arc_exists a : a < length (up_head c) -> exists u v, up_arc c a u v.
  Proof.
    intros Ha. destruct (wf_tails _ _ _ _ WF) as [Hl _].
    destruct (lookup_lt_is_Some_2 (up_tail c) a) as [u Hu]; [lia|].
    destruct (lookup_lt_is_Some_2 (up_head c) a) as [v Hv]; [lia|]. by exists u, v.
  Qed.
  Lemma up_arc_out a u v : up_arc c a u v <-> out_arc (up_first_out c) u a /\ up_head c !! a = Some v.
  Proof.
    split.
    - intros [Hu Hv]. split; [|done].
      destruct (csr_tail_exists _ _ _ a (wf_up _ _ _ _ WF)) as (x & _ & Hx); [by eapply lookup_lt_Some|].
      pose proof (proj2 (wf_tails _ _ _ _ WF) _ _ Hx). by simplify_eq.
    - intros [Ho Hv]. split; [|done]. by apply (wf_tails _ _ _ _ WF).
  Qed.
  Lemma up_arc_unique a b u v : up_arc c a u v -> up_arc c b u v -> a = b.
  Proof.
    intros Ha Hb. destruct (lt_eq_lt_dec a b) as [[H| ->]|H]; [|done|].
    - pose proof (wf_upsorted _ _ _ _ WF _ _ _ _ _ Ha Hb H). lia.
    - pose proof (wf_upsorted _ _ _ _ WF _ _ _ _ _ Hb Ha H). lia.
  Qed.
  (** arcs are ordered by tail *)
  Lemma up_arc_tail_lt a b u v x y : up_arc c a u v -> up_arc c b x y -> u < x -> a < b.
  Proof.
    intros Ha Hb Hux. apply up_arc_out in Ha as [(lo & hi & H1 & H2 & H3) _], Hb as [(lo' & hi' & H4 & H5 & H6) _].
    pose proof (csr_mono_le _ _ _ (S u) x _ _ (wf_up _ _ _ _ WF) ltac:(lia) H2 H4). lia.
  Qed.
  Lemma lower_tri_lt b mi t : lower_tri c b mi t -> b < mi /\ mi < t.
  Proof.
    intros (z & x & y & Hb & Hm & Ht).
    pose proof (up_arc_lt _ _ _ Hb). pose proof (up_arc_lt _ _ _ Ht). pose proof (up_arc_lt _ _ _ Hm).
    split; [|eapply up_arc_tail_lt; eauto; lia].
    destruct (lt_eq_lt_dec b mi) as [[?| ->]|Hlt]; [done| |].
    - destruct (up_arc_fun _ _ _ _ _ Hb Hm). lia.
    - pose proof (wf_upsorted _ _ _ _ WF _ _ _ _ _ Hm Hb Hlt). lia.
  Qed.
  Lemma gw_skel w d P u v L k : gw (dgraph rt rh w d) P u v L k ->
    gw (if d then skel rt rh else rev_arcs (skel rt rh)) P u v 0 k.
  Proof.
    induction 1 as [u v x Hx|u y v x L k Hx Hy _ IH].
    - constructor. destruct d; unfold rev_arcs, skel; destruct Hx as (e & ? & ? & ?); eauto.
    - change 0%N with (0 + 0)%N. econstructor; [|done..].
      destruct d; unfold rev_arcs, skel; destruct Hx as (e & ? & ? & ?); eauto.
  Qed.
  Lemma arc_of_walk w d u v L k : u < v -> gw (dgraph rt rh w d) (fun x => x < u) u v L k -> exists a, up_arc c a u v.
  Proof.
    intros Huv H%gw_skel. destruct d.
    - destruct (wf_complete _ _ _ _ WF u v 0 k) as [a Ha]; [lia| |].
      + eapply gw_mono; [|exact H]. unfold below. intros; cbn in *; lia.
      + exists a. by rewrite Nat.min_l, Nat.max_r in Ha by lia.
    - destruct (wf_complete _ _ _ _ WF v u 0 k) as [a Ha]; [lia| |].
      + apply gw_rev'. eapply gw_mono; [|exact H]. unfold below. intros; cbn in *; lia.
      + exists a. by rewrite Nat.min_r, Nat.max_l in Ha by lia.
  Qed.
  Lemma dgraph_rev w d P u v L k : gw (dgraph rt rh w d) P u v L k -> gw (dgraph rt rh w (negb d)) P v u L k.
  Proof. destruct d; [apply gw_rev|apply gw_rev']. Qed.
  Lemma dgraph_arc w d u v e x : dir_arc rt rh d u v e -> w !! e = Some x -> dgraph rt rh w d u v x.
  Proof. destruct d; intros [? ?] ?; exists e; eauto. Qed.
  Lemma dgraph_inv w d u v x : dgraph rt rh w d u v x -> exists e, dir_arc rt rh d u v e /\ w !! e = Some x.
  Proof. destruct d; intros (e & ? & ? & ?); exists e; unfold dir_arc; eauto. Qed.
  Lemma dgraph_ends w d u v x : dgraph rt rh w d u v x -> u < n /\ v < n.
  Proof.
    intros (e & He & _)%dgraph_inv. destruct (wf_ends _ _ _ _ WF) as (_ & H1 & H2).
    destruct d, He; eauto.
  Qed.

  Lemma tight_sound w m :
    (forall d a u v x, up_arc c a u v -> dw m d a = Some x ->
      x = inf_weight \/ (exists e, dir_arc rt rh d u v e /\ w !! e = Some x) \/
      exists b mi p q, lower_tri c b mi a /\ dw m (negb d) b = Some p /\ dw m d mi = Some q /\ x = (p + q)%N) ->
    forall d a u v x, up_arc c a u v -> dw m d a = Some x -> (x < inf_weight)%N ->
      exists k, gw (dgraph rt rh w d) (fun y => y < u) u v x k.
  Proof.
    intros Htight d a u. revert d a. induction (lt_wf u) as [u _ IH]. intros d a v x Ha Hx Hlt.
    destruct (Htight _ _ _ _ _ Ha Hx) as [->|[(e & He & Hw)|(b & mi & p & q & Htri & Hp & Hq & ->)]]; [lia| |].
    - exists 1. constructor. by eapply dgraph_arc.
    - destruct Htri as (z & x' & y & Hb & Hm & Ht). destruct (up_arc_fun _ _ _ _ _ Ht Ha) as [-> ->].
      pose proof (up_arc_lt _ _ _ Hb).
      destruct (IH z ltac:(lia) _ _ _ _ Hb Hp ltac:(lia)) as [k1 H1%dgraph_rev].
      destruct (IH z ltac:(lia) _ _ _ _ Hm Hq ltac:(lia)) as [k2 H2].
      rewrite negb_involutive in H1.
      exists (k1 + k2). eapply gw_app; [eapply gw_mono; [|exact H1]| |eapply gw_mono; [|exact H2]]; cbn; lia.
  Qed.

  (** Weights that satisfy the equations are exactly the low distances. *)
  Section Customized.
    Context (w : list N) (m : metric) (CU : customized rt rh c w m).
    Lemma cu_dw d a : a < length (up_head c) -> exists x, dw m d a = Some x /\ (x <= inf_weight)%N.
    Proof.
      intros Ha. unfold dw. destruct (lookup_lt_is_Some_2 (if d then m_fwd m else m_bwd m) a) as [x Hx].
      { destruct d; [rewrite (cu_fwd _ _ _ _ _ CU)|rewrite (cu_bwd _ _ _ _ _ CU)]; lia. }
      exists x. split; [done|]. by eapply (cu_inf _ _ _ _ _ CU d a).
    Qed.
    Lemma cu_sound d a u v x : up_arc c a u v -> dw m d a = Some x -> (x < inf_weight)%N ->
      exists k, gw (dgraph rt rh w d) (fun y => y < u) u v x k.
    Proof. eapply tight_sound, (cu_tight _ _ _ _ _ CU). Qed.
    Lemma cu_complete k d u v L : u < v -> gw (dgraph rt rh w d) (fun y => y < u) u v L k -> (L < inf_weight)%N ->
      exists a x, up_arc c a u v /\ dw m d a = Some x /\ (x <= L)%N.
    Proof.
      revert d u v L. induction (lt_wf k) as [k _ IH]. intros d u v L Huv H HL.
      destruct (arc_of_walk _ _ _ _ _ _ Huv H) as [a Ha].
      destruct (cu_dw d a) as (x & Hx & _); [by apply up_arc_lt in Ha as [? _]|].
      exists a, x. split; [done|]. split; [done|].
      destruct (gw_split _ _ _ _ _ _ H) as [[He _]|(z & L1 & L2 & k1 & k2 & Hz & H1 & H2 & Hle & Hk)].
      - apply dgraph_inv in He as (e & He & Hw). by eapply (cu_in _ _ _ _ _ CU).
      - pose proof (gw_pos _ _ _ _ _ _ H1). pose proof (gw_pos _ _ _ _ _ _ H2).
        destruct (IH k1 ltac:(lia) (negb d) z u L1) as (b & p & Hb & Hp & Hpl); [done| |lia|].
        { apply dgraph_rev. eapply gw_mono; [|exact H1]. naive_solver. }
        destruct (IH k2 ltac:(lia) d z v L2) as (mi & q & Hm & Hq & Hql); [lia| |lia|].
        { eapply gw_mono; [|exact H2]. naive_solver. }
        assert (lower_tri c b mi a) as Ht by (by exists z, u, v).
        pose proof (cu_tri _ _ _ _ _ CU _ _ _ _ _ _ _ Ht Hx Hp Hq). lia.
    Qed.
  End Customized.

  (** The equations have one solution. *)
  Lemma customized_unique w m m' : length w = length rt -> customized rt rh c w m -> customized rt rh c w m' -> m = m'.
  Proof.
    intros Hw C C'.
    assert (forall a d, dw m d a = dw m' d a) as H.
    { intros a. induction (lt_wf a) as [a _ IH]. intros d.
      destruct (decide (a < length (up_head c))) as [Ha|Ha].
      2:{ unfold dw. rewrite !lookup_ge_None_2; [done|..]; destruct d;
          rewrite ?(cu_fwd _ _ _ _ _ C), ?(cu_fwd _ _ _ _ _ C'), ?(cu_bwd _ _ _ _ _ C), ?(cu_bwd _ _ _ _ _ C'); lia. }
      destruct (up_arc_exists _ Ha) as (u & v & Hau).
      destruct (cu_dw _ _ C d a Ha) as (x & Hx & Hxi), (cu_dw _ _ C' d a Ha) as (x' & Hx' & Hxi').
      rewrite Hx, Hx'. f_equal.
      assert (forall m m' x x', customized rt rh c w m -> customized rt rh c w m' ->
        (forall b d, b < a -> dw m d b = dw m' d b) -> dw m d a = Some x -> dw m' d a = Some x' -> (x <= inf_weight)%N -> (x <= x')%N) as Hle.
      { clear - WF Hau. intros m m' x x' C C' IH Hx Hx' Hxi.
        destruct (cu_tight _ _ _ _ _ C' _ _ _ _ _ Hau Hx') as [->|[(e & He & Hwe)|(b & mi & p & q & Ht & Hp & Hq & ->)]]; [done| |].
        - by eapply (cu_in _ _ _ _ _ C).
        - pose proof (lower_tri_lt _ _ _ Ht). rewrite <- IH in Hp, Hq by lia.
          by eapply (cu_tri _ _ _ _ _ C). }
      apply N.le_antisymm; [eapply (Hle m m')|eapply (Hle m' m)]; eauto.
      intros; symmetry; eauto. }
    destruct m as [f b], m' as [f' b']. f_equal; apply list_eq; intros a; [apply (H a true)|apply (H a false)].
  Qed.
End Facts.
