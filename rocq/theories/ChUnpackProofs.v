(** Unpacking: every arc and every path of a correct hierarchy is a walk of the input graph. *)
From Verif Require Import Base UtilSpec GraphSpec WalkSpec IdQueueModel IdQueueSpec IdQueueProofs IdSetModel IdSetSpec IdSetProofs ChCleanSpec ChBuildModel ChSpec ChQueryModel ChSearchProofs ChRunProofs WalkSpec.
Ltac Zify.zify_post_hook ::= idtac.

(** [l] lists the arcs of a walk with their heads. *)
Definition route (tail head : list nat) (w : list N) (u v : nat) (l : list (nat * nat)) (L : N) : Prop :=
  awalk tail head u l.*1 v /\ total w l.*1 = L /\ Forall (fun ah => head !! fst ah = Some (snd ah)) l.

Lemma route_nil tail head w u : route tail head w u u [] 0.
Proof. split; [constructor|]. split; [done|constructor]. Qed.
Lemma route_app tail head w u x v p q L M :
  route tail head w u x p L -> route tail head w x v q M -> route tail head w u v (p ++ q) (L + M).
Proof.
  intros (H1 & H2 & H3) (H4 & H5 & H6). split; [|split].
  - rewrite fmap_app. apply awalk_app. eauto.
  - rewrite fmap_app, total_app. by rewrite H2, H5.
  - by apply Forall_app.
Qed.
Lemma route_dist tail head w u v l L : length w = length tail -> route tail head w u v l L -> dist_walk (arcs_of tail head w) u v L.
Proof.
  intros Hl (H & <- & _). destruct l as [|e l].
  - left. inversion H; simplify_eq. done.
  - right. eexists. eapply awalk_gw; [done|done|done|]. apply Forall_forall. done.
Qed.

Definition csd (c : ch) (d : bool) : chside := if d then ch_fwd c else ch_bwd c.

Section ok.
Context (n : nat) (tail head : list nat) (w : list N) (c : ch).
Hypothesis H : ch_ok n tail head w c.

Lemma co_side d : side_ok n (csd c d).
Proof. destruct d; apply H. Qed.
Lemma rank_len : length (ch_rank c) = n.
Proof. rewrite <- (co_len _ _ _ _ _ H). destruct (co_rank _ _ _ _ _ H) as [-> _]. done. Qed.
Lemma order_at x : x < n -> exists u, ch_order c !! x = Some u /\ u < n /\ ch_rank c !! u = Some x.
Proof.
  intros Hx. destruct (lookup_lt_is_Some_2 (ch_order c) x) as [u Hu]; [by rewrite (co_len _ _ _ _ _ H)|].
  exists u. split; [done|]. split; [rewrite <- (co_len _ _ _ _ _ H); by eapply perm_lookup_lt; [apply H|]|].
  destruct (co_rank _ _ _ _ _ H) as [_ Hr]. by apply Hr.
Qed.

Lemma ch_unpack_ok fuel : forall d a x y v, x < fuel -> sarc (csd c d) a x y v ->
  exists l u t, ch_unpack c fuel d a = Some l /\ ch_order c !! (if d then x else y) = Some u /\ ch_order c !! (if d then y else x) = Some t /\
    route tail head w u t l v.
Proof.
  induction fuel as [|fuel IH]; intros d a x y v Hx Ha; [lia|]. cbn [ch_unpack].
  change (if d then ch_fwd c else ch_bwd c) with (csd c d).
  assert (exists o e e', side_entry (csd c d) a o e e' /\
     entry_ok tail head w (ch_order c) (ch_fwd c) (ch_bwd c) (if d then x else y) (if d then y else x) v o e e') as (o & e & e' & (Ho & He & He') & Hent).
  { destruct d; [by apply (co_fwd_entry _ _ _ _ _ H)|by apply (co_bwd_entry _ _ _ _ _ H)]. }
  cbv zeta. rewrite Ho, bind_S, He, bind_S, He', bind_S. unfold entry_ok in Hent. destruct o.
  - destruct Hent as (u & t & Hu & Ht & (Hta & Hhd & Hw) & ->). exists [(e, t)], u, t. split; [done|]. split; [done|]. split; [done|].
    split; [|split].
    + cbn. econstructor; [done|done|constructor].
    + unfold total. cbn. rewrite Hw. cbn. lia.
    + by constructor.
  - destruct Hent as (z & x1 & x2 & Hb & Hf & ->).
    rewrite (bool_decide_eq_true_2 (e < _)) by (eapply lookup_lt_Some; apply Hb). rewrite (bool_decide_eq_true_2 (e' < _)) by (eapply lookup_lt_Some; apply Hf).
    cbn [chk]. rewrite !bind_S.
    assert (z < x) as Hzx.
    { pose proof (so_up _ _ (co_bwd _ _ _ _ _ H) _ _ _ _ Hb). pose proof (so_up _ _ (co_fwd _ _ _ _ _ H) _ _ _ _ Hf). destruct d; lia. }
    destruct (IH false e z (if d then x else y) x1) as (p & u & t & -> & Hu & Ht & Hp); [lia|done|]. rewrite bind_S.
    destruct (IH true e' z (if d then y else x) x2) as (q & u' & t' & -> & Hu' & Ht' & Hq); [lia|done|]. rewrite bind_S. cbv iota in *.
    exists (p ++ q), u, t'. do 3 (split; [done|]). assert (u' = t) as -> by congruence. by eapply route_app.
Qed.

(** ** Walks between ranks *)
Definition rwalk (x y : nat) (L : N) : Prop :=
  exists u v, ch_order c !! x = Some u /\ ch_order c !! y = Some v /\ dist_walk (arcs_of tail head w) u v L.

Lemma dist_walk_app E u x v L M : dist_walk E u x L -> dist_walk E x v M -> dist_walk E u v (L + M).
Proof.
  intros [[-> ->]|[k H1]] H2; [done|]. destruct H2 as [[-> ->]|[k' H2]]; [right; exists k; by rewrite N.add_0_r|].
  right. eexists. by eapply gw_app.
Qed.

Lemma ch_covers : length w = length tail -> covers n (ch_fwd c) (ch_bwd c) rwalk.
Proof.
  intros Hlen. split.
  - intros x Hx. destruct (order_at x Hx) as (u & Hu & _ & _). exists u, u. do 2 (split; [done|]). by left.
  - intros a x y v Ha. destruct (ch_unpack_ok (S x) true a x y v ltac:(lia) Ha) as (l & u & t & _ & Hu & Ht & Hr).
    exists u, t. split; [done|]. split; [done|]. by eapply route_dist.
  - intros a x y v Ha. destruct (ch_unpack_ok (S x) false a x y v ltac:(lia) Ha) as (l & u & t & _ & Hu & Ht & Hr).
    exists u, t. split; [done|]. split; [done|]. by eapply route_dist.
  - intros x y z L M (u & v & Hu & Hv & H1) (v' & t & Hv' & Ht & H2). assert (v' = v) as -> by congruence.
    exists u, t. split; [done|]. split; [done|]. by eapply dist_walk_app.
  - intros x y L HL Hx Hy (u & v & Hu & Hv & HW).
    destruct (order_at x Hx) as (u' & Hu' & _ & Hru). destruct (order_at y Hy) as (v' & Hv' & _ & Hrv).
    simplify_eq. by eapply (co_complete _ _ _ _ _ H).
Qed.

(** ** Paths of the hierarchy *)
(** [l] are the arcs from [x] down to [z], the last arc first. *)
Inductive chpath (g : chside) (z : nat) : list nat -> nat -> N -> Prop :=
  | cp_nil : chpath g z [] z 0
  | cp_cons a l y x L v : sarc g a y x v -> chpath g z l y L -> chpath g z (a :: l) x (L + v)%N.

Lemma unpack_all_app d l1 l2 p1 p2 :
  unpack_all c d l1 = Some p1 -> unpack_all c d l2 = Some p2 -> unpack_all c d (l1 ++ l2) = Some (p1 ++ p2).
Proof.
  unfold unpack_all. revert p1. induction l1 as [|a l1 IH]; intros p1 H1 H2; cbn in *.
  - injection H1 as <-. done.
  - destruct (ch_unpack c (ch_nodes c) d a) as [p|]; [|done]. cbn in *.
    destruct (mapM (ch_unpack c (ch_nodes c) d) l1) as [pp|]; [|done]. cbn in *. injection H1 as <-.
    specialize (IH _ eq_refl H2). destruct (mapM (ch_unpack c (ch_nodes c) d) (l1 ++ l2)) as [q|]; [|done]. cbn in *.
    injection IH as ->. by rewrite app_assoc.
Qed.
Lemma unpack_all_one d a p : ch_unpack c (ch_nodes c) d a = Some p -> unpack_all c d [a] = Some p.
Proof. intros E. unfold unpack_all. cbn. rewrite E. cbn. by rewrite app_nil_r. Qed.

Lemma chpath_unpack_fwd z l x L :
  z < n -> chpath (ch_fwd c) z l x L ->
  exists p u t, unpack_all c true (rev l) = Some p /\ ch_order c !! z = Some u /\ ch_order c !! x = Some t /\ route tail head w u t p L.
Proof.
  intros Hz. induction 1 as [|a l y x L v Ha Hl IH].
  - destruct (order_at z Hz) as (u & Hu & _ & _). exists [], u, u. do 3 (split; [done|]). apply route_nil.
  - destruct IH as (p & u & t & Hp & Hu & Ht & Hr). destruct (sarc_lt _ _ _ _ _ _ (co_fwd _ _ _ _ _ H) Ha) as [Hyn Hxn].
    destruct (ch_unpack_ok n true a y x v Hyn Ha) as (q & u' & t' & Hq & Hu' & Ht' & Hr').
    exists (p ++ q), u, t'. split.
    { cbn [rev]. eapply unpack_all_app; [done|]. apply unpack_all_one. unfold ch_nodes. by rewrite rank_len. }
    split; [done|]. split; [done|]. assert (u' = t) as -> by congruence. by eapply route_app.
Qed.
Lemma chpath_unpack_bwd z l x L :
  z < n -> chpath (ch_bwd c) z l x L ->
  exists p u t, unpack_all c false l = Some p /\ ch_order c !! x = Some u /\ ch_order c !! z = Some t /\ route tail head w u t p L.
Proof.
  intros Hz. induction 1 as [|a l y x L v Ha Hl IH].
  - destruct (order_at z Hz) as (u & Hu & _ & _). exists [], u, u. do 3 (split; [done|]). apply route_nil.
  - destruct IH as (p & u & t & Hp & Hu & Ht & Hr). destruct (sarc_lt _ _ _ _ _ _ (co_bwd _ _ _ _ _ H) Ha) as [Hyn Hxn].
    destruct (ch_unpack_ok n false a y x v Hyn Ha) as (q & u' & t' & Hq & Hu' & Ht' & Hr').
    exists (q ++ p), u', t. split.
    { change (a :: l) with ([a] ++ l). eapply unpack_all_app; [|done]. apply unpack_all_one. unfold ch_nodes. by rewrite rank_len. }
    split; [done|]. split; [done|]. assert (t' = u) as -> by congruence. rewrite N.add_comm. by eapply route_app.
Qed.
End ok.

(** ** Following the predecessors *)
Lemma climb_ok n g ss S Q s : side_ok n g -> sbase n g ss S Q s ->
  forall fuel x d, x < fuel -> x ∈ S ∪ dom Q -> s_dist s !! x = Some d ->
  exists l z d0 L, climb s fuel x = Some (l, z) /\ climb_end s fuel x = Some z /\ (z, d0) ∈ ss /\ z ∈ S ∪ dom Q /\
    chpath g z l x L /\ d = (d0 + L)%N.
Proof.
  intros Hg H. induction fuel as [|fuel IH]; intros x d Hx Hin Hd; [lia|]. cbn [climb climb_end].
  destruct (sb_pred _ _ _ _ _ _ H x d Hin Hd) as [[Hp Hs]|(y & a & v & dy & Hp & Hpa & Ha & Hy & Hdy & ->)].
  - rewrite Hp, !bind_S. exists [], x, d, 0%N. do 4 (split; [done|]). split; [constructor|lia].
  - rewrite Hp, !bind_S. rewrite (is_set_spec _ _ _ _ (sb_f _ _ _ _ _ _ H)) by (by eapply sb_lt).
    rewrite bool_decide_eq_true_2 by done. rewrite bind_S. cbn [chk]. rewrite bind_S, Hpa, !bind_S.
    pose proof (so_up _ _ Hg _ _ _ _ Ha).
    destruct (IH y dy) as (l & z & d0 & L & -> & -> & Hz & Hzin & Hcp & ->); [lia|by apply elem_of_union_l|done|].
    rewrite bind_S. exists (a :: l), z, d0, (L + v)%N. do 4 (split; [done|]). split; [by econstructor|lia].
Qed.
