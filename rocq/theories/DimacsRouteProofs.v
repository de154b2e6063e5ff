From Verif Require Import Base UtilSpec GraphSpec PathSpec ProtobufModel PermutationModel DistanceToolModel DistanceToolSpec DistanceToolProofs TextModel TextSpec VectorToolSpec GraphToolModel GraphToolSpec GraphToolProofs CoordToolSpec DimacsRouteSpec WalkSpec.
Ltac Zify.zify_post_hook ::= idtac.

Section transfer.
  Context (n : nat) (fo tail head : list nat) (w : list N) (arcs : list (nat * nat * N)).
  Hypothesis Hs : stores n fo head w arcs.
  Hypothesis Ht : tails_ok fo tail head.
  Lemma arc_at e t h x : arcs !! e = Some (t, h, x) -> tail !! e = Some t /\ head !! e = Some h /\ w !! e = Some x.
  Proof. intros He. destruct Hs as (_ & _ & _ & H). destruct (H _ _ _ _ He) as (H1 & H2 & H3). split; [by apply Ht|done]. Qed.
  Lemma walk_text s p t : awalk tail head s p t -> exists r, text_route arcs s r t /\ total w p = text_length r /\ mapM (fun e => tail !! e) p = Some ((fun a => fst (fst a)) <$> r).
  Proof.
    induction 1 as [u|u e x p v He Hx _ IH].
    - exists []. split; [constructor|done].
    - destruct (lookup_lt_is_Some_2 arcs e) as [[[t1 h1] x1] Ha]. { destruct Hs as (_ & _ & -> & _). rewrite <- (proj1 Ht). by eapply lookup_lt_Some. }
      destruct (arc_at _ _ _ _ Ha) as (H1 & H2 & H3). rewrite H1 in He. injection He as ->. rewrite H2 in Hx. injection Hx as ->. destruct IH as (r & Hr & HL & Hm). exists ((u, x, x1) :: r).
      split; [constructor; [by eapply elem_of_list_lookup_2|done]|]. split.
      + change (total w (e :: p)) with (default 0%N (w !! e) + total w p)%N. rewrite H3, HL. done.
      + change (mapM (fun e => tail !! e) (e :: p)) with (b ← tail !! e; l ← mapM (fun e => tail !! e) p; Some (b :: l)). by rewrite H1, bind_S, Hm, bind_S.
  Qed.
  Lemma text_walk s r t : text_route arcs s r t -> exists p, awalk tail head s p t /\ total w p = text_length r.
  Proof.
    induction 1 as [u|t1 h1 x1 r v Ha _ (p & Hp & HL)].
    - exists []. split; [constructor|done].
    - apply elem_of_list_lookup in Ha as (e & Ha). destruct (arc_at _ _ _ _ Ha) as (H1 & H2 & H3). exists (e :: p). split; [by econstructor|].
      change (total w (e :: p)) with (default 0%N (w !! e) + total w p)%N. rewrite H3, HL. done.
  Qed.
  Lemma distance_text s t x : is_distance tail head w s t x -> text_distance arcs s t x.
  Proof.
    intros (H1 & H2 & H3). split; [done|]. split.
    - intros L (r & Hr & ->). destruct (text_walk _ _ _ Hr) as (p & Hp & HL). apply H2. exists p. by split.
    - destruct H3 as [H3|(p & Hp & HL)]; [by left|right]. destruct (walk_text _ _ _ Hp) as (r & Hr & HL' & _). exists r. split; [done|congruence].
  Qed.
End transfer.
Lemma text_route_sub arcs arcs' s r t : (forall a, a ∈ arcs -> a ∈ arcs') -> text_route arcs s r t -> text_route arcs' s r t.
Proof. intros H. induction 1; constructor; [by apply H|done]. Qed.
Lemma text_distance_same arcs arcs' s t x : (forall a, a ∈ arcs <-> a ∈ arcs') -> text_distance arcs s t x -> text_distance arcs' s t x.
Proof.
  intros H (H1 & H2 & H3). split; [done|]. split.
  - intros L (r & Hr & ->). apply H2. exists r. split; [|done]. eapply text_route_sub; [|done]. intros a. apply H.
  - destruct H3 as [H3|(r & Hr & HL)]; [by left|right]. exists r. split; [|done]. eapply text_route_sub; [|done]. intros a. apply H.
Qed.
Lemma sorted_same arcs arcs' : arcs_sorted arcs arcs' -> forall a, a ∈ arcs' <-> a ∈ arcs.
Proof.
  intros (r & [Hp _] & [Hl H]) a. assert (length r = length arcs) as Lr by (rewrite Hp, seq_length, fmap_length; done). rewrite fmap_length in Hp. split.
  - intros [i Hi]%elem_of_list_lookup_1. destruct (lookup_lt_is_Some_2 r i) as [x Hx]; [apply lookup_lt_Some in Hi; lia|]. rewrite (H _ _ Hx) in Hi. by eapply elem_of_list_lookup_2.
  - intros [x Hx]%elem_of_list_lookup_1. assert (x ∈ r) as [i Hi]%elem_of_list_lookup_1. { rewrite Hp, elem_of_seq. apply lookup_lt_Some in Hx. lia. }
    rewrite <- (H _ _ Hi) in Hx. by eapply elem_of_list_lookup_2.
Qed.
(** What the conversion of a graph writes, as a stored graph. *)
Lemma stores_graph n fo head w arcs : stores n fo head w arcs -> arcs_fit n arcs ->
  exists tail, stored_graph fo tail head w /\ invert_inverse_vector fo = Some tail /\ length fo - 1 = n.
Proof.
  intros (Hc & Hw & Hl & H) (Fn & Fm & Ha). assert (length fo - 1 = n) as Hn by (rewrite (csr_len _ _ _ Hc); lia). destruct (tails_exist fo head) as (tail & E & Ht); [by rewrite Hn|].
  exists tail. split; [|done]. split.
  - by rewrite Hn.
  - done.
  - done.
  - by rewrite (csr_len _ _ _ Hc).
  - by rewrite <- Hl.
  - apply Forall_lookup_2. intros e x He. destruct (lookup_lt_is_Some_2 arcs e) as [[[t h] x'] Hx]; [apply lookup_lt_Some in He; lia|]. destruct (H _ _ _ _ Hx) as (_ & _ & Hx'). rewrite He in Hx'. injection Hx' as <-.
    apply (Forall_lookup_1 _ _ _ _ Ha) in Hx. apply Hx.
Qed.
Lemma position_lines_bound ls ps : position_lines ls ps -> Forall (fun p => (Z.abs (snd (fst p)) <= 2 ^ 63)%Z /\ (Z.abs (snd p) <= 2 ^ 63)%Z) ps.
Proof.
  induction 1 as [|l ls ps _ _ IH|[[v x] y] l ls ps _ Hp _ IH]; [constructor|done|]. constructor; [|done]. cbn [fst snd]. destruct Hp as (l1 & l2 & l3 & l4 & z & _ & _ & _ & _ & _ & _ & _ & Hx & Hy). lia.
Qed.
Lemma positions_bound n ps lat lon file : positions_text n ps file -> positions n ps lat lon -> Forall (fun k => (Z.abs k <= 2 ^ 63)%Z) lat /\ Forall (fun k => (Z.abs k <= 2 ^ 63)%Z) lon.
Proof.
  intros (cs & hd & ls & _ & _ & _ & _ & Hls) (Hp & L1 & L2 & H). apply position_lines_bound in Hls. rewrite Forall_forall in Hls.
  assert (forall v, v < n -> exists x y, (v, x, y) ∈ ps) as Hex.
  { intros v Hv. assert (v ∈ ps.*1.*1) as Hin by (rewrite Hp, elem_of_seq; lia). rewrite <- list_fmap_compose in Hin. apply elem_of_list_fmap in Hin as ([[u x] y] & -> & Hin). by exists x, y. }
  split; apply Forall_lookup_2; intros v k Hk.
  - destruct (Hex v) as (x & y & Hin); [apply lookup_lt_Some in Hk; lia|]. destruct (H _ _ _ Hin) as [_ E]. rewrite Hk in E. injection E as ->. apply (Hls _ Hin).
  - destruct (Hex v) as (x & y & Hin); [apply lookup_lt_Some in Hk; lia|]. destruct (H _ _ _ Hin) as [E _]. rewrite Hk in E. injection E as ->. apply (Hls _ Hin).
Qed.
