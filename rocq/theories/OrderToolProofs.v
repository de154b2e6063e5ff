(** Proofs about OrderToolModel. *)
From Verif Require Import Base UtilSpec GraphSpec FlowModel FlowSpec NestedModel NestedSpec NestedSeparatorProofs InertialModel InertialSpec InertialProofs OrderToolModel OrderToolSpec Properties_Nested Properties_Inertial.

Ltac Zify.zify_post_hook ::= idtac.

Section Place.
  Context (nth_element : (nat -> nat -> bool) -> nat -> list nat -> list nat) (Hnth : nth_element_ok nth_element).

  Lemma weak_order_mono {A} (P Q : A -> Prop) less : (forall x, Q x -> P x) -> weak_order P less -> weak_order Q less.
  Proof.
    intros H [H1 H2 H3]. split.
    - intros x Hx. by apply H1, H.
    - intros x y z Hx Hy Hz. apply H2; by apply H.
    - intros x y z Hx Hy Hz. apply H3; by apply H.
  Qed.

  Lemma place_nodes_spec side n less : 2 * side <= n -> weak_order (fun x => x < n) less ->
    perm (place_nodes nth_element side n less) /\ length (place_nodes nth_element side n less) = n /\
    extremes less side (place_nodes nth_element side n less).
  Proof.
    intros Hs Hw. unfold place_nodes. cbv zeta.
    destruct (Hnth less side (seq 0 n)) as [P1 S1].
    { eapply weak_order_mono; [|exact Hw]. cbn. intros x Hx%elem_of_seq. lia. }
    { rewrite seq_length. lia. }
    set (v := nth_element less side (seq 0 n)) in *.
    assert (length v = n) as Lv by (rewrite P1; apply seq_length).
    assert (forall x, x ∈ v -> x < n) as Bv by (intros x Hx; rewrite P1 in Hx; apply elem_of_seq in Hx; lia).
    destruct (Hnth less (n - side - side) (drop side v)) as [P2 S2].
    { eapply weak_order_mono; [|exact Hw]. cbn. intros x Hx. apply Bv. rewrite <- (take_drop side v), elem_of_app. auto. }
    { rewrite drop_length. lia. }
    set (r := nth_element less (n - side - side) (drop side v)) in *.
    assert (length r = n - side) as Lr by (rewrite P2, drop_length; lia).
    assert (length (take side v) = side) as Lt by (rewrite take_length; lia).
    assert (take side v ++ r ≡ₚ seq 0 n) as Pv.
    { rewrite P2, take_drop. done. }
    assert (length (take side v ++ r) = n) as L by (rewrite Pv; apply seq_length).
    assert (forall x y, x ∈ take side v -> y ∈ drop side v -> less y x = false) as E1.
    { intros x y Hx Hy. apply elem_of_list_lookup in Hx as (i & Hi). apply elem_of_list_lookup in Hy as (j & Hj).
      apply lookup_take_Some in Hi as [Hi Hlt]. rewrite lookup_drop in Hj. eapply (S1 i (side + j)); eauto. lia. }
    split; [unfold perm; by rewrite L|]. split; [done|]. split; rewrite ?L.
    - intros x y Hx Hy. rewrite take_app_alt in Hx by done. rewrite drop_app_alt in Hy by done. apply E1; [done|]. by rewrite <- P2.
    - intros x y Hx Hy. rewrite drop_app_ge in Hy by lia. rewrite Lt in Hy.
      apply elem_of_list_lookup in Hy as (j & Hj). rewrite lookup_drop in Hj.
      rewrite take_app_ge in Hx by lia. rewrite Lt in Hx. apply elem_of_app in Hx as [Hx|Hx].
      + apply E1; [done|]. rewrite <- P2. by eapply elem_of_list_lookup_2.
      + apply elem_of_list_lookup in Hx as (i & Hi). apply lookup_take_Some in Hi as [Hi Hlt].
        eapply (S2 i (n - side - side + j)); [lia|lia|done|]. done.
  Qed.
End Place.

Lemma is_weak_order_spec n less : is_weak_order n less = true <-> weak_order (fun x => x < n) less.
Proof.
  unfold is_weak_order. rewrite forallb_forall. split.
  - intros H. split.
    + intros x Hx. specialize (H x). rewrite andb_true_iff, negb_true_iff in H. apply H. apply in_seq. lia.
    + intros x y z Hx Hy Hz H1 H2. specialize (H x ltac:(apply in_seq; lia)). apply andb_true_iff in H as [_ H]. rewrite forallb_forall in H.
      specialize (H y ltac:(apply in_seq; lia)). rewrite forallb_forall in H. specialize (H z ltac:(apply in_seq; lia)). rewrite H1, H2 in H. cbn in H.
      by destruct (less x z).
    + intros x y z Hx Hy Hz H1. specialize (H x ltac:(apply in_seq; lia)). apply andb_true_iff in H as [_ H]. rewrite forallb_forall in H.
      specialize (H y ltac:(apply in_seq; lia)). rewrite forallb_forall in H. specialize (H z ltac:(apply in_seq; lia)). rewrite H1 in H. cbn in H.
      apply andb_true_iff in H as [_ H]. by apply orb_true_iff in H.
  - intros [H1 H2 H3] x Hx. apply in_seq in Hx. rewrite (H1 x) by lia. cbn. apply forallb_forall. intros y Hy. apply in_seq in Hy.
    apply forallb_forall. intros z Hz. apply in_seq in Hz. apply andb_true_iff. split.
    + destruct (less x y) eqn:E1, (less y z) eqn:E2; cbn; try done. by rewrite (H2 x y z) by (done || lia).
    + destruct (less x z) eqn:E1; cbn; [|done]. apply orb_true_iff. by apply H3; [lia|lia|lia|].
Qed.

Section Separator.
  Context (asserts : bool) {F : Type} (fplus fminus : F -> F -> F) (flt : F -> F -> bool).
  Context (nth_element : (nat -> nat -> bool) -> nat -> list nat -> list nat) (Hnth : nth_element_ok nth_element).
  Context (garbage : fragment -> N -> nat -> list bool) (Hg : forall part b, garbage_ok part (garbage part b)).
  Context (latitude longitude : list F) (Hc : comparable fplus fminus flt latitude longitude).

  Lemma key_weak_order g i : (forall u, u ∈ fr_global g -> u < length latitude /\ u < length longitude) ->
    weak_order (fun x => x < fr_nodes g) (key_less fplus fminus flt latitude longitude g i).
  Proof.
    intros Hu. destruct Hc as (P & HP & HK).
    assert (forall x, x < fr_nodes g -> exists k, sort_key fplus fminus latitude longitude g i x = Some k /\ P k) as Hk.
    { intros x Hx. unfold sort_key. destruct (lookup_lt_is_Some_2 (fr_global g) x Hx) as [u E]. rewrite E, bind_S.
      destruct (Hu u) as [H1 H2]; [by eapply elem_of_list_lookup_2|].
      destruct (lookup_lt_is_Some_2 latitude u H1) as [a Ea]. destruct (lookup_lt_is_Some_2 longitude u H2) as [b Eb].
      rewrite Ea, bind_S, Eb, bind_S. destruct (HK u a b Ea Eb) as (? & ? & ? & ?). eexists. split; [done|]. by destruct i as [|[|[|i]]]. }
    unfold key_less. split.
    - intros x Hx. destruct (Hk x Hx) as (k & -> & Pk). by apply (wo_irrefl _ _ HP).
    - intros x y z Hx Hy Hz. destruct (Hk x Hx) as (k1 & -> & P1). destruct (Hk y Hy) as (k2 & -> & P2). destruct (Hk z Hz) as (k3 & -> & P3).
      by apply (wo_trans _ _ HP).
    - intros x y z Hx Hy Hz. destruct (Hk x Hx) as (k1 & -> & P1). destruct (Hk y Hy) as (k2 & -> & P2). destruct (Hk z Hz) as (k3 & -> & P3).
      by apply (wo_split _ _ HP).
  Qed.

  Definition places (g : fragment) (b : N) (i : nat) : list nat :=
    place_nodes nth_element (side_size (fr_nodes g) b) (fr_nodes g) (key_less fplus fminus flt latitude longitude g i).

  Lemma places_ok g b : 2 <= fr_nodes g -> (b <= 50)%N -> (forall u, u ∈ fr_global g -> u < length latitude /\ u < length longitude) -> orders_ok g (places g b).
  Proof.
    intros Hn Hb Hu i Hi. destruct (side_size_spec (fr_nodes g) b Hn Hb) as [_ H2].
    destruct (place_nodes_spec nth_element Hnth (side_size (fr_nodes g) b) (fr_nodes g) _ H2 (key_weak_order g i Hu)) as (H & H' & _). done.
  Qed.

  Lemma checks_pass g : (forall u, u ∈ fr_global g -> u < length latitude /\ u < length longitude) -> forall u,
    coordinate_separator asserts fplus fminus flt nth_element garbage latitude longitude u g = inertial_separator asserts places garbage u g.
  Proof.
    intros Hu u. unfold coordinate_separator.
    assert (forallb (fun id => (id <? length latitude) && (id <? length longitude)) (fr_global g) = true) as ->.
    { apply forallb_forall. intros x Hx. apply elem_of_list_In, Hu in Hx as [H1 H2]. apply andb_true_iff. by rewrite !Nat.ltb_lt. }
    cbn [chk]. rewrite bind_S.
    assert (forallb (fun i => is_weak_order (fr_nodes g) (key_less fplus fminus flt latitude longitude g i)) [0; 1; 2; 3] = true) as ->.
    { apply forallb_forall. intros i _. by apply is_weak_order_spec, key_weak_order. }
    done.
  Qed.

  Lemma best_of_three_places g : fragment_ok g -> 2 <= fr_nodes g -> (forall u, u ∈ fr_global g -> u < length latitude /\ u < length longitude) ->
    exists c, inertial_flow3 asserts g (places g) (garbage g) = Some c /\ proper g c /\
    (exists b, b ∈ [25%N; 33%N; 40%N] /\ inertial_flow asserts g b (places g b) (garbage g b) = Some c).
  Proof.
    intros Hok Hn Hu.
    destruct (C47_best_of_three asserts g (fun b => if decide (b <= 50)%N then places g b else example_orders g b) (garbage g) Hok Hn) as (c & E & Hp & (b & Hb & Eb) & _).
    { intros b. case_decide; [by apply places_ok|apply example_orders_ok]. }
    { apply Hg. }
    exists c. split; [|split; [done|]].
    - unfold inertial_flow3 in E |- *. by rewrite !decide_True in E by done.
    - exists b. split; [done|]. rewrite decide_True in Eb; [done|]. rewrite !elem_of_cons, elem_of_nil in Hb. destruct Hb as [-> |[-> |[-> |[]]]]; done.
  Qed.

  Lemma coordinates_progress g : (forall u, u ∈ fr_global g -> u < length latitude /\ u < length longitude) ->
    makes_progress g (coordinate_separator asserts fplus fminus flt nth_element garbage latitude longitude).
  Proof.
    intros Hu st part Hok Hconn Hn Hnd Hsub.
    assert (forall u, u ∈ fr_global part -> u < length latitude /\ u < length longitude) as Hu' by auto.
    rewrite checks_pass by done. unfold inertial_separator.
    destruct (best_of_three_places part Hok Hn Hu') as (c & -> & Hp & _). rewrite bind_S.
    destruct (pick_proper part c Hp) as (Hl & Hxy). destruct (derive_separator_spec part Hok _ Hl) as (sep & E & Hs & _). rewrite E, bind_S.
    exists tt, sep. split; [done|]. split; [done|]. by eapply (derive_separator_nonempty part Hok _ Hl).
  Qed.
End Separator.
