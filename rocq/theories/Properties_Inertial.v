(** C47: inertial flow. *)
From Verif Require Import Base UtilSpec GraphSpec FlowModel FlowSpec FlowCutProofs Properties_Flow NestedModel NestedSpec NestedSeparatorProofs Properties_Nested InertialModel InertialSpec InertialProofs.

Ltac Zify.zify_post_hook ::= idtac.

(** The sets that the code gives to BlockingFlow meet its assertions (nested_dissection.cpp:97-105): they have the size of the graph, are not empty and are disjoint. *)
Theorem C47_sets : forall asserts g b v, 2 <= fr_nodes g -> (b <= 50)%N -> perm v -> length v = fr_nodes g ->
  exists A B, select_source_and_target asserts (side_size (fr_nodes g) b) (fr_nodes g) v = Some (A, B) /\ first_last g (side_size (fr_nodes g) b) v A B /\
    flow_start g A B /\ (exists x, node_in A x = true) /\ (exists x, node_in B x = true).
Proof.
  intros asserts g b v Hn Hb Hp Hl. destruct (side_size_spec (fr_nodes g) b Hn Hb) as [Hs H2]. destruct (select_spec asserts g _ v Hp Hl Hs H2) as (A & B & E & F).
  exists A, B. split; [done|]. split; [done|]. split; [by eapply first_last_start|]. by eapply first_last_nonempty.
Qed.
Print Assumptions C47_sets.

(** The four cutters: the result is a minimum cut between the first and the last nodes of one of the four orders, no cut between the first and
    the last nodes of any of the orders is smaller, and both sides have at least side_size nodes. *)
Theorem C47_flow : forall asserts g b orders garbage, fragment_ok g -> 2 <= fr_nodes g -> (b <= 50)%N -> orders_ok g orders -> garbage_ok g garbage ->
  exists c, inertial_flow asserts g b orders garbage = Some c /\
    (exists i A B, i < 4 /\ first_last g (side_size (fr_nodes g) b) (orders i) A B /\ (minimum_cut g A B c \/ minimum_cut g B A c)) /\
    (forall i A B S, i < 4 -> first_last g (side_size (fr_nodes g) b) (orders i) A B -> separates g S A B -> c_size c <= cut_arcs g S) /\
    side_size (fr_nodes g) b <= c_count c /\ c_count c + side_size (fr_nodes g) b <= fr_nodes g.
Proof.
  intros asserts g b orders garbage Hok Hn Hb Ho Hg. destruct (inertial_flow_spec asserts g Hok Hn b Hb orders garbage Ho Hg) as (c & E & Hc & Hmin). exists c.
  split; [done|]. split; [done|]. split; [done|]. destruct Hc as (i & A & B & Hi & F & Hcut). destruct (Ho i Hi) as [Hp Hl]. destruct (side_size_spec (fr_nodes g) b Hn Hb) as [_ H2].
  by eapply minimum_cut_balance.
Qed.
Print Assumptions C47_flow.

(** The size of the sides is the given part of the nodes, as long as the product has 32 bits. *)
Theorem C47_side_size : forall n b, (N.of_nat n * b < 4294967296)%N -> side_size n b = Nat.max 1 (n * N.to_nat b / 100).
Proof.
  intros n b H. unfold side_size. rewrite N.mod_small by done. rewrite N2Nat.inj_div, N2Nat.inj_mul, Nat2N.id. change (N.to_nat 100) with 100.
  destruct (Nat.eqb_spec (n * N.to_nat b / 100) 0); lia.
Qed.
Print Assumptions C47_side_size.
(** Otherwise it is not: a graph with 2^28 nodes asks for at least 67 million nodes on the sides of a cut and gets 24 million. *)
Theorem C47_side_size_refuted : exists n b, b ∈ [25%N; 33%N; 40%N] /\ (N.of_nat n < 4294967296)%N /\ side_size n b <> Nat.max 1 (n * N.to_nat b / 100).
Proof.
  assert (forall n b, (0 < N.of_nat n * b mod 4294967296 / 100)%N -> (N.of_nat n * b mod 4294967296 / 100 < N.of_nat n * b / 100)%N -> side_size n b <> Nat.max 1 (n * N.to_nat b / 100)) as H.
  { intros n b H0 H1. unfold side_size. destruct (Nat.eqb_spec (N.to_nat ((N.of_nat n * b) mod 4294967296 / 100)) 0); [lia|].
    assert (n * N.to_nat b / 100 = N.to_nat (N.of_nat n * b / 100)) as -> by (by rewrite N2Nat.inj_div, N2Nat.inj_mul, Nat2N.id). lia. }
  exists (N.to_nat 268435456), 25%N. rewrite N2Nat.id. split; [by left|]. split; [done|]. apply H; rewrite N2Nat.id; by vm_compute.
Qed.
Print Assumptions C47_side_size_refuted.

(** The cut that is used is the best of three: no other has fewer arcs per node of its side. *)
Theorem C47_best_of_three : forall asserts g orders garbage, fragment_ok g -> 2 <= fr_nodes g ->
  (forall b, orders_ok g (orders b)) -> (forall b, garbage_ok g (garbage b)) ->
  exists c, inertial_flow3 asserts g orders garbage = Some c /\ proper g c /\
    (exists b, b ∈ [25%N; 33%N; 40%N] /\ inertial_flow asserts g b (orders b) (garbage b) = Some c) /\
    (forall b d, b ∈ [25%N; 33%N; 40%N] -> inertial_flow asserts g b (orders b) (garbage b) = Some d -> c_size c * c_count d <= c_size d * c_count c).
Proof.
  intros asserts g orders garbage Hok Hn Ho Hg. unfold inertial_flow3.
  assert (forall b, (b <= 50)%N -> exists c, inertial_flow asserts g b (orders b) (garbage b) = Some c /\ 0 < c_count c) as H.
  { intros b Hb. destruct (C47_flow asserts g b (orders b) (garbage b) Hok Hn Hb (Ho b) (Hg b)) as (c & E & _ & _ & Hc & _). exists c. split; [done|].
    pose proof (side_size_spec (fr_nodes g) b Hn Hb). lia. }
  destruct (H 25%N ltac:(done)) as (c25 & E25 & P25). destruct (H 33%N ltac:(done)) as (c33 & E33 & P33). destruct (H 40%N ltac:(done)) as (c40 & E40 & P40).
  rewrite E25, bind_S, E33, bind_S, E40, bind_S. exists (best_of_three c25 c33 c40). split; [done|].
  assert (exists b, b ∈ [25%N; 33%N; 40%N] /\ inertial_flow asserts g b (orders b) (garbage b) = Some (best_of_three c25 c33 c40)) as Hex.
  { pose proof (best_of_three_in c25 c33 c40) as Hin. rewrite !elem_of_cons, elem_of_nil in Hin. destruct Hin as [-> |[-> |[-> |[]]]].
    - exists 25%N. split; [by left|done].
    - exists 33%N. split; [by right; left|done].
    - exists 40%N. split; [by right; right; left|done]. }
  split; [|split; [done|]].
  - destruct Hex as (b & Hb & E). eapply inertial_flow_proper; [exact Hok|exact Hn| |exact (Ho b)|exact (Hg b)|exact E].
    rewrite !elem_of_cons, elem_of_nil in Hb. destruct Hb as [-> |[-> |[-> |[]]]]; done.
  - intros b d Hb E. apply best_of_three_spec; [done..|]. rewrite !elem_of_cons, elem_of_nil in Hb. rewrite !elem_of_cons. destruct Hb as [-> |[-> |[-> |[]]]].
    + rewrite E25 in E. injection E as <-. auto.
    + rewrite E33 in E. injection E as <-. auto.
    + rewrite E40 in E. injection E as <-. auto.
Qed.
Print Assumptions C47_best_of_three.

(** Inertial flow meets what C38 asks of a function that computes separators. *)
Theorem C47_progress : forall asserts g orders garbage,
  (forall part b, orders_ok part (orders part b)) -> (forall part b, garbage_ok part (garbage part b)) -> makes_progress g (inertial_separator asserts orders garbage).
Proof.
  intros asserts g orders garbage Ho Hg st part Hok Hconn Hn _ _. unfold inertial_separator.
  destruct (C47_best_of_three asserts part (orders part) (garbage part) Hok Hn (Ho part) (Hg part)) as (c & -> & Hc & _). rewrite bind_S.
  destruct (pick_proper part c Hc) as (Hl & Hxy). destruct (derive_separator_spec part Hok _ Hl) as (sep & E & Hs & _). rewrite E, bind_S.
  exists tt, sep. split; [done|]. split; [done|]. by eapply (derive_separator_nonempty part Hok _ Hl).
Qed.
Print Assumptions C47_progress.

(** The order computed by compute_nested_node_dissection_order_using_inertial_flow is a permutation; missing is again the graph without nodes. *)
Theorem C47_order_partial : forall asserts n tail head orders garbage,
  length tail = length head -> (forall x, x ∈ tail -> x < n) -> (forall x, x ∈ head -> x < n) -> 0 < n ->
  (forall part b, orders_ok part (orders part b)) -> (forall part b, garbage_ok part (garbage part b)) ->
  exists order, nested_dissection_order_using_inertial_flow asserts n tail head orders garbage = Some order /\ perm order /\ length order = n.
Proof.
  intros asserts n tail head orders garbage Hl Ht Hh Hn Ho Hg.
  destruct (C38_order_partial asserts unit (inertial_separator asserts orders garbage) tt n tail head Hl Ht Hh Hn) as (g & order & E & E' & H).
  { intros g _. by apply C47_progress. }
  exists order. unfold nested_dissection_order_using_inertial_flow. by rewrite E, bind_S, E'.
Qed.
Print Assumptions C47_order_partial.

(** The whole decomposition *)
Theorem C47_decomposition_partial : forall asserts n tail head orders garbage,
  length tail = length head -> (forall x, x ∈ tail -> x < n) -> (forall x, x ∈ head -> x < n) -> 0 < n ->
  (forall part b, orders_ok part (orders part b)) -> (forall part b, garbage_ok part (garbage part b)) ->
  exists g d, make_graph_fragment asserts n tail head = Some g /\ separator_decomposition asserts (inertial_separator asserts orders garbage) (S n) tt g = Some (tt, d) /\ is_decomposition g d.
Proof.
  intros asserts n tail head orders garbage Hl Ht Hh Hn Ho Hg. destruct (C38_make_graph_fragment asserts n tail head Hl Ht Hh) as (g & E & Hok & Hgl & _).
  assert (fr_nodes g = n) as En by (unfold fr_nodes; by rewrite Hgl, seq_length).
  destruct (C38_decomposition_partial asserts unit (inertial_separator asserts orders garbage) (S n) tt g Hok) as ([] & d & Ed & Hd); [rewrite Hgl; apply NoDup_seq|lia|by apply C47_progress|lia|].
  by exists g, d.
Qed.
Print Assumptions C47_decomposition_partial.

(** Orders from the ids of the nodes, once ascending, once with the even ids first, and the reverse of both *)
Definition example_orders (g : fragment) (b : N) (i : nat) : list nat :=
  let n := fr_nodes g in
  match i with
  | 0 => seq 0 n
  | 1 => filter (fun x => Nat.even x = true) (seq 0 n) ++ filter (fun x => ~ Nat.even x = true) (seq 0 n)
  | 2 => reverse (seq 0 n)
  | _ => reverse (filter (fun x => Nat.even x = true) (seq 0 n) ++ filter (fun x => ~ Nat.even x = true) (seq 0 n))
  end.
Definition example_garbage (g : fragment) (b : N) (i : nat) : list bool := replicate (fr_arcs g) (i =? 1).
Lemma even_odd l : filter (fun x => Nat.even x = true) l ++ filter (fun x => ~ Nat.even x = true) l ≡ₚ l.
Proof.
  induction l as [|x l IH]; [done|]. rewrite !filter_cons. destruct (decide (Nat.even x = true)) as [H|H].
  - rewrite (decide_False (P := ~ Nat.even x = true)) by tauto. cbn [app]. by rewrite IH.
  - rewrite (decide_True (P := ~ Nat.even x = true)) by tauto. rewrite <- Permutation_middle. by rewrite IH.
Qed.
Example example_orders_ok : forall g b, orders_ok g (example_orders g b).
Proof.
  intros g b i Hi.
  assert (example_orders g b i ≡ₚ seq 0 (fr_nodes g)) as H.
  { destruct i as [|[|[|[|i]]]]; cbn [example_orders]; [done| | | |lia].
    - apply even_odd.
    - apply reverse_Permutation.
    - rewrite reverse_Permutation. apply even_odd. }
  pose proof (Permutation_length H) as Hl. rewrite seq_length in Hl. split; [|done]. unfold perm. by rewrite Hl.
Qed.
Example example_garbage_ok : forall g b, garbage_ok g (example_garbage g b).
Proof. intros g b i _. apply replicate_length. Qed.

Example C47_flow_ex : inertial_flow true flow_example 25 (example_orders flow_example 25) (example_garbage flow_example 25) = Some (mkCut 3 2 [true; true; true; false; false; false]).
Proof. by vm_compute. Qed.
Example C47_order_ex :
  nested_dissection_order_using_inertial_flow true 13 [0; 1; 2; 3; 4; 5; 6; 8; 9; 10; 10] [1; 2; 3; 4; 5; 6; 7; 9; 10; 8; 11] example_orders example_garbage =
    Some [2; 1; 0; 7; 6; 5; 4; 3; 9; 11; 10; 8; 12].
Proof. vm_compute. reflexivity. Qed.
