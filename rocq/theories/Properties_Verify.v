(** C57: the checks of verify.cpp accept exactly the arrays that are meant, and min_max.h finds the first best element. *)
From Verif Require Import Base ProtobufModel ChFileModel GraphSpec VerifyModel VerifySpec VerifyProofs.

(** The check of a graph, for any arrays with at least one element in first_out; it either returns or throws. *)
Theorem C57_graph_partial fo head : fo <> [] ->
  exists r, check_if_graph_is_valid fo head = Some r /\ (r = Ret tt <-> csr (length fo - 1) fo head).
Proof. apply check_graph_spec. Qed.
Print Assumptions C57_graph_partial.
(** What is missing: a file with an empty first_out is not refused, its front is read. *)
Theorem C57_empty_first_out_refuted : exists head, check_if_graph_is_valid [] head = None.
Proof. by exists []. Qed.
Print Assumptions C57_empty_first_out_refuted.
Example C57_graph_accepts : check_if_graph_is_valid [0; 2; 2; 3] [1; 2; 0] = Some (Ret tt) /\ csr 3 [0; 2; 2; 3] [1; 2; 0].
Proof. split; [done|]. destruct (C57_graph_partial [0; 2; 2; 3] [1; 2; 0]) as (r & E & H); [done|]. apply H. by injection E as <-. Qed.
Example C57_graph_throws : check_if_graph_is_valid [0; 2; 1; 3] [1; 2; 0] = Some Throw /\ check_if_graph_is_valid [0; 2; 2; 3] [1; 3; 0] = Some Throw /\
  check_if_graph_is_valid [0; 2; 2; 3] [1; 2] = Some Throw /\ check_if_graph_is_valid [1; 2; 2; 3] [1; 2; 0] = Some Throw.
Proof. done. Qed.

(** Interpolation points: the arrays are accepted exactly if they store one sorted list of points for each arc, none of
    them empty, with departure times within the period. *)
Theorem C57_points_partial period f dep tr : f <> [] ->
  exists r, check_if_arc_ipp_are_valid period f dep tr = Some r /\ (r = Ret tt <-> ipps_ok period (length f - 1) f dep tr).
Proof. apply check_ipp_spec. Qed.
Print Assumptions C57_points_partial.
Theorem C57_empty_points_refuted : exists period dep tr, check_if_arc_ipp_are_valid period [] dep tr = None.
Proof. by exists 10, [], []. Qed.
Print Assumptions C57_empty_points_refuted.
Theorem C57_td_graph_partial period fo head f dep tr : fo <> [] ->
  exists r, check_if_td_graph_is_valid period fo head f dep tr = Some r /\ (r = Ret tt <-> csr (length fo - 1) fo head /\ ipps_ok period (length head) f dep tr).
Proof. apply check_td_spec. Qed.
Print Assumptions C57_td_graph_partial.
Example C57_td_accepts : check_if_td_graph_is_valid 10 [0; 1; 2] [1; 0] [0; 2; 3] [3; 7; 0] [5; 6; 7] = Some (Ret tt) /\
  ipps_ok 10 2 [0; 2; 3] [3; 7; 0] [5; 6; 7].
Proof. split; [done|]. destruct (C57_td_graph_partial 10 [0; 1; 2] [1; 0] [0; 2; 3] [3; 7; 0] [5; 6; 7]) as (r & E & H); [done|]. apply H. by injection E as <-. Qed.
Example C57_td_throws : check_if_td_graph_is_valid 10 [0; 1; 2] [1; 0] [0; 2; 3] [7; 3; 0] [5; 6; 7] = Some Throw /\
  check_if_td_graph_is_valid 10 [0; 1; 2] [1; 0] [0; 3; 3] [3; 7; 8] [5; 6; 7] = Some Throw /\
  check_if_td_graph_is_valid 10 [0; 1; 2] [1; 0] [0; 2; 3] [3; 10; 0] [5; 6; 7] = Some Throw /\
  check_if_td_graph_is_valid 10 [0; 1; 2] [1; 0] [] [] [] = Some Throw /\
  check_if_td_graph_is_valid 10 [0; 1; 2] [1; 0] [0; 2; 3] [3; 7; 0] [5; 6] = Some Throw.
Proof. done. Qed.
(** Queries. *)
Theorem C57_queries period n s st t rk : exists r, check_if_sst_queries_are_valid period n s st t rk = Some r /\ (r = Ret tt <-> queries_ok period n s st t rk).
Proof. apply check_queries_spec. Qed.
Print Assumptions C57_queries.
Example C57_queries_accepts : queries_ok 10 4 [1; 3] [0; 9] [2; 2] [7; 8] /\ ~ queries_ok 10 4 [1; 4] [0; 9] [2; 2] [7; 8].
Proof.
  split.
  - destruct (C57_queries 10 4 [1; 3] [0; 9] [2; 2] [7; 8]) as (r & E & H). apply H. by injection E as <-.
  - destruct (C57_queries 10 4 [1; 4] [0; 9] [2; 2] [7; 8]) as (r & E & H). intros Hq. apply H in Hq. injection E as <-. done.
Qed.

(** min_max.h *)
Theorem C57_first_position_partial {T} (better : T -> T -> bool) v : strict_order better -> v <> [] ->
  exists pos, first_position_of better v = Some pos /\ first_best better v pos.
Proof. apply first_position_spec. Qed.
Print Assumptions C57_first_position_partial.
Theorem C57_element_partial {T} (better : T -> T -> bool) v : strict_order better -> v <> [] ->
  exists x, element_of better v = Some x /\ x ∈ v /\ forall y, y ∈ v -> better y x = false.
Proof. apply element_of_spec. Qed.
Print Assumptions C57_element_partial.
(** An empty vector: the position is 0 (there is no such element), the element is out of range; the version with a
    default value returns that value. *)
Theorem C57_empty_vector_refuted : exists v, first_position_of (fun x y => x <? y) v = Some 0 /\ element_of (fun x y => x <? y) v = None /\ v !! 0 = None.
Proof. by exists []. Qed.
Print Assumptions C57_empty_vector_refuted.
Theorem C57_element_or {T} (better : T -> T -> bool) v d : strict_order better ->
  exists x, element_of_or better v d = Some x /\ (v = [] /\ x = d \/ x ∈ v /\ forall y, y ∈ v -> better y x = false).
Proof.
  intros Ho. destruct v as [|a v]; [exists d; split; [done|by left]|]. destruct (element_of_spec better (a :: v) Ho) as (x & E & H); [done|]. exists x. split; [exact E|by right].
Qed.
Print Assumptions C57_element_or.
Theorem C57_to_best {T} (better : T -> T -> bool) x y : strict_order better ->
  (to_best better x y = x \/ to_best better x y = y) /\ better x (to_best better x y) = false /\ better y (to_best better x y) = false.
Proof.
  intros (Hirr & Htr & _). unfold to_best. destruct (better y x) eqn:E.
  - split; [by right|]. split; [|apply Hirr]. destruct (better x y) eqn:E'; [|done]. rewrite <- (Hirr x). symmetry. by apply (Htr x y x).
  - split; [by left|]. by split; [apply Hirr|].
Qed.
Print Assumptions C57_to_best.
Example C57_minima : strict_order (fun x y : nat => x <? y) /\ strict_order (fun x y : nat => y <? x) /\
  first_position_of (fun x y => x <? y) [5; 2; 9; 2; 9] = Some 1 /\ first_position_of (fun x y => y <? x) [5; 2; 9; 2; 9] = Some 2 /\
  max_element_of [5; 2; 9; 2; 9] = Some 9 /\ min_element_of [5; 2; 9; 2; 9] = Some 2 /\ to_best (fun x y => x <? y) 4 3 = 3 /\ to_best (fun x y => y <? x) 4 3 = 4.
Proof. split; [apply order_min|]. split; [apply order_max|]. done. Qed.
