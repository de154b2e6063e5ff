(** What the programs that compute distances are meant to write. *)
From Verif Require Import Base GraphSpec PathSpec VectorIoModel WalkSpec.

(** Files with 32-bit numbers. *)
Definition id_file (l : list nat) : list N := concat ((fun x => le_bytes 4 (N.of_nat x)) <$> l).
Definition word_file (l : list N) : list N := concat (le_bytes 4 <$> l).
Definition fits32 (x : nat) : Prop := (N.of_nat x < 2 ^ 32)%N.

(** Lengths of the walks from [s] to [t], and the smallest of them, or inf_weight if there is none that is smaller. *)
Definition walk_length (tail head : list nat) (w : list N) (s t : nat) (L : N) : Prop := exists p, awalk tail head s p t /\ L = total w p.
Definition is_distance (tail head : list nat) (w : list N) (s t : nat) (x : N) : Prop := shortest_capped (walk_length tail head w s t) x.

(** A graph that can be stored in files of 32-bit numbers. *)
Record stored_graph (fo tail head : list nat) (w : list N) : Prop := {
  sg_csr : csr (length fo - 1) fo head;
  sg_tail : tails_ok fo tail head;
  sg_weight : length w = length head;
  sg_nodes : fits32 (length fo);
  sg_arcs : fits32 (length head);
  sg_words : Forall (fun x => x < 2 ^ 32)%N w }.
(** Queries within a graph with [n] nodes. *)
Definition stored_queries (n : nat) (source target : list nat) : Prop :=
  source <> [] /\ length source = length target /\ Forall (fun x => x < n) source /\ Forall (fun x => x < n) target.
(** Every node that can be reached from [s] by arcs shorter than inf_weight has a distance below inf_weight. *)
Definition distances_below (tail head : list nat) (w : list N) (s : nat) : Prop :=
  forall p v, awalk tail head s p v -> (forall e x, e ∈ p -> w !! e = Some x -> (x < inf_weight)%N) ->
  exists p', awalk tail head s p' v /\ (total w p' < inf_weight)%N.

(** The answers to all queries. *)
Definition answers (tail head : list nat) (w : list N) (source target : list nat) (dist : list N) : Prop :=
  length dist = length source /\ forall i s t x, source !! i = Some s -> target !! i = Some t -> dist !! i = Some x -> is_distance tail head w s t x.

(** Dijkstra ranks: [ord] lists the nodes that can be reached from [s] by increasing distance. *)
Definition ranked (tail head : list nat) (w : list N) (s : nat) (ord : list (nat * N)) : Prop :=
  NoDup (fst <$> ord) /\
  (forall v, v ∈ fst <$> ord <-> exists L, walk_length tail head w s v L /\ (L < inf_weight)%N) /\
  (forall v d, (v, d) ∈ ord -> is_distance tail head w s v d) /\
  (forall i j v d v' d', i <= j -> ord !! i = Some (v, d) -> ord !! j = Some (v', d') -> (d <= d')%N).
(** The queries from [s] (source, target, rank, distance): one for each [r >= 6] for which there is a node number [2^r], counted from 1. *)
Definition rank_queries_of (s : nat) (ord : list (nat * N)) (qs : list (nat * nat * nat * N)) : Prop :=
  forall i, (exists v d, qs !! i = Some (s, v, 6 + i, d) /\ ord !! (2 ^ (6 + i) - 1) = Some (v, d)) \/
    (qs !! i = None /\ ord !! (2 ^ (6 + i) - 1) = None).
