(** Specification of cuts in the fragments of nested_dissection.h. *)
From Verif Require Import Base GraphSpec FlowModel.

(** A fragment stores every edge as two arcs that know each other; this is what the commented out body of
    assert_fragment_is_valid (nested_dissection.cpp:15-39) checks. *)
Record fragment_ok (g : fragment) : Prop := {
  fo_csr : csr (fr_nodes g) (fr_first_out g) (fr_head g);
  fo_tail_len : length (fr_tail g) = length (fr_head g);
  fo_tail : forall x a, fr_tail g !! a = Some x <-> out_arc (fr_first_out g) x a;
  fo_back_len : length (fr_back g) = length (fr_head g);
  fo_back : forall a b, fr_back g !! a = Some b -> fr_back g !! b = Some a;
  fo_swap : forall a b, fr_back g !! a = Some b -> fr_tail g !! b = fr_head g !! a /\ fr_head g !! b = fr_tail g !! a }.

(** Node [x] is marked in [S]. *)
Definition node_in (S : list bool) (x : nat) : bool := default false (S !! x).
(** [S] contains all nodes of [A] and none of [B]. *)
Definition separates (g : fragment) (S A B : list bool) : Prop :=
  length S = fr_nodes g /\ (forall x, node_in A x = true -> node_in S x = true) /\ (forall x, node_in B x = true -> node_in S x = false).
(** The arcs that lead out of [S]. *)
Definition leaves (g : fragment) (S : list bool) (a : nat) : bool :=
  match fr_tail g !! a, fr_head g !! a with Some x, Some y => node_in S x && negb (node_in S y) | _, _ => false end.
Definition cut_arcs (g : fragment) (S : list bool) : nat := length (filter (fun a => leaves g S a = true) (seq 0 (fr_arcs g))).

(** Where a flow can start: with disjoint sets of sources and of targets. *)
Definition flow_start (g : fragment) (source target : list bool) : Prop :=
  length source = fr_nodes g /\ length target = fr_nodes g /\ (forall x, node_in source x = true -> node_in target x = false).

(** [c] is a minimum cut that has [A] on its side and [B] on the other. *)
Definition minimum_cut (g : fragment) (A B : list bool) (c : cut_side) : Prop :=
  separates g (c_side c) A B /\
  c_size c = cut_arcs g (c_side c) /\
  (forall S, separates g S A B -> c_size c <= cut_arcs g S) /\
  c_count c = length (filter (fun x => node_in (c_side c) x = true) (seq 0 (fr_nodes g))).

(** A user who calls advance (nested_dissection.cpp:408-415) [k] times. *)
Fixpoint advances (g : fragment) (asserts : bool) (k : nat) (f : flow) : option flow :=
  match k with 0 => Some f | S k => f ← advance g asserts f; advances g asserts k f end.
