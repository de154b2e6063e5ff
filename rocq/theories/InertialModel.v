(** src/nested_dissection.cpp: inertial flow. Line numbers refer to that file. The coordinates only decide in which order
    std::nth_element leaves the nodes (452-453, keys 506-532); here this order is an argument, which may be any permutation. The log messages
    are left out, and so are the assertions of the constructor of BlockingFlow about its two sets, see [C47_sets]. *)
From Verif Require Import Base FlowModel NestedModel.

Section Inertial.
  Context (asserts : bool).

  (** :455-462, 464-470: a bit vector with the bits of some nodes *)
  Definition mark_nodes (n : nat) (v : list nat) : option (list bool) := for_each v (fun x r => wr r x true) (replicate n false).
  (** :443-473; [v] is the array after both calls of std::nth_element. These need source_end <= target_begin. *)
  Definition select_source_and_target (side n : nat) (v : list nat) : option (list bool * list bool) :=
    chk (implb asserts (side <=? n / 2));;
    chk ((side <=? n) && (side <=? n - side));;
    source ← mark_nodes n (take side v);
    target ← mark_nodes n (drop (n - side) v);
    Some (source, target).

  (** :503-505; the product has 32 bits *)
  Definition side_size (n : nat) (min_balance : N) : nat :=
    let s := N.to_nat ((N.of_nat n * min_balance) mod 4294967296 / 100)%N in
    if s =? 0 then 1 else s.

  (** :536-555; the cutters: horizontal, vertical, main diagonal, next diagonal *)
  Definition next_cutter (fs : list flow) : option nat :=
    match f_intensity <$> fs with
    | [h; v; m; n] => Some (if (h <=? v) && (h <=? m) && (h <=? n) then 0 else if (v <=? m) && (v <=? n) then 1 else if m <=? n then 2 else 3)
    | _ => None
    end.
  (** :557-582; the loop ends with a finished cutter; every call of advance finishes a cutter or adds to its flow *)
  Fixpoint inertial_loop (g : fragment) (fuel : nat) (fs : list flow) : option cut_side :=
    match fuel with
    | 0 => None
    | S fuel =>
      i ← next_cutter fs;
      c ← fs !! i;
      if f_finished c then get_balanced_cut g asserts c
      else c ← advance g asserts c; fs ← wr fs i c; inertial_loop g fuel fs
    end.
  (** :484-583; [orders]: what std::nth_element makes of the nodes for the four keys; [garbage]: what the memory of is_arc_blocked contains *)
  Definition inertial_flow (g : fragment) (min_balance : N) (orders : nat -> list nat) (garbage : nat -> list bool) : option cut_side :=
    let side := side_size (fr_nodes g) min_balance in
    '(s0, t0) ← select_source_and_target side (fr_nodes g) (orders 0);
    '(s1, t1) ← select_source_and_target side (fr_nodes g) (orders 1);
    '(s2, t2) ← select_source_and_target side (fr_nodes g) (orders 2);
    '(s3, t3) ← select_source_and_target side (fr_nodes g) (orders 3);
    inertial_loop g (4 * (fr_arcs g + 1) + 1)
      [make_flow g s0 t0 (garbage 0); make_flow g s1 t1 (garbage 1); make_flow g s2 t2 (garbage 2); make_flow g s3 t3 (garbage 3)].

  (** :597-607: the cut with the fewest arcs per node *)
  Definition best_of_three (c25 c33 c40 : cut_side) : cut_side :=
    if (c_size c25 * c_count c33 <? c_size c33 * c_count c25) && (c_size c25 * c_count c40 <? c_size c40 * c_count c25) then c25
    else if c_size c33 * c_count c40 <? c_size c40 * c_count c33 then c33
    else c40.
  (** :586-609; [orders] and [garbage] by balance and key *)
  Definition inertial_flow3 (g : fragment) (orders : N -> nat -> list nat) (garbage : N -> nat -> list bool) : option cut_side :=
    c25 ← inertial_flow g 25 (orders 25%N) (garbage 25%N);
    c33 ← inertial_flow g 33 (orders 33%N) (garbage 33%N);
    c40 ← inertial_flow g 40 (orders 40%N) (garbage 40%N);
    Some (best_of_three c25 c33 c40).

  (** :868-876; [orders] and [garbage] may be different for every fragment *)
  Definition inertial_separator (orders : fragment -> N -> nat -> list nat) (garbage : fragment -> N -> nat -> list bool) (_ : unit) (g : fragment) : option (unit * list bool) :=
    c ← inertial_flow3 g (orders g) (garbage g);
    sep ← derive_separator g (c_side (pick_smaller_side c));
    Some (tt, sep).
  (** :851-879 *)
  Definition nested_dissection_order_using_inertial_flow (n : nat) (tail head : list nat) (orders : fragment -> N -> nat -> list nat) (garbage : fragment -> N -> nat -> list bool) : option (list nat) :=
    g ← make_graph_fragment asserts n tail head;
    nested_dissection_order asserts (inertial_separator orders garbage) (S n) tt g.
End Inertial.
