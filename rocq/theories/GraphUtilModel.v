(** Model of src/graph_util.cpp. [asserts] tells whether assertions are compiled
    in (the project's Makefile passes -DNDEBUG, i.e. [asserts = false]). Only the
    assertions whose truth is not implied by memory safety are parametrised. *)
From Verif Require Import Base PermutationModel SortModel.

(** graph_util.cpp:21-24: linear scan of the adjacency range [xy, hi). The outer
    option is undefined behaviour, the inner one [invalid_id]. *)
Fixpoint find_arc_loop (head : list nat) (y : nat) (n xy : nat) : option (option nat) :=
  match n with
  | O => Some None
  | S n' => h ← head !! xy;
      if decide (h = y) then Some (Some xy) else find_arc_loop head y n' (S xy)
  end.

(** graph_util.cpp:17-25 *)
Definition find_arc_or_return_invalid (first_out head : list nat) (x y : nat) : option (option nat) :=
  _ ← chk (bool_decide (x < length first_out - 1));
  _ ← chk (bool_decide (y < length first_out - 1));
  lo ← first_out !! x; hi ← first_out !! S x;
  find_arc_loop head y (hi - lo) lo.

(** graph_util.cpp:11-15: asserts that the arc exists (a missing arc is [None]
    here; without assertions the code returns invalid_id). *)
Definition find_arc (first_out head : list nat) (x y : nat) : option nat :=
  r ← find_arc_or_return_invalid first_out head x y; r.

(** std::lower_bound on [head.begin()+first, head.begin()+first+len): the usual
    halving loop of the C++ standard library. *)
Fixpoint lower_bound_loop (head : list nat) (y fuel first len : nat) : option nat :=
  match fuel with
  | O => Some first
  | S fuel' =>
      if decide (len = 0) then Some first else
      let half := len / 2 in
      h ← head !! (first + half);
      if decide (h < y) then lower_bound_loop head y fuel' (first + half + 1) (len - half - 1)
      else lower_bound_loop head y fuel' first half
  end.

(** graph_util.cpp:33-49. The is_sorted assertion of line 41 is the theorem's
    hypothesis. *)
Definition find_arc_or_return_invalid_given_sorted_head (first_out head : list nat) (x y : nat) : option (option nat) :=
  _ ← chk (bool_decide (x < length first_out - 1));
  _ ← chk (bool_decide (y < length first_out - 1));
  lo ← first_out !! x; hi ← first_out !! S x;
  pos ← lower_bound_loop head y (hi - lo) lo (hi - lo);
  if decide (pos = hi) then Some None
  else h ← head !! pos; if decide (h <> y) then Some None else Some (Some pos).

(** graph_util.cpp:27-31 *)
Definition find_arc_given_sorted_head (first_out head : list nat) (x y : nat) : option nat :=
  r ← find_arc_or_return_invalid_given_sorted_head first_out head x y; r.

(** graph_util.cpp:52-66. The inner loop (55-61) runs until it finds the arc; the
    assertion of line 56 is the end of the range, reaching it is [None]. *)
Definition convert_node_path_to_arc_path (first_out head : list nat) (path : list nat) : option (list nat) :=
  match path with
  | [] => Some []
  | _ =>
      path ← for_range 0 (length path - 1)
        (fun i path =>
           x ← path !! i; y ← path !! S i;
           lo ← first_out !! x; hi ← first_out !! S x;
           r ← find_arc_loop head y (hi - lo) lo;
           xy ← r;
           wr path i xy) path;
      Some (take (length path - 1) path)                    (* :63 pop_back *)
  end.

(** graph_util.cpp:72-73: [for(i = i0; i > 1; --i)] as recursion on [i]. *)
Fixpoint convert_arc_path_loop (head : list nat) (i : nat) (path : list nat) : option (list nat) :=
  match i with
  | S ((S _) as i') =>
      a ← path !! i'; h ← head !! a; path ← wr path i h; convert_arc_path_loop head i' path
  | _ => Some path
  end.

(** graph_util.cpp:69-77. [resize] appends a value-initialised 0. *)
Definition convert_arc_path_to_node_path (source : nat) (head path : list nat) : option (list nat) :=
  match path with
  | [] => Some []
  | _ =>
      path ← convert_arc_path_loop head (length path) (path ++ [0]);
      wr path 0 source
  end.

Section lexsort.
Context (asserts : bool).

(** graph_util.cpp:90,102,116,130: [assert(is_sorted_using_less(a))]. *)
Definition assert_sorted (a : list nat) : option unit :=
  if asserts then chk (is_sorted_using_key id a) else Some tt.

(** graph_util.cpp:82-92. [a] is a const reference: std::move copies, and line 90
    checks the unmodified [a]. *)
Definition compute_inverse_sort_permutation_first_by_left_then_by_right
    (a_count : nat) (a : list nat) (b_count : nat) (b : list nat) : option (list nat) :=
  p ← compute_inverse_stable_sort_permutation_using_key id b b_count;
  a' ← apply_inverse_permutation p a;
  q ← compute_inverse_stable_sort_permutation_using_key id a' a_count;
  _ ← assert_sorted a;
  chain_permutation_first_left_then_right q p.

(** graph_util.cpp:94-104 *)
Definition compute_sort_permutation_first_by_left_then_by_right
    (a_count : nat) (a : list nat) (b_count : nat) (b : list nat) : option (list nat) :=
  p ← compute_stable_sort_permutation_using_key id b b_count;
  a' ← apply_permutation p a;
  q ← compute_stable_sort_permutation_using_key id a' a_count;
  _ ← assert_sorted a;
  chain_permutation_first_left_then_right p q.

(** graph_util.cpp:106-118; returns (permutation, new [a]). *)
Definition compute_sort_permutation_first_by_left_then_by_right_and_apply_sort_to_left
    (a_count : nat) (a : list nat) (b_count : nat) (b : list nat) : option (list nat * list nat) :=
  p ← compute_stable_sort_permutation_using_key id b b_count;
  a1 ← apply_permutation p a;
  q ← compute_stable_sort_permutation_using_key id a1 a_count;
  a2 ← apply_permutation q a1;
  _ ← assert_sorted a2;
  r ← chain_permutation_first_left_then_right p q;
  Some (r, a2).

(** graph_util.cpp:120-132 *)
Definition compute_inverse_sort_permutation_first_by_left_then_by_right_and_apply_sort_to_left
    (a_count : nat) (a : list nat) (b_count : nat) (b : list nat) : option (list nat * list nat) :=
  p ← compute_inverse_stable_sort_permutation_using_key id b b_count;
  a1 ← apply_inverse_permutation p a;
  q ← compute_inverse_stable_sort_permutation_using_key id a1 a_count;
  a2 ← apply_inverse_permutation q a1;
  _ ← assert_sorted a2;
  r ← chain_permutation_first_left_then_right q p;
  Some (r, a2).

(** graph_util.cpp:134-140 *)
Definition compute_inverse_sort_permutation_first_by_tail_then_by_head_and_apply_sort_to_tail
    (node_count : nat) (tail head : list nat) :=
  compute_inverse_sort_permutation_first_by_left_then_by_right_and_apply_sort_to_left node_count tail node_count head.
(** graph_util.cpp:142-148 *)
Definition compute_sort_permutation_first_by_tail_then_by_head_and_apply_sort_to_tail
    (node_count : nat) (tail head : list nat) :=
  compute_sort_permutation_first_by_left_then_by_right_and_apply_sort_to_left node_count tail node_count head.
(** graph_util.cpp:150-156 *)
Definition compute_inverse_sort_permutation_first_by_tail_then_by_head (node_count : nat) (tail head : list nat) :=
  compute_inverse_sort_permutation_first_by_left_then_by_right node_count tail node_count head.
(** graph_util.cpp:158-164 *)
Definition compute_sort_permutation_first_by_tail_then_by_head (node_count : nat) (tail head : list nat) :=
  compute_sort_permutation_first_by_left_then_by_right node_count tail node_count head.
End lexsort.
