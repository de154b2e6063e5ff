(** Model of the arc clean-up of src/contraction_hierarchy.cpp:17-81. [None] is undefined
    behaviour or a violated assertion. The log messages (22-26, 77-80) are left out. *)
From Verif Require Import Base PermutationModel GraphUtilModel.

(** The four arrays the function works on (contraction_hierarchy.cpp:18). *)
Record arcs4 := mkArcs4 { a_tail : list nat; a_head : list nat; a_weight : list N; a_id : list nat }.

(** contraction_hierarchy.cpp:42-45 and 57-60: overwrite arc [out] with arc [inp]. *)
Definition copy_arc (s : arcs4) (out inp : nat) : option arcs4 :=
  t ← a_tail s !! inp; tl ← wr (a_tail s) out t;
  h ← a_head s !! inp; hd ← wr (a_head s) out h;
  w ← a_weight s !! inp; ws ← wr (a_weight s) out w;
  i ← a_id s !! inp; is ← wr (a_id s) out i;
  Some (mkArcs4 tl hd ws is).

(** contraction_hierarchy.cpp:40-47, one round of the loop that drops the loops. The state
    has the arrays and [out]. *)
Definition drop_loop_step (inp : nat) (st : arcs4 * nat) : option (arcs4 * nat) :=
  let '(s, out) := st in
  t ← a_tail s !! inp; h ← a_head s !! inp;
  if decide (t = h) then Some (s, out) else
  s ← copy_arc s out inp; Some (s, S out).

(** contraction_hierarchy.cpp:55-68, one round of the loop that merges parallel arcs. *)
Definition merge_step (inp : nat) (st : arcs4 * nat) : option (arcs4 * nat) :=
  let '(s, out) := st in
  t0 ← a_tail s !! (inp - 1); t ← a_tail s !! inp;
  h0 ← a_head s !! (inp - 1); h ← a_head s !! inp;
  if decide (t0 = t /\ h0 = h) then
    w ← a_weight s !! inp; w0 ← a_weight s !! (out - 1);
    if decide (w < w0)%N then
      ws ← wr (a_weight s) (out - 1) w;
      i ← a_id s !! inp; is ← wr (a_id s) (out - 1) i;
      Some (mkArcs4 (a_tail s) (a_head s) ws is, out)
    else Some (s, out)
  else s ← copy_arc s out inp; Some (s, S out).

(** contraction_hierarchy.cpp:17-81. [vector.erase(begin+arc_count, end)] (72-75) is [take].
    Line 29 sorts [tail] in place. *)
Definition sort_arcs_and_remove_multi_and_loop_arcs (asserts : bool) (node_count : nat) (s : arcs4) : option arcs4 :=
  '(p, tl) ← compute_inverse_sort_permutation_first_by_tail_then_by_head_and_apply_sort_to_tail asserts node_count (a_tail s) (a_head s);
  hd ← apply_inverse_permutation p (a_head s);
  ws ← apply_inverse_permutation p (a_weight s);
  is ← apply_inverse_permutation p (a_id s);
  let s := mkArcs4 tl hd ws is in
  let arc_count := length (a_head s) in
  '(s, arc_count) ← (if decide (arc_count = 0) then Some (s, arc_count)
                     else for_range 0 arc_count drop_loop_step (s, 0));
  '(s, arc_count) ← (if decide (arc_count = 0) then Some (s, arc_count)
                     else for_range 1 arc_count merge_step (s, 1));
  Some (mkArcs4 (take arc_count (a_tail s)) (take arc_count (a_head s)) (take arc_count (a_weight s)) (take arc_count (a_id s))).

(** contraction_hierarchy.cpp:1107-1111 and 1153-1157: the ids start as the identity. *)
Definition clean_arcs (asserts : bool) (node_count : nat) (tail head : list nat) (weight : list N) : option arcs4 :=
  ids ← identity_permutation (length head);
  sort_arcs_and_remove_multi_and_loop_arcs asserts node_count (mkArcs4 tail head weight ids).
