(** src/contraction_hierarchy.cpp:1189-1286, check_contraction_hierarchy_for_errors. Line numbers refer
    to that file. *)
From Verif Require Import Base PermutationModel CchModel ChBuildModel.

(** constants.h:6 *)
Definition invalid_id32 : N := 4294967295.

(** include/routingkit/sort.h, is_sorted_using_less *)
Fixpoint is_sorted (v : list nat) : bool :=
  match v with
  | x :: ((y :: _) as r) => bool_decide (x <= y) && is_sorted r
  | _ => true
  end.

(** :1196-1219 (1199, 1221-1238): first_out has a last element if its size is right. The result is
    [false] if an exception is thrown. *)
Definition check_arrays (n : nat) (sd : chside) : bool :=
  bool_decide (length (cs_first_out sd) = S n) && bool_decide (cs_first_out sd !! 0 = Some 0) && is_sorted (cs_first_out sd) &&
  bool_decide (cs_first_out sd !! n = Some (length (cs_head sd))) &&
  bool_decide (length (cs_weight sd) = length (cs_head sd)) && bool_decide (length (cs_first sd) = length (cs_head sd)) &&
  bool_decide (length (cs_second sd) = length (cs_head sd)) && bool_decide (length (cs_orig sd) = length (cs_head sd)) &&
  forallb (fun y => bool_decide (y < n)) (cs_head sd).

(** :1240-1252, one direction *)
Definition check_upward (n : nat) (sd : chside) : option bool :=
  for_range 0 n (fun x ok =>
    lo ← cs_first_out sd !! x; hi ← cs_first_out sd !! S x;
    for_range lo hi (fun xy ok => y ← cs_head sd !! xy; Some (ok && bool_decide (x < y))) ok) true.

(** :1254-1272 ([d]) and 1274-1282. The tests read the arrays of the other direction only after the
    ids were found to be in range; once a test has failed nothing is read. *)
Definition check_entry (n : nat) (f b : chside) (d : bool) (xy : nat) : option bool :=
  let sd := if d then f else b in
  o ← cs_orig sd !! xy; first ← cs_first sd !! xy; second ← cs_second sd !! xy;
  if (o : bool) then Some (negb (N.of_nat first =? invalid_id32)%N && bool_decide (second < n))
  else if negb (bool_decide (first < length (cs_head b) /\ second < length (cs_head f) /\ (if d then second else first) < xy)) then Some false else
    w ← cs_weight sd !! xy; w1 ← cs_weight b !! first; w2 ← cs_weight f !! second;
    Some (w =? add32 w1 w2)%N.
Definition check_entries (n : nat) (f b : chside) (d : bool) : option bool :=
  for_range 0 (length (cs_head (if d then f else b))) (fun xy ok =>
    if negb ok then Some false else check_entry n f b d xy) true.

(** :1189-1286: [Some true] if the function returns and [Some false] if it throws. *)
Definition check_ch (c : ch) : option bool :=
  let n := length (ch_rank c) in
  inv ← invert_permutation (ch_order c);
  if negb (bool_decide (ch_rank c = inv) && check_arrays n (ch_fwd c) && check_arrays n (ch_bwd c)) then Some false else
  u1 ← check_upward n (ch_fwd c); u2 ← check_upward n (ch_bwd c);
  if negb (u1 && u2) then Some false else
  e1 ← check_entries n (ch_fwd c) (ch_bwd c) true;
  if negb e1 then Some false else check_entries n (ch_fwd c) (ch_bwd c) false.
