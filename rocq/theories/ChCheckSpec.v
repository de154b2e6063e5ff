(** The conditions that check_contraction_hierarchy_for_errors is to test, independent of how the code
    goes through the arrays. *)
From Verif Require Import Base UtilSpec GraphSpec ChBuildModel ChSpec.

(** Ids and weights are 32-bit numbers; the largest id stands for "invalid". *)
Definition last_id : N := 4294967295.
(** What the check demands of the entry of arc [e] of the forward ([d]) or backward direction. *)
Definition entry_valid (n : nat) (f b : chside) (d : bool) (e : nat) : Prop :=
  exists o p q, side_entry (if d then f else b) e o p q /\
    if (o : bool) then N.of_nat p <> last_id /\ q < n
    else (if d then q else p) < e /\ exists v w1 w2, cs_weight (if d then f else b) !! e = Some v /\
      cs_weight b !! p = Some w1 /\ cs_weight f !! q = Some w2 /\ v = ((w1 + w2) mod 4294967296)%N.
Record ch_valid (c : ch) : Prop := {
  cv_rank : inverse_of (ch_order c) (ch_rank c);
  cv_fwd : side_ok (length (ch_rank c)) (ch_fwd c);
  cv_bwd : side_ok (length (ch_rank c)) (ch_bwd c);
  cv_entry : forall (d : bool) (e : nat), e < length (cs_head (if d then ch_fwd c else ch_bwd c)) ->
    entry_valid (length (ch_rank c)) (ch_fwd c) (ch_bwd c) d e }.
