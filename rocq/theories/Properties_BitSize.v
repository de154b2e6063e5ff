(** C81: sizes of bit vectors with 64 bits, and the replacement of aligned_alloc. *)
From Verif Require Import Base BitVectorModel BitSizeModel BitSizeProofs.
Local Open Scope N_scope.

(** Sizes up to 2^64 - 512: the memory is large enough for the bits, less than one block more is allocated, and the numbers are the ones of BitVectorModel.
    Missing: larger sizes, for which it is false. *)
Theorem C81_counts_partial : forall n, n <= 2 ^ 64 - 512 ->
  n <= 8 * u8_count64 n /\ 8 * u8_count64 n < n + 512 /\ u8_count64 n = 8 * u64_count64 n /\ (64 | u8_count64 n) /\
  forall n', n = N.of_nat n' -> v8_count64 n = N.of_nat (v8_count n') /\ u64_count64 n = N.of_nat (u64_count n') /\ u8_count64 n = N.of_nat (u8_count n').
Proof.
  intros n H. destruct (v8_count64_spec n H) as (H1 & H2 & E1 & E2). rewrite E1, E2. split; [clear - H1; lia|]. split; [clear - H2; lia|]. split; [clear; lia|]. split; [exists (v8_count64 n); reflexivity|].
  intros n' ->. destruct (v8_count64_model n' H) as (M1 & M2 & M3). rewrite <- E1, <- E2. auto.
Qed.
Print Assumptions C81_counts_partial.
Example C81_counts_ex : u8_count64 1000 = 128 /\ u8_count64 1024 = 128 /\ u8_count64 1025 = 192 /\ u8_count64 (2 ^ 64 - 512) = 2 ^ 61 - 64.
Proof. vm_compute. auto. Qed.
(** The largest sizes: no memory at all is allocated. *)
Theorem C81_counts_refuted : exists n, n < 2 ^ 64 /\ 8 * u8_count64 n < n /\ u8_count64 n = 0.
Proof. exists (2 ^ 64 - 1). vm_compute. auto. Qed.
Print Assumptions C81_counts_refuted.

(** make_large_enough_for: the loop ends with the least power of two that is larger. Missing: indices from 2^63 on. *)
Theorem C81_grow_partial : forall x, x < 2 ^ 63 -> exists fuel n i, grow64 fuel 1 x = Some n /\ n = 2 ^ i /\ n < 2 ^ 64 /\ x < n /\ forall j, x < 2 ^ j -> n <= 2 ^ j.
Proof.
  intros x H. destruct (grow64_spec x H) as (fuel & n & i & H1 & H2 & H3 & H4 & H5). exists fuel, n, i. split; [exact H1|]. split; [exact H2|].
  split; [rewrite H2; apply N.pow_lt_mono_r; [reflexivity|clear - H3; lia]|]. split; [exact H4|].
  intros j Hj. rewrite H2. apply N.pow_le_mono_r; [discriminate|]. destruct (N.le_gt_cases i j) as [L|L]; [exact L|]. exfalso.
  assert (2 * 2 ^ j <= 2 ^ i) as L'. { replace (2 * 2 ^ j) with (2 ^ (j + 1)) by (rewrite N.pow_add_r; change (2 ^ 1) with 2; lia). apply N.pow_le_mono_r; [discriminate|clear - L; lia]. }
  rewrite H2 in H5. clear - L' H5 Hj. set (a := 2 ^ i) in *. set (b := 2 ^ j) in *. lia.
Qed.
Print Assumptions C81_grow_partial.
Example C81_grow_ex : grow64 63 1 1000 = Some 1024 /\ grow64 63 1 1024 = Some 2048 /\ grow64 63 1 (2 ^ 63 - 1) = Some (2 ^ 63).
Proof. vm_compute. auto. Qed.
(** From 2^63 on, the power of two becomes 0 and the loop does not end. *)
Theorem C81_grow_refuted : exists x, x < 2 ^ 64 /\ forall fuel, grow64 fuel 1 x = None.
Proof. exists (2 ^ 63). split; [reflexivity|]. intros fuel. apply grow64_loops. apply N.le_refl. Qed.
Print Assumptions C81_grow_refuted.

(** The replacement of aligned_alloc when malloc returned the block of [size + al] bytes at [p]: the address is a multiple of the alignment, the [size] bytes from
    it on are in the block, the byte before them too, and no other byte is written. Whatever the program then writes to its bytes, and whatever else it allocates, aligned_free
    gives back exactly this block. Missing: malloc returned a null pointer. *)
Theorem C81_aligned_partial : forall p al size m, p <> 0 -> 0 < al -> al < 256 -> p + (size + al) < 2 ^ 64 ->
  exists a m', emulated_aligned_alloc p al size m = Some (a, m') /\ (al | a) /\ p < a /\ a + size <= p + (size + al) /\
    allocated m' = (p, size + al) :: allocated m /\ (forall b, ~ (p <= b < p + (size + al)) -> bytes m' b = bytes m b) /\
    forall m2 l1 l2, allocated m2 = l1 ++ (p, size + al) :: l2 -> Forall (fun r => fst r <> p) (l1 ++ l2) ->
      (forall b, p <= b < p + (size + al) -> ~ (a <= b < a + size) -> bytes m2 b = bytes m' b) ->
      emulated_aligned_free a m2 = Some (mkRaw (bytes m2) (l1 ++ l2)).
Proof.
  intros p al size m Hp H1 H2 H3. destruct (alloc_spec p al size m Hp H1 H2 H3) as (a & m' & E & Hd & L1 & L2 & Ha & Hb & Hc).
  exists a, m'. split; [exact E|]. split; [exact Hd|]. split; [exact L1|]. split; [exact L2|]. split; [exact Ha|]. split.
  - intros b Hn. apply Hc. intros ->. apply Hn. clear - L1 L2 H1. lia.
  - intros m2 l1 l2 Hl Hf Hw. apply (free_spec p a (size + al)); [exact Hp|exact L1|clear - L2; lia|eapply N.le_lt_trans; [|exact H3]; clear - L2; lia| |exact Hl|exact Hf].
    rewrite <- Hb. apply Hw; clear - L1 L2 H1; lia.
Qed.
Print Assumptions C81_aligned_partial.
Example C81_aligned_ex : exists m, emulated_aligned_alloc 1000 64 128 (mkRaw (fun _ => 7) [(5000, 10)]) = Some (1024, m) /\
  allocated m = [(1000, 192); (5000, 10)] /\ bytes m 1023 = 24 /\ bytes m 1022 = 7 /\ (allocated <$> emulated_aligned_free 1024 m) = Some [(5000, 10)].
Proof.
  destruct (emulated_aligned_alloc 1000 64 128 (mkRaw (fun _ => 7) [(5000, 10)])) as [[a m]|] eqn:E; [|vm_compute in E; discriminate].
  exists m. vm_compute in E. injection E as <- <-. repeat split.
Qed.
(** Freeing the null pointer, which a vector of size 0 and one that was moved from hold, does nothing, whatever the memory holds; in particular nothing is read from it. *)
Theorem C81_free_null : forall m, emulated_aligned_free 0 m = Some m.
Proof. intros m. reflexivity. Qed.
Print Assumptions C81_free_null.
Example C81_free_null_ex : (allocated <$> emulated_aligned_free 0 (mkRaw (fun _ => 7) [(5000, 10)])) = Some [(5000, 10)].
Proof. reflexivity. Qed.
(** When malloc fails, the replacement does not return a null pointer, for which the constructors test (c:182, 198, 232), but writes to the address 63. *)
Theorem C81_aligned_refuted : exists size m, size < 2 ^ 64 /\ valid_address m 63 = false /\ emulated_aligned_alloc 0 64 size m = None /\
  forall m', valid_address m' 63 = true -> exists m2, emulated_aligned_alloc 0 64 size m' = Some (64, m2).
Proof.
  exists 128, (mkRaw (fun _ => 0) [(5000, 10)]). split; [reflexivity|]. split; [reflexivity|]. split; [vm_compute; reflexivity|].
  intros m' Hv. unfold emulated_aligned_alloc, write_byte. change (malloc 0 _ m') with m'. change (u64 (u64 (u64 (0 + 64) / 64 * 64) + (2 ^ 64 - 1))) with 63. rewrite Hv.
  eexists. reflexivity.
Qed.
Print Assumptions C81_aligned_refuted.
