(** Proofs about BitSizeModel. *)
From Verif Require Import Base BitVectorModel BitSizeModel.
Local Open Scope N_scope.

Lemma u64_id x : x < 2 ^ 64 -> u64 x = x.
Proof. intros H. unfold u64. by apply N.mod_small. Qed.
Lemma div_up x d : 0 < d -> x <= (x + (d - 1)) / d * d /\ (x + (d - 1)) / d * d < x + d.
Proof.
  intros Hd. pose proof (N.div_mod (x + (d - 1)) d ltac:(lia)) as E. pose proof (N.mod_lt (x + (d - 1)) d ltac:(lia)) as L.
  rewrite N.mul_comm. set (q := d * ((x + (d - 1)) / d)) in *. lia.
Qed.
Lemma v8_count64_spec n : n <= 2 ^ 64 - 512 ->
  n <= v8_count64 n * 512 /\ v8_count64 n * 512 < n + 512 /\ u64_count64 n = v8_count64 n * 8 /\ u8_count64 n = v8_count64 n * 64.
Proof.
  intros H. assert (v8_count64 n = (n + 511) / 512) as E. { unfold v8_count64. rewrite u64_id; [done|]. change (2 ^ 64 - 512) with 18446744073709551104 in H. change (2 ^ 64) with 18446744073709551616. lia. }
  pose proof (div_up n 512 ltac:(lia)) as [H1 H2]. change (512 - 1) with 511 in *. rewrite <- E in H1, H2.
  change (2 ^ 64 - 512) with 18446744073709551104 in H.
  unfold u64_count64, u8_count64. rewrite !u64_id; [auto| |]; change (2 ^ 64) with 18446744073709551616; lia.
Qed.
Lemma v8_count64_model n : N.of_nat n <= 2 ^ 64 - 512 ->
  v8_count64 (N.of_nat n) = N.of_nat (v8_count n) /\ u64_count64 (N.of_nat n) = N.of_nat (u64_count n) /\ u8_count64 (N.of_nat n) = N.of_nat (u8_count n).
Proof.
  intros H. destruct (v8_count64_spec _ H) as (_ & _ & -> & ->).
  assert (v8_count64 (N.of_nat n) = N.of_nat (v8_count n)) as ->.
  { unfold v8_count64, v8_count. rewrite Nat2N.inj_div, Nat2N.inj_add, u64_id; [done|]. change (2 ^ 64 - 512) with 18446744073709551104 in H. change (2 ^ 64) with 18446744073709551616. lia. }
  unfold u64_count, u8_count. rewrite !Nat2N.inj_mul. done.
Qed.

Lemma grow64_from k j x : x < 2 ^ (j + N.of_nat k) -> j + N.of_nat k <= 63 -> 2 ^ j <= 2 * x + 1 -> exists n i, grow64 k (2 ^ j) x = Some n /\ n = 2 ^ i /\ j <= i <= 63 /\ x < n /\ n <= 2 * x + 1.
Proof.
  revert j. induction k as [|k IH]; intros j Hx Hj Hb; cbn [grow64]; destruct (N.leb_spec (2 ^ j) x) as [L|L].
  - replace (j + N.of_nat 0) with j in Hx by lia. lia.
  - exists (2 ^ j), j. repeat split; try done; lia.
  - assert (2 * 2 ^ j = 2 ^ (j + 1)) as E by (rewrite N.pow_add_r; lia).
    rewrite u64_id. 2:{ rewrite E. apply N.pow_lt_mono_r; lia. } rewrite E.
    destruct (IH (j + 1)) as (n & i & H1 & H2 & H3 & H4 & H5); [by replace (j + 1 + N.of_nat k) with (j + N.of_nat (S k)) by lia|lia|rewrite <- E; lia|].
    exists n, i. repeat split; try done; lia.
  - exists (2 ^ j), j. repeat split; try done; lia.
Qed.
Lemma grow64_spec x : x < 2 ^ 63 -> exists fuel n i, grow64 fuel 1 x = Some n /\ n = 2 ^ i /\ i <= 63 /\ x < n /\ n <= 2 * x + 1.
Proof. intros H. exists 63%nat. destruct (grow64_from 63 0 x) as (n & i & H1 & H2 & H3 & H4 & H5); [done|done|cbn; lia|]. exists n, i. repeat split; try done; lia. Qed.
Lemma grow64_zero k x : grow64 k 0 x = None.
Proof. induction k as [|k IH]; cbn [grow64]; (destruct (N.leb_spec 0 x); [|lia]); done. Qed.
Lemma grow64_loops_from k j x : 2 ^ 63 <= x -> j <= 63 -> grow64 k (2 ^ j) x = None.
Proof.
  intros Hx. revert j. induction k as [|k IH]; intros j Hj; cbn [grow64]; (destruct (N.leb_spec (2 ^ j) x) as [L|L]; [|pose proof (N.pow_le_mono_r 2 j 63 ltac:(lia) Hj); lia]); [done|].
  destruct (N.eq_dec j 63) as [->|Hn]; [change (u64 (2 * 2 ^ 63)) with 0; apply grow64_zero|].
  assert (2 * 2 ^ j = 2 ^ (j + 1)) as E by (rewrite N.pow_add_r; lia).
  rewrite u64_id; [rewrite E; apply IH; lia|]. rewrite E. apply N.pow_lt_mono_r; lia.
Qed.
Lemma grow64_loops k x : 2 ^ 63 <= x -> grow64 k 1 x = None.
Proof. intros H. by apply (grow64_loops_from k 0). Qed.

Lemma aligned_bounds p al : 0 < al -> p < (p + al) / al * al /\ (p + al) / al * al <= p + al.
Proof.
  intros Ha. pose proof (N.div_mod (p + al) al ltac:(lia)) as E. pose proof (N.mod_lt (p + al) al ltac:(lia)) as L.
  rewrite N.mul_comm. set (q := al * ((p + al) / al)) in *. lia.
Qed.
Lemma u64_minus a b : b <= a -> a < 2 ^ 64 -> u64 (a + (2 ^ 64 - b)) = a - b.
Proof. intros H1 H2. unfold u64. replace (a + (2 ^ 64 - b)) with ((a - b) + 1 * 2 ^ 64) by lia. rewrite N.mod_add by (intros ?; discriminate). apply N.mod_small. lia. Qed.

Lemma alloc_spec p al size m : p <> 0 -> 0 < al -> al < 256 -> p + (size + al) < 2 ^ 64 ->
  exists a m', emulated_aligned_alloc p al size m = Some (a, m') /\ (al | a) /\ p < a /\ a + size <= p + (size + al) /\
    allocated m' = (p, size + al) :: allocated m /\ bytes m' (a - 1) = a - p /\ (forall b, b <> a - 1 -> bytes m' b = bytes m b).
Proof.
  intros Hp Ha Hb Hs. pose proof (aligned_bounds p al Ha) as [H1 H2]. exists ((p + al) / al * al). set (a := (p + al) / al * al) in *.
  unfold emulated_aligned_alloc. rewrite (u64_id (size + al)), (u64_id (p + al)) by lia. fold a. rewrite (u64_id a) by lia.
  rewrite (u64_minus a p) by lia. rewrite (u64_minus a 1) by lia. unfold malloc. destruct (N.eqb_spec p 0); [done|]. unfold write_byte.
  assert (valid_address (mkRaw (bytes m) ((p, size + al) :: allocated m)) (a - 1) = true) as ->.
  { unfold valid_address. cbn [existsb allocated]. apply orb_true_iff. left. unfold in_range. cbn [fst snd]. apply andb_true_iff. split; [apply N.leb_le; lia|apply N.ltb_lt; lia]. }
  cbn [chk]. rewrite !bind_S. eexists. split; [done|]. split; [exists ((p + al) / al); done|]. split; [done|]. split; [lia|]. cbn. split; [done|]. split.
  - rewrite N.eqb_refl. apply N.mod_small. lia.
  - intros b Hne. destruct (N.eqb_spec b (a - 1)); done.
Qed.
Lemma filter_others p (l : list (N * N)) : Forall (fun r => fst r <> p) l -> List.filter (fun r => negb (fst r =? p)) l = l.
Proof. induction 1 as [|r l Hr _ IH]; [done|]. cbn. destruct (N.eqb_spec (fst r) p); [done|]. cbn. by rewrite IH. Qed.
Lemma free_spec p a sz m l1 l2 : p <> 0 -> p < a -> a <= p + sz -> a < 2 ^ 64 -> bytes m (a - 1) = a - p ->
  allocated m = l1 ++ (p, sz) :: l2 -> Forall (fun r => fst r <> p) (l1 ++ l2) ->
  emulated_aligned_free a m = Some (mkRaw (bytes m) (l1 ++ l2)).
Proof.
  intros Hp H1 H2 H3 Hb Hl Hf. unfold emulated_aligned_free. destruct (N.eqb_spec a 0); [lia|]. rewrite (u64_minus a 1) by lia. unfold read_byte.
  assert (valid_address m (a - 1) = true) as ->.
  { unfold valid_address. rewrite Hl, existsb_app. apply orb_true_iff. right. cbn [existsb]. apply orb_true_iff. left. unfold in_range. cbn [fst snd]. apply andb_true_iff. split; [apply N.leb_le; lia|apply N.ltb_lt; lia]. }
  cbn [chk]. rewrite !bind_S, Hb, (u64_minus a (a - p)) by lia. replace (a - (a - p)) with p by lia.
  unfold free. destruct (N.eqb_spec p 0); [done|].
  assert (existsb (fun r => fst r =? p) (allocated m) = true) as ->.
  { rewrite Hl, existsb_app. apply orb_true_iff. right. cbn [existsb fst]. by rewrite N.eqb_refl. }
  cbn [chk]. rewrite bind_S. f_equal. f_equal. rewrite Hl. apply Forall_app in Hf as [F1 F2].
  rewrite List.filter_app. cbn [List.filter fst]. rewrite N.eqb_refl. cbn [negb]. by rewrite !filter_others.
Qed.
