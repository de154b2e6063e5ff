(** The bulk operations of bit vectors. *)
From Verif Require Import Base CchCustomizeProofs BitVectorModel BitVectorSpec BitVectorProofs.
Ltac Zify.zify_post_hook ::= Z.div_mod_to_equations.

(** ** Construction *)
Lemma rep_empty : bv_rep bv_empty [].
Proof. split; try done. - constructor. - intros x. rewrite bit_at_out; [by destruct x|cbn; lia]. Qed.
Lemma nth_replicate' {A} n (a b : A) x : nth x (replicate n a) b = if decide (x < n) then a else b.
Proof. rewrite nth_lookup. case_decide; [by rewrite lookup_replicate_2|]. by rewrite (proj1 (lookup_replicate_None n a x)) by lia. Qed.
Lemma words_replicate n w : word w -> words (replicate n w).
Proof. intros. by apply Forall_replicate. Qed.

Lemma uninit_spec g n : length g = u64_count n -> words g -> exists v l, bv_uninit g n = Some v /\ bv_rep v l /\ length l = n.
Proof.
  intros Hg Hw. unfold bv_uninit. case_decide as H.
  - subst n. exists bv_empty, []. split; [done|]. split; [apply rep_empty|done].
  - rewrite bool_decide_true by done. cbn [chk]. bs.
    destruct (reset_padding_spec (mkBv false n g)) as (v & -> & Hr & Hs & _ & Hb); [done|].
    exists v, ((fun x => bit_at g x) <$> seq 0 n). split; [done|]. split; [|by rewrite fmap_length, seq_length].
    apply bits_of; [done|done|]. intros x. rewrite Hb. cbn [bv_data bv_size]. apply andb_comm.
Qed.
Lemma new_spec n b : exists v, bv_new n b = Some v /\ bv_rep v (replicate n b) /\ (n <> 0 -> bv_null v = false).
Proof.
  unfold bv_new. case_decide as H.
  - subst n. exists bv_empty. split; [done|]. split; [apply rep_empty|done].
  - assert (forall x, bit_at (replicate (u64_count n) (if b then ones64 else 0%N)) x = bool_decide (x < 64 * u64_count n) && b) as Hbit.
    { intros x. unfold bit_at. rewrite nth_replicate'. case_decide.
      - rewrite bool_decide_true by lia. destruct b; [by rewrite ones_bit by lia|apply N.bits_0].
      - rewrite bool_decide_false by lia. apply N.bits_0. }
    assert (raw (mkBv false n (replicate (u64_count n) (if b then ones64 else 0%N)))) as Hr.
    { split; [apply replicate_length|]. split; [|done]. apply words_replicate. by destruct b. }
    assert (replicate n b = (fun _ => b) <$> seq 0 n) as E.
    { apply list_eq. intros i. rewrite list_lookup_fmap. destruct (decide (i < n)); [rewrite lookup_replicate_2, lookup_seq_lt by done; done|].
      rewrite lookup_seq_ge by lia. by rewrite (proj1 (lookup_replicate_None n b i)) by lia. }
    destruct b.
    + destruct (reset_padding_spec _ Hr) as (v & -> & Hr' & Hs & Hn & Hb). exists v. split; [done|]. split; [|done]. rewrite E.
      apply bits_of; [done|done|]. intros x. rewrite Hb, Hbit. cbn [bv_size]. rewrite !andb_true_r. unfold u64_count, v8_count.
      repeat case_bool_decide; try done; lia.
    + eexists. split; [done|]. split; [|done]. rewrite E. apply bits_of; [done|done|]. intros x. rewrite andb_false_r.
      cbn [bv_data]. rewrite Hbit. apply andb_false_r.
Qed.
Lemma insert_nth_same {A} (l : list A) i x d : nth i l d = x -> <[i := x]> l = l.
Proof.
  intros H. destruct (decide (i < length l)); [|by apply list_insert_ge; lia]. apply list_insert_id. by rewrite (nth_lk l i d), H.
Qed.
Lemma make_spec g n f : length g = u64_count n -> words g -> exists v, make_bit_vector g n f = Some v /\ bv_rep v (f <$> seq 0 n).
Proof.
  intros Hg Hw. unfold make_bit_vector. destruct (uninit_spec g n Hg Hw) as (v0 & l0 & -> & H0 & Hl0). bs.
  destruct (for_range_inv (fun k v => bv_rep v ((f <$> seq 0 k) ++ drop k l0)) (fun x v => bv_set_to v x (f x)) 0 n v0) as (v & -> & Hv).
  - lia.
  - done.
  - intros k v Hk Hv. assert (length ((f <$> seq 0 k) ++ drop k l0) = n) as Hlen by (rewrite app_length, fmap_length, seq_length, drop_length; lia).
    destruct (op_spec v _ (OSetTo k (f k)) Hv) as (v' & Hc & Hv'); [cbn; lia|]. cbn in Hc. exists v'. split; [done|].
    assert (op_list ((f <$> seq 0 k) ++ drop k l0) (OSetTo k (f k)) = (f <$> seq 0 (S k)) ++ drop (S k) l0) as <-; [|done].
    unfold op_list. cbn [op_index op_value]. rewrite insert_app_r_alt by (rewrite fmap_length, seq_length; lia).
    rewrite fmap_length, seq_length, Nat.sub_diag. rewrite seq_S, fmap_app, <- app_assoc. f_equal. cbn [fmap list_fmap app].
    destruct (lookup_lt_is_Some_2 l0 k) as [y Hy]; [lia|]. by rewrite (drop_S _ _ _ Hy).
  - exists v. split; [done|]. by rewrite drop_ge, app_nil_r in Hv by lia.
Qed.
Lemma copy_spec a v l : bv_rep v l -> a = true \/ l <> [] -> exists v', bv_copy a v = Some v' /\ bv_rep v' l /\ bv_null v' = false.
Proof.
  intros H Ha. unfold bv_copy.
  assert (a || bool_decide (bv_size v <> 0) = true) as ->.
  { destruct Ha as [->|Hl]; [done|]. rewrite (rep_size _ _ H), bool_decide_true; [apply orb_true_r|]. by destruct l. }
  cbn [chk]. bs. destruct (rep_raw _ _ H) as (Hlen & Hw & _). unfold u64_count in *.
  destruct (blocks_spec (fun k j _ => nth (8 * k + j) (bv_data v) 0%N) 0 (v8_count (bv_size v)) (replicate (v8_count (bv_size v) * 8) 0%N)) as (d & E & Hd & Hn).
  { lia. } { rewrite replicate_length. lia. }
  unfold all_blocks. rewrite E. bs. eexists. split; [done|]. rewrite replicate_length in Hd.
  assert (d = bv_data v) as ->.
  { apply (nth_ext' _ _ 0%N); [lia|]. intros i Hi. rewrite Hn. rewrite decide_True by lia. f_equal. lia. }
  split; [|done]. apply rep_of; [|apply H|apply H]. split; [done|]. split; [done|done].
Qed.

(** ** Whole-vector operations *)
Lemma all_blocks_spec v l f : bv_rep v l -> (forall k j w, word w -> word (f k j w)) ->
  exists d, all_blocks (bv_size v) f (bv_data v) = Some d /\ raw (mkBv (bv_null v) (bv_size v) d) /\
    forall x, x < length l -> bit_at d x = N.testbit (f (x / 512) (x / 64 mod 8) (nth (x / 64) (bv_data v) 0%N)) (N.of_nat (x mod 64)).
Proof.
  intros H Hf. destruct (rep_raw _ _ H) as (Hlen & Hw & Hnull). unfold u64_count in *. unfold all_blocks.
  destruct (blocks_spec f 0 (v8_count (bv_size v)) (bv_data v)) as (d & -> & Hd & Hn); [lia|lia|]. exists d. split; [done|]. split.
  - split; [cbn [bv_data bv_size]; unfold u64_count; lia|]. split; [|done]. apply words_of. cbn [bv_data]. intros i Hi. rewrite Hn. case_decide; [apply Hf|]; by apply words_nth.
  - intros x Hx. unfold bit_at. rewrite Hn. pose proof (rep_size _ _ H). unfold v8_count in *. rewrite decide_True by lia. do 2 f_equal. lia.
Qed.
Lemma padded_spec n s d l : raw (mkBv n s d) -> s = length l -> (forall x, x < length l -> bit_at d x = nth x l false) ->
  exists v', reset_padding (mkBv n s d) = Some v' /\ bv_rep v' l.
Proof.
  intros Hr Hs Hb. destruct (reset_padding_spec _ Hr) as (v' & -> & Hr' & Hs' & Hn' & Hb'). exists v'. split; [done|].
  apply rep_of; [done|by rewrite Hs'|]. intros x. rewrite Hb'. cbn [bv_data bv_size]. destruct (decide (x < s)) as [Hx|Hx].
  - rewrite bool_decide_true by done. rewrite andb_true_r. apply Hb. lia.
  - rewrite bool_decide_false by done. rewrite andb_false_r, nth_overflow by lia. done.
Qed.
Lemma set_all_spec v l : bv_rep v l -> exists v', bv_set_all v = Some v' /\ bv_rep v' (replicate (length l) true).
Proof.
  intros H. unfold bv_set_all. destruct (all_blocks_spec v l (fun _ _ _ => ones64) H) as (d & -> & Hr & Hb); [by intros|]. bs.
  apply padded_spec; [done|rewrite replicate_length; apply H|]. rewrite replicate_length. intros x Hx. rewrite Hb, nth_replicate', decide_True by done.
  apply ones_bit. lia.
Qed.
Lemma unpadded_spec n s d l : raw (mkBv n s d) -> s = length l -> (forall x, x < length l -> bit_at d x = nth x l false) ->
  (forall x, length l <= x -> bit_at d x = false) -> bv_rep (mkBv n s d) l.
Proof.
  intros Hr Hs Hb Hp. apply rep_of; [done|done|]. intros x. cbn [bv_data]. destruct (decide (x < length l)); [by apply Hb|]. rewrite nth_overflow by lia. apply Hp. lia.
Qed.
Lemma reset_all_spec v l : bv_rep v l -> exists v', bv_reset_all v = Some v' /\ bv_rep v' (replicate (length l) false).
Proof.
  intros H. unfold bv_reset_all. destruct (rep_raw _ _ H) as (Hlen & Hw & Hnull). unfold u64_count in *. unfold all_blocks.
  destruct (blocks_spec (fun _ _ _ => 0%N) 0 (v8_count (bv_size v)) (bv_data v)) as (d & -> & Hd & Hn); [lia|lia|]. bs. eexists. split; [done|].
  assert (forall i, nth i d 0%N = 0%N) as Hz.
  { intros i. rewrite Hn. case_decide; [done|]. apply nth_overflow. lia. }
  apply rep_of.
  - split; [cbn [bv_data bv_size]; unfold u64_count; lia|]. split; [|done]. apply words_of. intros i _. cbn [bv_data]. by rewrite Hz.
  - rewrite replicate_length. apply H.
  - intros x. cbn [bv_data]. unfold bit_at. rewrite Hz, N.bits_0, nth_replicate'. by case_decide.
Qed.
Lemma set_all_to_spec v l b : bv_rep v l -> exists v', bv_set_all_to v b = Some v' /\ bv_rep v' (replicate (length l) b).
Proof. intros H. destruct b; [apply (set_all_spec v l H)|apply (reset_all_spec v l H)]. Qed.
Lemma not_spec v l : bv_rep v l -> exists v', bv_not v = Some v' /\ bv_rep v' (negb <$> l).
Proof.
  intros H. unfold bv_not. destruct (all_blocks_spec v l (fun _ _ w => not64 w) H) as (d & -> & Hr & Hb); [by intros; apply word_not|]. bs.
  apply padded_spec; [done|rewrite fmap_length; apply H|]. rewrite fmap_length. intros x Hx. rewrite Hb, not64_bit by lia.
  fold (bit_at (bv_data v) x). rewrite (rep_bits _ _ H). rewrite !nth_lookup, list_lookup_fmap. by rewrite (nth_lk l x false Hx).
Qed.

Lemma combine_spec (f : N -> N -> N) (g : bool -> bool -> bool) v l o k : bv_rep v l -> bv_rep o k -> length l = length k ->
  (forall w w', word w -> word w' -> word (f w w')) -> g false false = false ->
  (forall w w' b, N.testbit (f w w') b = g (N.testbit w b) (N.testbit w' b)) ->
  exists v', bv_combine f v o = Some v' /\ bv_rep v' (zip_with g l k).
Proof.
  intros H H' Hl Hf Hg Hb. unfold bv_combine. rewrite (rep_size _ _ H), (rep_size _ _ H'), bool_decide_true by done. cbn [chk]. bs.
  destruct (rep_raw _ _ H) as (Hlen & Hw & Hnull). destruct (rep_raw _ _ H') as (Hlen' & Hw' & _). unfold u64_count in *.
  rewrite (rep_size _ _ H) in Hlen. rewrite (rep_size _ _ H') in Hlen'. rewrite <- Hl in Hlen'.
  destruct (for_range_inv (fun k d' => length d' = length (bv_data v) /\
    forall i, nth i d' 0%N = if decide (i / 8 < k) then f (nth i (bv_data v) 0%N) (nth i (bv_data o) 0%N) else nth i (bv_data v) 0%N)
    (fun k d => b ← block (bv_data o) k; upd_block (fun j w => f w (nth j b 0%N)) k d) 0 (v8_count (length l)) (bv_data v)) as (d & -> & Hd & Hn).
  - lia.
  - split; [done|]. intros i. rewrite decide_False by lia. done.
  - intros q d Hq (H1 & H2). destruct (block_spec (bv_data o) q) as (b & -> & Hbl & Hbn); [lia|]. bs.
    destruct (upd_block_spec (fun j w => f w (nth j b 0%N)) q d) as (d' & -> & H3 & H4); [lia|]. exists d'. split; [done|]. split; [lia|].
    intros i. rewrite H4, H2. destruct (decide (i / 8 = q)) as [<-|Hne].
    + rewrite decide_False by lia. rewrite decide_True by lia. f_equal. rewrite Hbn by lia. f_equal. lia.
    + repeat case_decide; lia || done.
  - bs. eexists. split; [done|].
    assert (forall i, word (nth i d 0%N)) as Hwd by (intros i; rewrite Hn; case_decide; [apply Hf|]; by apply words_nth).
    apply rep_of.
    + split; [cbn [bv_data bv_size]; unfold u64_count; lia|]. split; [by apply words_of|]. cbn. rewrite (rep_size _ _ H) in Hnull. done.
    + cbn. rewrite zip_with_length. lia.
    + intros x. cbn [bv_data]. unfold bit_at. rewrite Hn.
      pose proof (rep_bits _ _ H x) as E1. pose proof (rep_bits _ _ H' x) as E2. unfold bit_at in E1, E2.
      rewrite (nth_lookup (zip_with g l k)), lookup_zip_with. case_decide as Hx.
      * rewrite Hb, E1, E2. destruct (decide (x < length l)) as [Hxl|Hxl].
        -- rewrite (nth_lk l x false), (nth_lk k x false) by lia. done.
        -- rewrite !nth_overflow by lia. rewrite (lookup_ge_None_2 l), (lookup_ge_None_2 k) by lia. cbn. by rewrite Hg.
      * rewrite E1. unfold v8_count in Hx. rewrite nth_overflow by lia. rewrite (lookup_ge_None_2 l), (lookup_ge_None_2 k) by lia. done.
Qed.
Lemma or_spec v l o k : bv_rep v l -> bv_rep o k -> length l = length k -> exists v', bv_or v o = Some v' /\ bv_rep v' (zip_with orb l k).
Proof. intros. apply combine_spec; try done; [by intros; apply word_lor|intros; apply N.lor_spec]. Qed.
Lemma xor_spec v l o k : bv_rep v l -> bv_rep o k -> length l = length k -> exists v', bv_xor v o = Some v' /\ bv_rep v' (zip_with xorb l k).
Proof. intros. apply combine_spec; try done; [by intros; apply word_lxor|intros; apply N.lxor_spec]. Qed.
Lemma and_spec v l o k : bv_rep v l -> bv_rep o k -> length l = length k -> exists v', bv_and v o = Some v' /\ bv_rep v' (zip_with andb l k).
Proof. intros. apply combine_spec; try done; [by intros; apply word_land|intros; apply N.land_spec]. Qed.

(** ** Questions *)
(** number of set bits below [x] *)
Definition rank_bits (d : list N) (x : nat) : nat := length (filter (fun y => bit_at d y = true) (seq 0 x)).
Lemma rank_bits_add d x n : rank_bits d (x + n) = rank_bits d x + length (filter (fun y => bit_at d y = true) (seq x n)).
Proof. unfold rank_bits. by rewrite seq_app, filter_app, app_length. Qed.
Lemma filter_seq_ext (P Q : nat -> Prop) `{!forall x, Decision (P x), !forall x, Decision (Q x)} a b n :
  (forall i, i < n -> P (a + i) <-> Q (b + i)) -> length (filter P (seq a n)) = length (filter Q (seq b n)).
Proof.
  revert a b. induction n as [|n IH]; intros a b Hpq; [done|]. cbn [seq]. rewrite !filter_cons.
  assert (P a <-> Q b) as Hpq0. { specialize (Hpq 0). rewrite !Nat.add_0_r in Hpq. apply Hpq. lia. }
  assert (length (filter P (seq (S a) n)) = length (filter Q (seq (S b) n))) as Hr.
  { apply IH. intros i Hi. specialize (Hpq (S i)). rewrite !Nat.add_succ_r in Hpq. apply Hpq. lia. }
  destruct (decide (P a)) as [Ha|Ha]; rewrite Hpq0 in Ha; [rewrite decide_True by done|rewrite decide_False by done]; cbn; lia.
Qed.
Lemma popcount_rank d i : rank_bits d (64 * S i) = rank_bits d (64 * i) + popcount (nth i d 0%N).
Proof.
  replace (64 * S i) with (64 * i + 64) by lia. rewrite rank_bits_add. f_equal. unfold popcount. apply filter_seq_ext. intros b Hb. by rewrite bit_at_eq.
Qed.
Lemma rank_rep v l x : bv_rep v l -> rank_bits (bv_data v) x = count_true (take x l).
Proof.
  intros H. unfold rank_bits, count_true.
  revert x. assert (forall x, x <= length l -> length (filter (fun y => bit_at (bv_data v) y = true) (seq 0 x)) = length (filter (fun b => b = true) (take x l))) as Hin.
  { induction x as [|x IH]; intros Hx; [done|]. rewrite seq_S, filter_app, app_length, IH by lia.
    rewrite (take_S_r _ _ _ (nth_lk l x false Hx)), filter_app, app_length. f_equal. rewrite !filter_cons, !filter_nil, (rep_bits _ _ H). cbn [plus].
    by destruct (decide _). }
  intros x. destruct (decide (x <= length l)); [by apply Hin|]. rewrite take_ge by lia. transitivity (length (filter (fun b => b = true) (take (length l) l))); [|by rewrite take_ge by lia]. rewrite <- Hin by lia.
  replace x with (length l + (x - length l)) by lia. rewrite seq_app, filter_app, app_length.
  enough (length (filter (fun y => bit_at (bv_data v) y = true) (seq (0 + length l) (x - length l))) = 0) by lia.
  assert (filter (fun y => bit_at (bv_data v) y = true) (seq (0 + length l) (x - length l)) = []) as ->; [|done].
  destruct (filter _ _) as [|z r] eqn:E; [done|]. assert (z ∈ filter (fun y => bit_at (bv_data v) y = true) (seq (0 + length l) (x - length l))) as Hz by (rewrite E; constructor).
  apply elem_of_list_filter in Hz as [Hz Hz']. apply elem_of_seq in Hz'. rewrite (rep_bits _ _ H), nth_overflow in Hz by lia. done.
Qed.
Lemma popcount_spec v l : bv_rep v l -> bv_popcount v = Some (count_true l).
Proof.
  intros H. destruct (rep_raw _ _ H) as (Hlen & _ & _). unfold bv_popcount.
  destruct (for_range_inv (fun i n => n = rank_bits (bv_data v) (64 * i)) (fun i n => w ← bv_data v !! i; Some (n + popcount w)) 0 (u64_count (bv_size v)) 0) as (n & -> & ->).
  - lia.
  - done.
  - intros i n Hi ->. rewrite (nth_lk _ i 0%N) by lia. bs. eexists. split; [done|]. by rewrite popcount_rank.
  - f_equal. rewrite (rank_rep _ _ _ H), take_ge; [done|]. rewrite (rep_size _ _ H). unfold u64_count, v8_count. lia.
Qed.

Lemma is_any_bit_spec u : is_any_bit_set u = false <-> forall j, j < 8 -> nth j u 0%N = 0%N.
Proof.
  unfold is_any_bit_set. rewrite negb_false_iff, N.eqb_eq, !N.lor_eq_0_iff. split.
  - intros H j Hj. do 8 (destruct j as [|j]; [tauto|]). lia.
  - intros H. repeat split; apply H; lia.
Qed.
Lemma land_ones w w' : word w -> word w' -> N.land w w' = ones64 <-> w = ones64 /\ w' = ones64.
Proof.
  intros H H'. split; [|intros [-> ->]; done]. intros E.
  split; (apply word_eq; [done|apply word_ones|]); intros b Hb;
    assert (N.testbit (N.land w w') (N.of_nat b) = true) as Hb' by (rewrite E; by apply ones_bit);
    rewrite N.land_spec in Hb'; apply andb_true_iff in Hb' as [H1 H2]; rewrite ones_bit by done; done.
Qed.
Lemma are_all_bits_spec u : (forall j, word (nth j u 0%N)) -> are_all_bits_set u = true <-> forall j, j < 8 -> nth j u 0%N = ones64.
Proof.
  intros Hw. unfold are_all_bits_set. rewrite N.eqb_eq. rewrite !land_ones by (repeat apply word_land; apply Hw). split.
  - intros H j Hj. do 8 (destruct j as [|j]; [tauto|]). lia.
  - intros H. repeat split; apply H; lia.
Qed.
Lemma nth_zip_with (f : N -> N -> N) l k i : length l = length k -> i < length l -> nth i (zip_with f l k) 0%N = f (nth i l 0%N) (nth i k 0%N).
Proof.
  intros Hl Hi. rewrite (nth_lookup (zip_with f l k)), lookup_zip_with. rewrite (nth_lk l i 0%N), (nth_lk k i 0%N) by lia. done.
Qed.
Lemma word_ones_bits w : word w -> w = ones64 <-> forall b, b < 64 -> N.testbit w (N.of_nat b) = true.
Proof.
  intros Hw. split; [intros -> b Hb; by apply ones_bit|]. intros H. apply word_eq; [done|apply word_ones|]. intros b Hb. by rewrite H, ones_bit.
Qed.
Lemma word_zero_bits w : word w -> w = 0%N <-> forall b, b < 64 -> N.testbit w (N.of_nat b) = false.
Proof.
  intros Hw. split; [intros -> b Hb; apply N.bits_0|]. intros H. apply word_eq; [done|apply word_0|]. intros b Hb. by rewrite H, N.bits_0.
Qed.

Lemma is_any_spec v l : bv_rep v l -> exists r, bv_is_any_set v = Some r /\ (r = true <-> true ∈ l).
Proof.
  intros H. destruct (rep_raw _ _ H) as (Hlen & Hw & _). unfold bv_is_any_set. case_decide as Hs.
  - exists false. split; [done|]. rewrite (rep_size _ _ H) in Hs. destruct l; [|done]. split; [done|]. by intros ?%elem_of_nil.
  - unfold u64_count in Hlen.
    destruct (for_range_inv (fun k x => length x = 8 /\ forall j, j < 8 -> nth j x 0%N = 0%N <-> forall q, q < k -> nth (8 * q + j) (bv_data v) 0%N = 0%N)
      (fun k x => b ← block (bv_data v) k; Some (zip_with N.lor x b)) 0 (v8_count (bv_size v)) (replicate 8 0%N)) as (x & -> & Hx & Hj).
    + lia.
    + split; [done|]. intros j Hj. rewrite nth_replicate', decide_True by done. split; [lia|done].
    + intros k x Hk (Hx & Hj). destruct (block_spec (bv_data v) k) as (b & -> & Hb & Hbn); [lia|]. bs. eexists. split; [done|].
      split; [rewrite zip_with_length; lia|]. intros j Hj'. rewrite nth_zip_with by lia. rewrite N.lor_eq_0_iff, Hj, Hbn by done. split.
      * intros [H1 H2] q Hq. destruct (decide (q = k)) as [->|]; [done|apply H1; lia].
      * intros H1. split; [intros; apply H1; lia|apply H1; lia].
    + bs. eexists. split; [done|].
      assert (is_any_bit_set x = false <-> true ∉ l) as Hiff.
      { rewrite is_any_bit_spec. split.
        - intros Hz (i & Hi)%elem_of_list_lookup. pose proof (lookup_lt_Some _ _ _ Hi) as Hil. rewrite (nth_lk l i false Hil) in Hi. injection Hi as Hi.
          rewrite <- (rep_bits _ _ H) in Hi. unfold bit_at in Hi.
          assert (nth (i / 64) (bv_data v) 0%N = 0%N) as E; [|by rewrite E, N.bits_0 in Hi].
          specialize (Hz (i / 64 mod 8) ltac:(lia)). rewrite Hj in Hz by lia. specialize (Hz (i / 512)). pose proof (rep_size _ _ H). unfold v8_count in *.
          replace (8 * (i / 512) + i / 64 mod 8) with (i / 64) in Hz by lia. apply Hz. lia.
        - intros Hn j Hj'. apply Hj; [done|]. intros q Hq. apply word_zero_bits; [by apply words_nth|]. intros b Hb. rewrite <- bit_at_eq by done.
          rewrite (rep_bits _ _ H). destruct (nth _ l false) eqn:E; [|done]. exfalso. apply Hn. rewrite <- E.
          destruct (nth_in_or_default (64 * (8 * q + j) + b) l false) as [Hin|Hd]; [by apply elem_of_list_In|congruence]. }
      destruct (is_any_bit_set x); [split; [intros _|done]|split; [done|]].
      * destruct (decide (true ∈ l)) as [|Hn]; [done|]. by apply Hiff in Hn.
      * intros Hin. by apply Hiff in Hin.
Qed.

(** correct unless the size is a positive multiple of 512 *)
Lemma are_all_spec v l : bv_rep v l -> length l = 0 \/ length l mod 512 <> 0 -> exists r, bv_are_all_set v = Some r /\ (r = true <-> Forall (fun b => b = true) l).
Proof.
  intros H Hguard. destruct (rep_raw _ _ H) as (Hlen & Hw & _). unfold bv_are_all_set. pose proof (rep_size _ _ H) as Hsz. case_decide as Hs.
  - exists true. split; [done|]. rewrite Hsz in Hs. destruct l; [|done]. split; [constructor|done].
  - unfold u64_count in Hlen. set (n := v8_count (bv_size v) - 1). assert (v8_count (bv_size v) = S n) as Hn by (unfold n, v8_count; lia).
    destruct (for_range_inv (fun k x => length x = 8 /\ (forall j, word (nth j x 0%N)) /\ forall j, j < 8 -> nth j x 0%N = ones64 <-> forall q, q < k -> nth (8 * q + j) (bv_data v) 0%N = ones64)
      (fun k x => b ← block (bv_data v) k; Some (zip_with N.land x b)) 0 n (replicate 8 ones64)) as (x & -> & Hx & Hxw & Hj).
    + lia.
    + split; [done|]. split; [intros j; apply words_nth, words_replicate, word_ones|]. intros j Hj. rewrite nth_replicate', decide_True by done. split; [lia|done].
    + intros k x Hk (Hx & Hxw & Hj). destruct (block_spec (bv_data v) k) as (b & -> & Hb & Hbn); [lia|]. bs. eexists. split; [done|].
      split; [rewrite zip_with_length; lia|]. split.
      * intros j. destruct (decide (j < 8)); [rewrite nth_zip_with by lia; by apply word_land|]. rewrite nth_overflow; [done|]. rewrite zip_with_length. lia.
      * intros j Hj'. rewrite nth_zip_with by lia. rewrite Hbn by done. rewrite land_ones by (try done; by apply words_nth). rewrite Hj by done. split.
        -- intros [H1 H2] q Hq. destruct (decide (q = k)) as [->|]; [done|apply H1; lia].
        -- intros H1. split; [intros; apply H1; lia|apply H1; lia].
    + bs. destruct (block_spec (bv_data v) n) as (b & -> & Hb & Hbn); [lia|]. bs.
      destruct (padding_mask_spec (bv_size v)) as (m & -> & Hm & Hmw & Hmb). bs. eexists. split; [done|].
      assert (length (zip_with (fun w p => N.lor w (not64 p)) b m) = 8) as Hz by (rewrite zip_with_length; lia).
      rewrite are_all_bits_spec.
      2:{ intros j. destruct (decide (j < 8)); [rewrite nth_zip_with by lia; by apply word_land|]. rewrite nth_overflow; [done|]. rewrite zip_with_length. lia. }
      assert (forall j, j < 8 -> nth j (zip_with N.land x (zip_with (fun w p => N.lor w (not64 p)) b m)) 0%N = ones64 <->
        forall x, x / 64 mod 8 = j -> x < length l -> nth x l false = true) as Hword.
      { intros j Hj'. rewrite nth_zip_with by lia. rewrite land_ones; [|done|].
        2:{ rewrite nth_zip_with by lia. apply word_lor; [rewrite Hbn by done; by apply words_nth|apply word_not; by apply words_nth]. }
        rewrite Hj by done. rewrite nth_zip_with by lia. rewrite Hbn by done. split.
        - intros [H1 H2] y Hy1 Hy2. rewrite <- (rep_bits _ _ H). unfold bit_at. destruct (decide (y / 512 < n)) as [Hlt|Hge].
          + specialize (H1 (y / 512) Hlt). replace (8 * (y / 512) + j) with (y / 64) in H1 by lia. rewrite H1. apply ones_bit. lia.
          + assert (y / 512 = n) as Ey by (unfold v8_count in *; lia). replace (8 * n + j) with (y / 64) in H2 by lia.
            assert (N.testbit (N.lor (nth (y / 64) (bv_data v) 0%N) (not64 (nth j m 0%N))) (N.of_nat (y mod 64)) = true) as Ht by (rewrite H2; apply ones_bit; lia).
            rewrite N.lor_spec, not64_bit, Hmb in Ht by lia. rewrite bool_decide_true in Ht; [by rewrite orb_false_r in Ht|].
            unfold v8_count in *. destruct Hguard; [lia|]. lia.
        - intros Hall. split.
          + intros q Hq. apply word_ones_bits; [by apply words_nth|]. intros c Hc. rewrite <- bit_at_eq by done. rewrite (rep_bits _ _ H).
            apply Hall; unfold v8_count in *; lia.
          + apply word_ones_bits.
            { apply word_lor; [by apply words_nth|apply word_not; by apply words_nth]. }
            intros c Hc. rewrite N.lor_spec, not64_bit, Hmb by done. rewrite <- bit_at_eq by done. rewrite (rep_bits _ _ H).
            case_bool_decide as Hp; [|apply orb_true_r]. rewrite orb_false_r. apply Hall; unfold v8_count in *; lia. }
      split.
      * intros Hall. apply Forall_forall. intros y (i & Hi)%elem_of_list_lookup. pose proof (lookup_lt_Some _ _ _ Hi) as Hil.
        rewrite (nth_lk l i false Hil) in Hi. injection Hi as <-. eapply (proj1 (Hword (i / 64 mod 8) ltac:(lia))); [apply Hall; lia|done|done].
      * intros Hall j Hj'. apply Hword; [done|]. intros y _ Hy. rewrite Forall_forall in Hall. apply Hall. apply elem_of_list_In, nth_In. lia.
Qed.

Lemma rep_inj v l k : bv_rep v l -> bv_rep v k -> l = k.
Proof.
  intros H H'. assert (length l = length k) by (rewrite <- (rep_size _ _ H); apply H'). apply (nth_ext' _ _ false); [done|].
  intros i _. by rewrite <- (rep_bits _ _ H), <- (rep_bits _ _ H').
Qed.
Lemma rep_data v l o k : bv_rep v l -> bv_rep o k -> l = k <-> bv_size v = bv_size o /\ bv_data v = bv_data o.
Proof.
  intros H H'. split.
  - intros ->. rewrite (rep_size _ _ H), (rep_size _ _ H'). split; [done|]. apply data_eq; [apply H|apply H'| |].
    + by rewrite (rep_len _ _ H), (rep_len _ _ H').
    + intros x _. by rewrite (rep_bits _ _ H), (rep_bits _ _ H').
  - intros [E1 E2]. rewrite (rep_size _ _ H), (rep_size _ _ H') in E1. apply (nth_ext' _ _ false); [done|]. intros i _.
    rewrite <- (rep_bits _ _ H), <- (rep_bits _ _ H'). by rewrite E2.
Qed.
Lemma eq_spec v l o k : bv_rep v l -> bv_rep o k -> bv_eq v o = Some (bool_decide (l = k)).
Proof.
  intros H H'. unfold bv_eq. pose proof (rep_data _ _ _ _ H H') as Hiff. destruct (rep_raw _ _ H) as (Hlen & Hw & _). destruct (rep_raw _ _ H') as (Hlen' & Hw' & _).
  case_decide as Hs.
  - rewrite bool_decide_false; [done|]. rewrite Hiff. tauto.
  - assert (bv_size v = bv_size o) as Es by (destruct (decide (bv_size v = bv_size o)); [done|tauto]). rewrite <- Es in Hlen'. unfold u64_count in *.
    destruct (for_range_inv (fun k x => length x = 8 /\ forall j, j < 8 -> nth j x 0%N = 0%N <-> forall q, q < k -> nth (8 * q + j) (bv_data v) 0%N = nth (8 * q + j) (bv_data o) 0%N)
      (fun k x => a ← block (bv_data v) k; b ← block (bv_data o) k; Some (zip_with N.lor x (zip_with N.lxor a b))) 0 (v8_count (bv_size v)) (replicate 8 0%N)) as (x & -> & Hx & Hj).
    + lia.
    + split; [done|]. intros j Hj. rewrite nth_replicate', decide_True by done. split; [lia|done].
    + intros q x Hk (Hx & Hj). destruct (block_spec (bv_data v) q) as (a & -> & Ha & Han); [lia|]. bs.
      destruct (block_spec (bv_data o) q) as (b & -> & Hb & Hbn); [lia|]. bs. eexists. split; [done|].
      assert (length (zip_with N.lxor a b) = 8) by (rewrite zip_with_length; lia).
      split; [rewrite zip_with_length; lia|]. intros j Hj'. rewrite nth_zip_with by lia. rewrite nth_zip_with by lia. rewrite N.lor_eq_0_iff, Hj, Han, Hbn by done.
      rewrite N.lxor_eq_0_iff. split.
      * intros [H1 H2] p Hp. destruct (decide (p = q)) as [->|]; [done|apply H1; lia].
      * intros H1. split; [intros; apply H1; lia|apply H1; lia].
    + bs. f_equal. symmetry. assert (bv_data v = bv_data o <-> is_any_bit_set x = false) as Hd.
      { rewrite is_any_bit_spec. split.
        - intros E j Hj'. apply Hj; [done|]. intros. by rewrite E.
        - intros Hz. apply (nth_ext' _ _ 0%N); [lia|]. intros i Hi. specialize (Hz (i mod 8) ltac:(lia)). rewrite Hj in Hz by lia.
          specialize (Hz (i / 8) ltac:(lia)). by replace (8 * (i / 8) + i mod 8) with i in Hz by lia. }
      destruct (is_any_bit_set x); cbn [negb]; [apply bool_decide_eq_false|apply bool_decide_eq_true]; rewrite Hiff, Hd; [intros [_ ?]|]; done.
Qed.

(** The order: shorter vectors first, then the first differing word decides. *)
Definition words_lt (a b : list N) : Prop := exists i, (forall j, j < i -> nth j a 0%N = nth j b 0%N) /\ (nth i a 0 < nth i b 0)%N.
Lemma less_words_spec l r n i : i + n <= length l -> i + n <= length r ->
  exists b, bv_less_words l r n i = Some b /\
    (b = true <-> exists k, i <= k < i + n /\ (forall j, i <= j < k -> nth j l 0%N = nth j r 0%N) /\ (nth k l 0 < nth k r 0)%N).
Proof.
  revert i. induction n as [|n IH]; intros i Hl Hr; cbn [bv_less_words].
  - exists false. split; [done|]. split; [done|]. intros (k & ? & _). lia.
  - rewrite (nth_lk l i 0%N), (nth_lk r i 0%N) by lia. bs. destruct (N.eqb_spec (nth i l 0%N) (nth i r 0%N)) as [E|E].
    + destruct (IH (S i)) as (b & -> & Hb); [lia|lia|]. exists b. split; [done|]. rewrite Hb. split; intros (k & Hk & H1 & H2); exists k.
      * split; [lia|]. split; [|done]. intros j Hj. destruct (decide (j = i)) as [->|]; [done|apply H1; lia].
      * destruct (decide (k = i)) as [->|]; [lia|]. split; [lia|]. split; [|done]. intros j Hj. apply H1. lia.
    + eexists. split; [done|]. rewrite N.ltb_lt. split.
      * intros H. exists i. split; [lia|]. split; [lia|done].
      * intros (k & Hk & H1 & H2). destruct (decide (k = i)) as [->|]; [done|]. exfalso. apply E, H1. lia.
Qed.
Lemma less_spec v l o k : bv_rep v l -> bv_rep o k ->
  exists b, bv_less v o = Some b /\ (b = true <-> length l < length k \/ (length l = length k /\ words_lt (bv_data v) (bv_data o))).
Proof.
  intros H H'. unfold bv_less. rewrite (rep_size _ _ H), (rep_size _ _ H'). case_decide as Hs.
  - eexists. split; [done|]. rewrite bool_decide_eq_true. split; [by left|]. intros [?|[? _]]; done.
  - assert (length l = length k) as Es by (destruct (decide (length l = length k)); [done|tauto]).
    destruct (rep_raw _ _ H) as (Hlen & Hw & _). destruct (rep_raw _ _ H') as (Hlen' & Hw' & _).
    rewrite (rep_size _ _ H) in Hlen. rewrite (rep_size _ _ H'), <- Es in Hlen'.
    destruct (less_words_spec (bv_data v) (bv_data o) (u64_count (length l)) 0) as (b & -> & Hb); [lia|lia|]. exists b. split; [done|].
    rewrite Hb. split.
    + intros (q & Hq & H1 & H2). right. split; [done|]. exists q. split; [|done]. intros j Hj. apply H1. lia.
    + intros [?|[_ (q & H1 & H2)]]; [lia|]. exists q. split; [|split; [|done]].
      * destruct (decide (q < u64_count (length l))); [lia|]. rewrite !nth_overflow in H2 by lia. lia.
      * intros j Hj. apply H1. lia.
Qed.

(** ** Resizing *)
Lemma copy_blocks_spec n s d : 8 * n <= length s -> 8 * n <= length d -> exists d', copy_blocks n s d = Some d' /\ length d' = length d /\
  forall i, nth i d' 0%N = if decide (i / 8 < n) then nth i s 0%N else nth i d 0%N.
Proof.
  intros Hs Hd. unfold copy_blocks.
  apply (for_range_inv (fun k d' => length d' = length d /\ forall i, nth i d' 0%N = if decide (i / 8 < k) then nth i s 0%N else nth i d 0%N)
    (fun k d => b ← block s k; upd_block (fun j _ => nth j b 0%N) k d) 0 n d); [lia| |].
  - split; [done|]. intros i. rewrite decide_False by lia. done.
  - intros k d' Hk (Hl & Hn). destruct (block_spec s k) as (b & -> & Hb & Hbn); [lia|]. bs.
    destruct (upd_block_spec (fun j _ => nth j b 0%N) k d') as (d'' & -> & Hl' & Hn'); [lia|]. exists d''. split; [done|]. split; [lia|]. intros i.
    rewrite Hn', Hn. destruct (decide (i / 8 = k)) as [<-|].
    + rewrite (decide_True (P := i / 8 < S (i / 8))) by lia. rewrite Hbn by lia. f_equal. lia.
    + repeat case_decide; lia || done.
Qed.
Lemma nth_resized l n b x : nth x (resized l n b) false = if decide (x < n) then (if decide (x < length l) then nth x l false else b) else false.
Proof.
  unfold resized. destruct (decide (x < length l)) as [Hx|Hx].
  - case_decide.
    + rewrite app_nth1 by (rewrite take_length; lia). rewrite !nth_lookup. by rewrite lookup_take.
    + apply nth_overflow. rewrite app_length, take_length, replicate_length. lia.
  - destruct (decide (x < n)).
    + rewrite app_nth2 by (rewrite take_length; lia). rewrite nth_replicate', take_length. rewrite decide_True by lia. done.
    + apply nth_overflow. rewrite app_length, take_length, replicate_length. lia.
Qed.
Lemma resized_length l n b : length (resized l n b) = n.
Proof. unfold resized. rewrite app_length, take_length, replicate_length. lia. Qed.
Lemma rep_resized v l n b : raw v -> bv_size v = n -> (forall x, bit_at (bv_data v) x = if decide (x < n) then (if decide (x < length l) then nth x l false else b) else false) ->
  bv_rep v (resized l n b).
Proof. intros. apply rep_of; [done|by rewrite resized_length|]. intros x. rewrite nth_resized. done. Qed.

Lemma new_data n : n <> 0 -> bv_new n false = Some (mkBv false n (replicate (u64_count n) 0%N)).
Proof. intros H. unfold bv_new. by rewrite decide_False. Qed.
Lemma nth_zeros k i : nth i (replicate k 0%N) 0%N = 0%N.
Proof. rewrite nth_replicate'. by case_decide. Qed.

Lemma resize_uninit_null g v l n : bv_rep v l -> bv_null v = true -> length g = u64_count n -> words g ->
  exists v' l', bv_resize_uninit g v n = Some v' /\ bv_rep v' l' /\ length l' = n.
Proof. intros H Hn Hg Hw. unfold bv_resize_uninit. rewrite Hn. by apply uninit_spec. Qed.
Lemma resize_uninit_spec g v l n : bv_rep v l -> bv_null v = false ->
  exists v', bv_resize_uninit g v n = Some v' /\ bv_rep v' (resized l n false).
Proof.
  intros H Hn. unfold bv_resize_uninit. rewrite Hn. pose proof (rep_size _ _ H) as Hs. pose proof (rep_bits _ _ H) as Hb. destruct (rep_raw _ _ H) as (Hl & Hw & _).
  unfold u8_count, u64_count in *. case_decide as E.
  - assert (v8_count n = v8_count (bv_size v)) as E' by lia.
    destruct (reset_padding_spec (mkBv false n (bv_data v))) as (v' & -> & Hr & Hs' & Hn' & Hb').
    { split; [cbn [bv_data bv_size]; unfold u64_count; lia|]. by split. }
    exists v'. split; [done|]. apply rep_resized; [done|done|]. intros x. rewrite Hb'. cbn [bv_data bv_size]. rewrite Hb.
    case_bool_decide; [rewrite andb_true_r, decide_True by done|by rewrite andb_false_r, decide_False]. case_decide; [done|]. rewrite nth_overflow by lia. done.
  - destruct (decide (n = 0)) as [->|Hn0].
    + unfold bv_new. rewrite (decide_True (P := 0 = 0)) by done. bs. cbn [bv_data bv_size bv_null bv_empty]. replace (v8_count (bv_size v) `min` v8_count 0) with 0 by (unfold v8_count; lia).
      unfold copy_blocks. cbn. bs. eexists. split; [done|]. apply rep_empty.
    + rewrite new_data by done. bs. cbn [bv_data bv_size bv_null].
      destruct (copy_blocks_spec (v8_count (bv_size v) `min` v8_count n) (bv_data v) (replicate (u64_count n) 0%N)) as (d & -> & Hd & Hdn).
      { lia. } { rewrite replicate_length. unfold u64_count. lia. }
      bs. rewrite replicate_length in Hd.
      destruct (reset_padding_spec (mkBv false n d)) as (v' & -> & Hr & Hs' & Hn' & Hb').
      { split; [done|]. split; [|done]. apply words_of. intros i _. cbn [bv_data]. rewrite Hdn, nth_zeros. case_decide; [by apply words_nth|done]. }
      exists v'. split; [done|]. apply rep_resized; [done|done|]. intros x. rewrite Hb'. cbn [bv_data bv_size]. unfold bit_at. rewrite Hdn, nth_zeros.
      case_bool_decide as Hx; [rewrite andb_true_r, (decide_True (P := x < n)) by done|by rewrite andb_false_r, (decide_False (P := x < n))].
      case_decide as Hx'.
      * fold (bit_at (bv_data v) x). rewrite Hb. case_decide; [done|]. by rewrite nth_overflow by lia.
      * rewrite N.bits_0. rewrite decide_False; [done|]. unfold v8_count in *. lia.
Qed.

(** The condition under which [resize (n, true)] of the code does what it should. *)
Definition resize_ok (v : bitvec) (n : nat) (b : bool) : Prop :=
  bv_null v = true \/ n < bv_size v \/ (b = false) \/ (bv_size v mod 512 <> 0 /\ n mod 512 <> 0).
Lemma resize_spec v l n b : bv_rep v l -> resize_ok v n b -> exists v', bv_resize v n b = Some v' /\ bv_rep v' (resized l n b).
Proof.
  intros H Hok. unfold bv_resize. pose proof (rep_size _ _ H) as Hs. pose proof (rep_bits _ _ H) as Hb. destruct (rep_raw _ _ H) as (Hl & Hw & Hnull).
  destruct (bv_null v) eqn:En.
  { destruct (new_spec n b) as (v' & -> & Hv' & _). exists v'. split; [done|]. rewrite Hnull in Hs by done. destruct l; [|done].
    unfold resized. rewrite take_nil, Nat.sub_0_r. done. }
  case_decide as Hlt.
  { destruct (resize_uninit_spec [] v l n H En) as (v' & -> & Hv'). exists v'. split; [done|].
    assert (resized l n b = resized l n false) as -> by (unfold resized; replace (n - length l) with 0 by lia; done). done. }
  unfold u8_count, u64_count in *.
  case_decide as E.
  { assert (v8_count n = v8_count (bv_size v)) as E' by lia. destruct b.
    - destruct Hok as [?|[?|[?|[Hm1 Hm2]]]]; [congruence|lia|done|].
      destruct (padding_mask_spec n) as (mn & -> & Hmn & Hmnw & Hmnb). bs.
      destruct (padding_mask_spec (bv_size v)) as (mo & -> & Hmo & Hmow & Hmob). bs.
      destruct (upd_block_spec (fun j w => N.lor w (N.land (nth j mn 0%N) (not64 (nth j mo 0%N)))) (bv_size v / 512) (bv_data v)) as (d & -> & Hd & Hdn).
      { unfold v8_count in *. lia. }
      bs. eexists. split; [done|]. apply rep_resized; [|done|].
      + split; [cbn [bv_data bv_size]; unfold u64_count; lia|]. split; [|done]. apply words_of. intros i _. cbn [bv_data]. rewrite Hdn. case_decide; [|by apply words_nth].
        apply word_lor; [by apply words_nth|]. apply word_land. by apply words_nth.
      + intros x. cbn [bv_data]. unfold bit_at. rewrite Hdn. pose proof (Hb x) as Hx. unfold bit_at in Hx. case_decide as Hq.
        * rewrite N.lor_spec, N.land_spec, not64_bit by lia. rewrite Hmnb, Hmob by lia. rewrite Hx. unfold v8_count in *. rewrite Hs in *.
          destruct (decide (x < length l)).
          -- rewrite (decide_True (P := x < n)) by lia. rewrite (bool_decide_true (_ < length l mod 512)) by lia. by rewrite andb_false_r, orb_false_r.
          -- rewrite nth_overflow by lia. rewrite (bool_decide_false (_ < length l mod 512)) by lia. rewrite andb_true_r. cbn [orb].
             destruct (decide (x < n)); [apply bool_decide_eq_true|apply bool_decide_eq_false]; lia.
        * rewrite Hx. unfold v8_count in *. destruct (decide (x < length l)); [rewrite decide_True by lia; done|]. rewrite nth_overflow by lia.
          rewrite decide_False by lia. done.
    - eexists. split; [done|]. apply rep_resized; [|done|].
      + split; [cbn [bv_data bv_size]; unfold u64_count; lia|]. done.
      + intros x. cbn [bv_data]. rewrite Hb. destruct (decide (x < length l)); [rewrite decide_True by lia; done|]. rewrite nth_overflow by lia. by case_decide. }
  assert (n <> 0) as Hn0 by (intros ->; unfold v8_count in *; lia).
  rewrite new_data by done. bs. cbn [bv_data bv_size bv_null].
  destruct (copy_blocks_spec (v8_count (bv_size v)) (bv_data v) (replicate (u64_count n) 0%N)) as (d & -> & Hd & Hdn).
  { lia. } { rewrite replicate_length. unfold u64_count, v8_count. lia. }
  bs. rewrite replicate_length in Hd. unfold u64_count in Hd.
  assert (forall i, word (nth i d 0%N)) as Hwd by (intros i; rewrite Hdn, nth_zeros; case_decide; [by apply words_nth|done]).
  destruct b.
  - destruct Hok as [?|[?|[?|[Hm1 Hm2]]]]; [congruence|lia|done|].
    destruct (padding_mask_spec (bv_size v)) as (mo & -> & Hmo & Hmow & Hmob). bs.
    assert (v8_count (bv_size v) <> 0 /\ v8_count (bv_size v) < v8_count n) as [Hv0 Hvn] by (unfold v8_count in *; lia).
    rewrite bool_decide_true by done. cbn [chk]. bs.
    destruct (upd_block_spec (fun j w => N.lor w (not64 (nth j mo 0%N))) (v8_count (bv_size v) - 1) d) as (d1 & -> & Hd1 & Hdn1); [lia|]. bs.
    destruct (blocks_spec (fun _ _ _ => ones64) (v8_count (bv_size v)) (v8_count n) d1) as (d2 & -> & Hd2 & Hdn2); [lia|lia|]. bs.
    destruct (padding_mask_spec n) as (mn & -> & Hmn & Hmnw & Hmnb). bs.
    destruct (upd_block_spec (fun j w => N.land w (nth j mn 0%N)) (v8_count n - 1) d2) as (d3 & -> & Hd3 & Hdn3); [lia|]. bs.
    assert (forall i, word (nth i d1 0%N)) as Hwd1.
    { intros i. rewrite Hdn1. case_decide; [|done]. apply word_lor; [done|]. apply word_not. by apply words_nth. }
    assert (forall i, word (nth i d2 0%N)) as Hwd2 by (intros i; rewrite Hdn2; case_decide; [apply word_ones|done]).
    eexists. split; [done|]. apply rep_resized; [|done|].
    + split; [cbn [bv_data bv_size]; unfold u64_count; lia|]. split; [|done]. apply words_of. intros i _. cbn [bv_data]. rewrite Hdn3. case_decide; [|done]. by apply word_land.
    + intros x. cbn [bv_data]. unfold bit_at. rewrite Hdn3, Hdn2, Hdn1, Hdn, nth_zeros. pose proof (Hb x) as Hx. unfold bit_at in Hx. rewrite Hs in *. clear Hdn3 Hdn2 Hdn1 Hdn Hd Hd1 Hd2 Hd3 Hwd Hwd1 Hwd2 Hl Hnull Hb Hw E.
      destruct (decide (x < length l)) as [Hxl|Hxl].
      * rewrite (decide_True (P := x < n)) by lia. rewrite (decide_False (P := x / 64 / 8 = v8_count n - 1)) by (unfold v8_count in *; lia).
        rewrite (decide_False (P := v8_count (length l) <= x / 64 / 8 < _)) by (unfold v8_count in *; lia).
        rewrite (decide_True (P := x / 64 / 8 < v8_count (length l))) by (unfold v8_count in *; lia).
        case_decide; [|done]. rewrite N.lor_spec, not64_bit, Hmob, Hx by lia. rewrite bool_decide_true by (unfold v8_count in *; lia). by rewrite orb_false_r.
      * destruct (decide (x / 64 / 8 = v8_count n - 1)) as [Ex|Ex].
        -- rewrite (decide_True (P := v8_count (length l) <= x / 64 / 8 < _)) by lia. rewrite N.land_spec, ones_bit, Hmnb by lia. rewrite andb_true_l.
           unfold v8_count in *. case_decide; [apply bool_decide_eq_true|apply bool_decide_eq_false]; lia.
        -- destruct (decide (v8_count (length l) <= x / 64 / 8 < v8_count n)).
           ++ rewrite ones_bit by lia. rewrite decide_True by (unfold v8_count in *; lia). done.
           ++ destruct (decide (x / 64 / 8 = v8_count (length l) - 1)).
              ** rewrite N.lor_spec, not64_bit, Hmob by lia. rewrite bool_decide_false by (unfold v8_count in *; lia). rewrite orb_true_r.
                 rewrite decide_True by (unfold v8_count in *; lia). done.
              ** rewrite (decide_False (P := x / 64 / 8 < v8_count (length l))) by (unfold v8_count in *; lia). rewrite N.bits_0. rewrite decide_False; [done|].
                 unfold v8_count in *. lia.
  - destruct (blocks_spec (fun _ _ _ => 0%N) (v8_count (bv_size v)) (v8_count n) d) as (d2 & -> & Hd2 & Hdn2); [unfold v8_count; lia|lia|]. bs.
    eexists. split; [done|]. apply rep_resized; [|done|].
    + split; [cbn [bv_data bv_size]; unfold u64_count; lia|]. split; [|done]. apply words_of. intros i _. cbn [bv_data]. rewrite Hdn2. by case_decide.
    + intros x. cbn [bv_data]. unfold bit_at. rewrite Hdn2, Hdn, nth_zeros. pose proof (Hb x) as Hx. unfold bit_at in Hx.
      destruct (decide (x < length l)) as [Hxl|Hxl].
      * rewrite (decide_True (P := x < n)) by lia. rewrite decide_False by (unfold v8_count in *; lia). rewrite decide_True by (unfold v8_count in *; lia). done.
      * rewrite (nth_overflow l) in Hx by lia. destruct (decide (v8_count (bv_size v) <= x / 64 / 8 < v8_count n)); [rewrite N.bits_0; by case_decide|].
        destruct (decide (x / 64 / 8 < v8_count (bv_size v))); [rewrite Hx|rewrite N.bits_0]; by case_decide.
Qed.

(** ** Growing *)
Lemma grow_spec fuel n x k : n = 2 ^ k -> x < n + fuel -> (k = 0 \/ 2 ^ (k - 1) <= x) ->
  exists k', grow fuel n x = Some (2 ^ k') /\ x < 2 ^ k' /\ (k' = 0 \/ 2 ^ (k' - 1) <= x).
Proof.
  revert n k. induction fuel as [|f IH]; intros n k -> Hx Hk; cbn [grow].
  - rewrite decide_False by lia. exists k. split; [done|]. split; [lia|done].
  - case_decide as H.
    + apply (IH (2 * 2 ^ k) (S k)); [by rewrite Nat.pow_succ_r'| |].
      * assert (2 ^ k <> 0) by (apply Nat.pow_nonzero; lia). lia.
      * right. by replace (S k - 1) with k by lia.
    + exists k. split; [done|]. split; [lia|done].
Qed.
Lemma large_enough_spec v l x b : bv_rep v l -> exists k, x < 2 ^ k /\ (k = 0 \/ 2 ^ (k - 1) <= x) /\
  (resize_ok v (2 ^ k) b \/ x < length l -> exists v', bv_large_enough v x b = Some v' /\ bv_rep v' (if decide (length l <= x) then resized l (2 ^ k) b else l)).
Proof.
  intros H. destruct (grow_spec x 1 x 0) as (k & Hk & H1 & H2); [done|lia|by left|]. exists k. split; [done|]. split; [done|]. intros Hok. unfold bv_large_enough.
  rewrite (rep_size _ _ H). case_decide; [|by exists v]. rewrite Hk. bs. apply resize_spec; [done|]. destruct Hok; [done|lia].
Qed.
Lemma large_enough_uninit_spec g v l x : bv_rep v l -> bv_null v = false -> exists k, x < 2 ^ k /\ (k = 0 \/ 2 ^ (k - 1) <= x) /\
  exists v', bv_large_enough_uninit g v x = Some v' /\ bv_rep v' (if decide (length l <= x) then resized l (2 ^ k) false else l).
Proof.
  intros H Hn. destruct (grow_spec x 1 x 0) as (k & Hk & H1 & H2); [done|lia|by left|]. exists k. split; [done|]. split; [done|]. unfold bv_large_enough_uninit.
  rewrite (rep_size _ _ H). case_decide; [|by exists v]. rewrite Hk. bs. apply resize_uninit_spec; [done|]. done.
Qed.

(** ** The order on the bits *)
Lemma N_lt_bits a b : (a < b)%N <-> exists c, N.testbit a c = false /\ N.testbit b c = true /\ forall c', (c < c')%N -> N.testbit a c' = N.testbit b c'.
Proof.
  assert (forall a b, (exists c, N.testbit a c = false /\ N.testbit b c = true /\ forall c', (c < c')%N -> N.testbit a c' = N.testbit b c') -> (a < b)%N) as Hback.
  { clear. intros a b (c & Ha & Hb & Hc).
    assert (N.shiftr a (N.succ c) = N.shiftr b (N.succ c)) as E.
    { apply N.bits_inj. intros i. rewrite !N.shiftr_spec by lia. apply Hc. lia. }
    assert (N.shiftr a c = 2 * N.shiftr a (N.succ c))%N as E1.
    { apply N.bits_inj. intros i. destruct (N.eq_dec i 0) as [->|Hi].
      - rewrite N.shiftr_spec, N.add_0_l by lia. rewrite N.testbit_even_0. done.
      - replace i with (N.succ (N.pred i)) by lia. rewrite N.testbit_even_succ by lia. rewrite !N.shiftr_spec by lia. f_equal. lia. }
    assert (N.shiftr b c = 2 * N.shiftr b (N.succ c) + 1)%N as E2.
    { apply N.bits_inj. intros i. destruct (N.eq_dec i 0) as [->|Hi].
      - rewrite N.shiftr_spec, N.add_0_l by lia. rewrite N.testbit_odd_0. done.
      - replace i with (N.succ (N.pred i)) by lia. rewrite N.testbit_odd_succ by lia. rewrite !N.shiftr_spec by lia. f_equal. lia. }
    rewrite E in E1. rewrite !N.shiftr_div_pow2 in E1, E2. set (p := (2 ^ c)%N) in *. assert (p <> 0)%N by (apply N.pow_nonzero; lia).
    destruct (N.lt_ge_cases a b) as [|Hge]; [done|]. apply (N.div_le_mono b a p) in Hge; [|done]. rewrite E1, E2 in Hge. rewrite <- !N.shiftr_div_pow2 in Hge. lia. }
  split; [|apply Hback]. intros H. assert (N.lxor a b <> 0)%N as Hx by (rewrite N.lxor_eq_0_iff; lia).
  pose proof (N.bit_log2 _ Hx) as Hb. set (c := N.log2 (N.lxor a b)) in *. rewrite N.lxor_spec in Hb.
  assert (forall c', (c < c')%N -> N.testbit a c' = N.testbit b c') as Hc.
  { intros c' Hc'. pose proof (N.bits_above_log2 (N.lxor a b) c' Hc') as E. rewrite N.lxor_spec in E. by apply xorb_eq. }
  exists c. destruct (N.testbit a c) eqn:Ea, (N.testbit b c) eqn:Eb; try done.
  exfalso. assert (b < a)%N; [|lia]. apply Hback. exists c. split; [done|]. split; [done|]. intros. symmetry. by apply Hc.
Qed.
Lemma words_lt_bits v l o k : bv_rep v l -> bv_rep o k ->
  words_lt (bv_data v) (bv_data o) <-> exists x, nth x l false = false /\ nth x k false = true /\
     forall y, y / 64 < x / 64 \/ (y / 64 = x / 64 /\ x < y) -> nth y l false = nth y k false.
Proof.
  intros H H'. pose proof (rep_bits _ _ H) as Hb. pose proof (rep_bits _ _ H') as Hb'. pose proof (rep_words _ _ H) as Hw. pose proof (rep_words _ _ H') as Hw'.
  split.
  - intros (i & Hj & Hi). apply N_lt_bits in Hi as (c & Ha & Hc & Hab).
    assert (c < 64)%N as Hc64.
    { destruct (N.lt_ge_cases c 64) as [|Hge]; [done|]. rewrite (proj1 (word_bits _) (words_nth _ i Hw')) in Hc by lia. done. }
    exists (64 * i + N.to_nat c). rewrite <- Hb, <- Hb', !bit_at_eq, N2Nat.id by lia. split; [done|]. split; [done|]. intros y Hy.
    rewrite <- Hb, <- Hb'. unfold bit_at. destruct (decide (y / 64 < i)) as [Hlt|Hge].
    + by rewrite (Hj _ Hlt).
    + assert (y / 64 = i) as -> by lia. apply Hab. lia.
  - intros (x & Ha & Hc & Hab). exists (x / 64). split.
    + intros j Hj. apply word_eq; [by apply words_nth|by apply words_nth|]. intros b Hb64. rewrite <- !bit_at_eq by done. rewrite Hb, Hb'. apply Hab. lia.
    + apply N_lt_bits. exists (N.of_nat (x mod 64)). rewrite <- Hb in Ha. rewrite <- Hb' in Hc. split; [done|]. split; [done|]. intros c' Hc'.
      destruct (N.lt_ge_cases c' 64) as [Hlt|Hge].
      * replace c' with (N.of_nat (N.to_nat c')) by lia. rewrite <- !bit_at_eq by lia. rewrite Hb, Hb'. apply Hab. lia.
      * by rewrite !(fun d i H => proj1 (word_bits _) (words_nth d i H)) by (lia || done).
Qed.
Lemma bits_less_lt v l o k : bv_rep v l -> bv_rep o k -> bits_less l k <-> length l < length k \/ (length l = length k /\ words_lt (bv_data v) (bv_data o)).
Proof. intros H H'. unfold bits_less. by rewrite (words_lt_bits _ _ _ _ H H'). Qed.
Lemma less_bits_spec v l o k : bv_rep v l -> bv_rep o k -> exists b, bv_less v o = Some b /\ (b = true <-> bits_less l k).
Proof. intros H H'. destruct (less_spec _ _ _ _ H H') as (b & E & Hb). exists b. split; [done|]. by rewrite Hb, (bits_less_lt _ _ _ _ H H'). Qed.

(** [bits_less] is a strict total order. *)
Lemma bits_less_irrefl l : ~ bits_less l l.
Proof. intros [?|(_ & x & H1 & H2 & _)]; [lia|congruence]. Qed.
Lemma bits_less_trans a b c : bits_less a b -> bits_less b c -> bits_less a c.
Proof.
  intros [?|(? & x & H1 & H2 & H3)] [?|(? & y & G1 & G2 & G3)]; [left; lia|left; lia|left; lia|]. right. split; [lia|].
  destruct (decide (y / 64 < x / 64 \/ (y / 64 = x / 64 /\ x < y))) as [Hyx|Hyx].
  - exists y. rewrite (H3 y Hyx). split; [done|]. split; [done|]. intros z Hz. rewrite (H3 z) by lia. apply G3. lia.
  - destruct (decide (x = y)) as [->|]; [congruence|]. exists x. rewrite <- (G3 x) by lia. split; [done|]. split; [done|]. intros z Hz. rewrite (H3 z) by lia. apply G3. lia.
Qed.
Lemma bits_less_total a b : a = b \/ bits_less a b \/ bits_less b a.
Proof.
  destruct (decide (length a = length b)) as [E|]; [|right; unfold bits_less; lia].
  (* the position at which they differ that decides *)
  assert ((forall y, nth y a false = nth y b false) \/ exists x, nth x a false <> nth x b false /\
     forall y, y / 64 < x / 64 \/ (y / 64 = x / 64 /\ x < y) -> nth y a false = nth y b false) as [Hall|(x & Hx & Hy)].
  { assert (forall n, (forall y, y < 64 * n -> nth y a false = nth y b false) \/ exists x, nth x a false <> nth x b false /\
       forall y, y / 64 < x / 64 \/ (y / 64 = x / 64 /\ x < y) -> nth y a false = nth y b false) as Hn.
    { induction n as [|n [IH|IH]]; [left; lia| |by right].
      assert (forall m, m <= 64 -> (forall y, 64 * n + (64 - m) <= y < 64 * S n -> nth y a false = nth y b false) \/ exists x, nth x a false <> nth x b false /\
         forall y, y / 64 < x / 64 \/ (y / 64 = x / 64 /\ x < y) -> nth y a false = nth y b false) as Hm.
      { induction m as [|m IHm]; intros Hm; [left; lia|]. destruct IHm as [IHm|IHm]; [lia| |by right].
        destruct (decide (nth (64 * n + (64 - S m)) a false = nth (64 * n + (64 - S m)) b false)) as [Ex|Ex].
        - left. intros y Hy. destruct (decide (y = 64 * n + (64 - S m))) as [->|]; [done|]. apply IHm. lia.
        - right. exists (64 * n + (64 - S m)). split; [done|]. intros y Hy. destruct (decide (y < 64 * n)); [by apply IH|]. apply IHm. lia. }
      destruct (Hm 64) as [Hm'|Hm']; [lia| |by right]. left. intros y Hy. destruct (decide (y < 64 * n)); [by apply IH|apply Hm'; lia]. }
    destruct (Hn (S (length a))) as [Hn'|Hn']; [|by right]. left. intros y. destruct (decide (y < length a)); [apply Hn'; lia|]. by rewrite !nth_overflow by lia. }
  - left. apply (nth_ext' _ _ false); [done|]. intros i _. apply Hall.
  - right. destruct (nth x a false) eqn:Ea, (nth x b false) eqn:Eb; try done.
    + right. right. split; [done|]. exists x. split; [done|]. split; [done|]. intros y Hy'. symmetry. by apply Hy.
    + left. right. split; [done|]. exists x. done.
Qed.
