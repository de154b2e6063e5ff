(** Rank and select: the mapper is a bijection between the set bits and the local ids. *)
From Verif Require Import Base CchCustomizeProofs BitVectorModel BitVectorSpec BitVectorProofs BitVectorBulkProofs IdMapperModel.
Ltac Zify.zify_post_hook ::= Z.div_mod_to_equations.

(** ** Counting the bits of a word *)
Definition cnt (w : N) (k : nat) : nat := length (filter (fun b => N.testbit w (N.of_nat b) = true) (seq 0 k)).
Lemma cnt_S w k : cnt w (S k) = cnt w k + (if N.testbit w (N.of_nat k) then 1 else 0).
Proof. unfold cnt. rewrite seq_S, filter_app, app_length. f_equal. rewrite filter_cons, filter_nil. cbn [plus]. destruct (decide _) as [->|H]; [done|]. by destruct (N.testbit w _). Qed.
Lemma cnt_le w k : cnt w k <= k.
Proof. induction k as [|k IH]; [done|]. rewrite cnt_S. destruct (N.testbit w _); lia. Qed.
Lemma cnt_ext w w' k : (forall b, b < k -> N.testbit w (N.of_nat b) = N.testbit w' (N.of_nat b)) -> cnt w k = cnt w' k.
Proof. intros H. unfold cnt. apply filter_seq_ext. intros i Hi. by rewrite H. Qed.
Lemma cnt_add w j k : cnt w (j + k) = cnt w j + cnt (N.shiftr w (N.of_nat j)) k.
Proof.
  unfold cnt. rewrite seq_app, filter_app, app_length. f_equal. apply filter_seq_ext. intros i Hi. rewrite N.shiftr_spec by lia. cbn [plus].
  by replace (N.of_nat i + N.of_nat j)%N with (N.of_nat (j + i)) by lia.
Qed.
Lemma cnt_mono w j k : j <= k -> cnt w j <= cnt w k.
Proof. intros H. replace k with (j + (k - j)) by lia. rewrite cnt_add. lia. Qed.
Lemma cnt_zero_tail w j k : (forall b, j <= b < k -> N.testbit w (N.of_nat b) = false) -> j <= k -> cnt w k = cnt w j.
Proof.
  intros H. induction k as [|k IH]; intros Hk; [by replace j with 0 by lia|]. destruct (decide (j = S k)) as [->|]; [done|].
  rewrite cnt_S, H by lia. rewrite IH; [lia|intros; apply H; lia|lia].
Qed.
Lemma popcount_cnt w : popcount w = cnt w 64. Proof. done. Qed.
Lemma popcount_low w r : r <= 64 -> popcount (N.land w (N.shiftl 1 (N.of_nat r) - 1)) = cnt w r.
Proof.
  intros Hr. rewrite popcount_cnt. rewrite N.shiftl_1_l, <- N.pred_sub, <- N.ones_equiv.
  rewrite (cnt_zero_tail _ r 64); [|intros b Hb; rewrite N.land_spec, N.ones_spec_high by lia; apply andb_false_r|lia].
  apply cnt_ext. intros b Hb. rewrite N.land_spec, N.ones_spec_low by lia. apply andb_true_r.
Qed.
Lemma popcount_mask w k : k <= 64 -> popcount (N.land w (N.ones (N.of_nat k))) = cnt w k.
Proof. intros. rewrite <- popcount_low by done. by rewrite N.shiftl_1_l, <- N.pred_sub, <- N.ones_equiv. Qed.

Lemma rank_bits_word d i r : r <= 64 -> rank_bits d (64 * i + r) = rank_bits d (64 * i) + cnt (nth i d 0%N) r.
Proof. intros Hr. rewrite rank_bits_add. f_equal. unfold cnt. apply filter_seq_ext. intros b Hb. rewrite bit_at_eq by lia. done. Qed.
Lemma rank_bits_S d x : rank_bits d (S x) = rank_bits d x + (if bit_at d x then 1 else 0).
Proof. unfold rank_bits. rewrite seq_S, filter_app, app_length. f_equal. rewrite filter_cons, filter_nil. cbn [plus]. destruct (decide _) as [->|H]; [done|]. by destruct (bit_at d x). Qed.
Lemma rank_bits_mono d x y : x <= y -> rank_bits d x <= rank_bits d y.
Proof. intros H. replace y with (x + (y - x)) by lia. rewrite rank_bits_add. lia. Qed.
Lemma rank_bits_inj d x y : bit_at d x = true -> bit_at d y = true -> rank_bits d x = rank_bits d y -> x = y.
Proof.
  intros Hx Hy E. pose proof (rank_bits_S d x) as H1. pose proof (rank_bits_S d y) as H2. rewrite Hx in H1. rewrite Hy in H2.
  destruct (lt_eq_lt_dec x y) as [[Hlt|]|Hgt]; [|done|].
  - pose proof (rank_bits_mono d (S x) y). lia.
  - pose proof (rank_bits_mono d (S y) x). lia.
Qed.

(** ** Selecting inside a word *)
Lemma lowest w k : 0 < cnt w k -> exists p, p < k /\ N.testbit w (N.of_nat p) = true /\ forall b, b < p -> N.testbit w (N.of_nat b) = false.
Proof.
  induction k as [|k IH]; intros H; [unfold cnt in H; cbn in H; lia|]. destruct (decide (0 < cnt w k)) as [Hk|Hk].
  - destruct (IH Hk) as (p & Hp & H1 & H2). exists p. split; [lia|done].
  - rewrite cnt_S in H. destruct (N.testbit w (N.of_nat k)) eqn:E; [|lia]. exists k. split; [lia|]. split; [done|]. intros b Hb.
    destruct (N.testbit w (N.of_nat b)) eqn:Eb; [|done]. pose proof (cnt_mono w (S b) k Hb) as Hm. rewrite cnt_S, Eb in Hm. lia.
Qed.
Lemma clear_lowest w p b : N.testbit w p = true -> (forall c, (c < p)%N -> N.testbit w c = false) ->
  N.testbit (N.land w (w - 1)) b = N.testbit w b && negb (N.eqb b p).
Proof.
  intros Hp Hlow. rewrite N.land_spec. destruct (N.lt_trichotomy b p) as [Hb|[->|Hb]].
  - by rewrite (Hlow b Hb).
  - rewrite Hp, N.eqb_refl. cbn [andb negb].
    set (q := N.shiftr w (N.succ p)).
    assert (w = N.shiftl (2 * q + 1) p) as Ew.
    { apply N.bits_inj. intros i. destruct (N.lt_ge_cases i p) as [Hi|Hi]; [by rewrite N.shiftl_spec_low, Hlow|]. rewrite N.shiftl_spec_high by lia.
      destruct (N.eq_dec i p) as [->|Hne]; [rewrite N.sub_diag, N.testbit_odd_0; done|].
      replace (i - p)%N with (N.succ (i - N.succ p)) by lia. rewrite N.testbit_odd_succ by lia. unfold q. rewrite N.shiftr_spec by lia. f_equal. lia. }
    rewrite N.shiftl_mul_pow2 in Ew. assert (2 ^ p <> 0)%N as Hz by (apply N.pow_nonzero; lia).
    assert (N.shiftr (w - 1) p = 2 * q)%N as Es.
    { rewrite N.shiftr_div_pow2, Ew. symmetry. apply (N.div_unique _ _ _ (2 ^ p - 1)); lia. }
    assert (N.testbit (N.shiftr (w - 1) p) 0 = false) as Et by (rewrite Es; apply N.testbit_even_0).
    by rewrite N.shiftr_spec, N.add_0_l in Et by lia.
  - rewrite (proj2 (N.eqb_neq b p)) by lia. cbn [negb]. rewrite andb_true_r.
    set (q := N.shiftr w (N.succ p)).
    assert (w = N.shiftl (2 * q + 1) p) as Ew.
    { apply N.bits_inj. intros i. destruct (N.lt_ge_cases i p) as [Hi|Hi]; [by rewrite N.shiftl_spec_low, Hlow|]. rewrite N.shiftl_spec_high by lia.
      destruct (N.eq_dec i p) as [->|Hne]; [rewrite N.sub_diag, N.testbit_odd_0; done|].
      replace (i - p)%N with (N.succ (i - N.succ p)) by lia. rewrite N.testbit_odd_succ by lia. unfold q. rewrite N.shiftr_spec by lia. f_equal. lia. }
    rewrite N.shiftl_mul_pow2 in Ew. assert (2 ^ p <> 0)%N as Hz by (apply N.pow_nonzero; lia).
    assert (N.shiftr (w - 1) (N.succ p) = q)%N as Es.
    { rewrite N.shiftr_div_pow2, N.pow_succ_r', Ew. symmetry. apply (N.div_unique _ _ _ (2 ^ p - 1)); lia. }
    assert (N.testbit (w - 1) b = N.testbit w b) as ->; [|apply andb_diag].
    replace b with (b - N.succ p + N.succ p)%N by lia. rewrite <- !N.shiftr_spec by lia. by rewrite Es.
Qed.
Lemma ffs_spec w p : p < 64 -> N.testbit w (N.of_nat p) = true -> (forall b, b < p -> N.testbit w (N.of_nat b) = false) -> ffs w = S p.
Proof.
  intros Hp H Hlow. unfold ffs. assert (list_find (fun b => N.testbit w (N.of_nat b) = true) (seq 0 64) = Some (p, p)) as ->; [|done].
  apply list_find_Some. split; [by rewrite lookup_seq_lt|]. split; [done|]. intros j y Hj Hjp. apply lookup_seq in Hj as [-> ?]. cbn. rewrite Hlow by lia. done.
Qed.
Lemma drop_low_spec n w : n < cnt w 64 -> exists g, g < 64 /\ N.testbit w (N.of_nat g) = true /\ cnt w g = n /\ ffs (drop_low n w) = S g.
Proof.
  revert w. induction n as [|n IH]; intros w Hn.
  - destruct (lowest w 64 Hn) as (p & Hp & H1 & H2). exists p. split; [done|]. split; [done|]. split; [|by apply ffs_spec].
    rewrite (cnt_zero_tail w 0 p); [done|intros; apply H2; lia|lia].
  - destruct (lowest w 64) as (p & Hp & H1 & H2); [lia|]. cbn [drop_low].
    assert (forall b, N.testbit (N.land w (w - 1)) (N.of_nat b) = N.testbit w (N.of_nat b) && negb (bool_decide (b = p))) as Hc.
    { intros b. rewrite (clear_lowest w (N.of_nat p)); [|done|].
      - f_equal. f_equal. case_bool_decide as E; [subst; apply N.eqb_refl|apply N.eqb_neq; lia].
      - intros c Hc. replace c with (N.of_nat (N.to_nat c)) by lia. apply H2. lia. }
    assert (forall k, cnt w k = cnt (N.land w (w - 1)) k + (if decide (p < k) then 1 else 0)) as Hcnt.
    { induction k as [|k IHk]; [done|]. rewrite !cnt_S, IHk, Hc. case_bool_decide as E.
      - subst k. rewrite H1. rewrite (decide_False (P := p < p)) by lia. rewrite (decide_True (P := p < S p)) by lia. cbn. lia.
      - rewrite andb_true_r. destruct (decide (p < k)); [rewrite decide_True by lia|rewrite decide_False by lia]; lia. }
    destruct (IH (N.land w (w - 1))) as (g & Hg & Hb & Hcg & Hf).
    { specialize (Hcnt 64). rewrite decide_True in Hcnt by lia. lia. }
    exists g. split; [done|]. rewrite Hc in Hb. apply andb_true_iff in Hb as [Hb Hne]. apply negb_true_iff, bool_decide_eq_false in Hne.
    split; [done|]. split; [|done]. rewrite Hcnt, Hcg. rewrite decide_True; [lia|].
    destruct (decide (g < p)) as [Hlt|]; [|lia]. rewrite H2 in Hb by done. done.
Qed.
Lemma halve_spec k w0 word n r n0 : 2 * k <= 64 -> word = N.shiftr w0 (N.of_nat r) -> n0 = cnt w0 r + n -> n < cnt word (2 * k) ->
  exists word' n' r', halve k (word, n, r) = (word', n', r') /\ word' = N.shiftr w0 (N.of_nat r') /\ n0 = cnt w0 r' + n' /\ n' < cnt word' k /\ r <= r' <= r + k.
Proof.
  intros Hk -> -> Hn. unfold halve. rewrite popcount_mask by lia. case_decide as H.
  - eexists _, _, _. split; [done|]. rewrite N.shiftr_shiftr. replace (N.of_nat r + N.of_nat k)%N with (N.of_nat (r + k)) by lia. split; [done|].
    rewrite cnt_add. split; [lia|]. split; [|lia]. replace (2 * k) with (k + k) in Hn by lia. rewrite cnt_add in Hn. rewrite N.shiftr_shiftr in Hn.
    replace (N.of_nat r + N.of_nat k)%N with (N.of_nat (r + k)) in Hn by lia. lia.
  - eexists _, _, _. split; [done|]. split; [done|]. split; [done|]. split; [lia|lia].
Qed.
Lemma select64_spec w n : n < popcount w -> exists g, select64 w n = Some g /\ g < 64 /\ N.testbit w (N.of_nat g) = true /\ cnt w g = n.
Proof.
  intros Hn. unfold select64. rewrite (bool_decide_true (n < popcount w)) by done. cbn [chk]. bs. rewrite popcount_cnt in Hn.
  pose proof (cnt_le w 64). rewrite (bool_decide_true (n < 64)) by lia. cbn [chk]. bs.
  destruct (halve_spec 32 w w n 0 n) as (w1 & n1 & r1 & -> & -> & E1 & G1 & R1); [lia|by rewrite N.shiftr_0_r|done|done|].
  pose proof (cnt_le (N.shiftr w (N.of_nat r1)) 32). cbn [fst snd]. rewrite (bool_decide_true (n1 < 32)) by lia. cbn [chk]. bs.
  destruct (halve_spec 16 w (N.shiftr w (N.of_nat r1)) n1 r1 n) as (w2 & n2 & r2 & -> & -> & E2 & G2 & R2); [lia|done|done|done|].
  pose proof (cnt_le (N.shiftr w (N.of_nat r2)) 16). cbn [fst snd]. rewrite (bool_decide_true (n2 < 16)) by lia. cbn [chk]. bs.
  destruct (halve_spec 8 w (N.shiftr w (N.of_nat r2)) n2 r2 n) as (w3 & n3 & r3 & -> & -> & E3 & G3 & R3); [lia|done|done|done|].
  pose proof (cnt_le (N.shiftr w (N.of_nat r3)) 8). cbn [fst snd]. rewrite (bool_decide_true (n3 < 8)) by lia. cbn [chk]. bs.
  destruct (drop_low_spec n3 (N.shiftr w (N.of_nat r3))) as (g & Hg & Hb & Hc & ->).
  { pose proof (cnt_mono (N.shiftr w (N.of_nat r3)) 8 64). lia. }
  rewrite bool_decide_true by lia. cbn [chk]. bs. eexists. split; [done|].
  assert (g < 8) as Hg8.
  { destruct (decide (g < 8)); [done|]. pose proof (cnt_mono (N.shiftr w (N.of_nat r3)) 8 g). lia. }
  replace (r3 + S g - 1) with (r3 + g) by lia. split; [lia|]. rewrite N.shiftr_spec in Hb by lia. replace (N.of_nat g + N.of_nat r3)%N with (N.of_nat (r3 + g)) in Hb by lia.
  split; [done|]. rewrite cnt_add. lia.
Qed.
Lemma select512_spec d fuel b e n r : e <= length d -> b < e -> e <= b + fuel -> rank_bits d (64 * b) + n < rank_bits d (64 * e) ->
  exists x, select512 fuel d b n r = Some (r + x) /\ bit_at d (64 * b + x) = true /\ rank_bits d (64 * b + x) = rank_bits d (64 * b) + n /\ x < 64 * (e - b).
Proof.
  revert b n r. induction fuel as [|f IH]; intros b n r He Hb Hf Hn; [lia|]. cbn [select512]. rewrite (nth_lk d b 0%N) by lia. bs.
  pose proof (popcount_rank d b) as Hp. case_decide as H.
  - destruct (decide (S b = e)) as [<-|Hne]; [lia|].
    destruct (IH (S b) (n - popcount (nth b d 0%N)) (r + 64)) as (x & -> & H1 & H2 & H3); [lia|lia|lia|lia|]. exists (64 + x).
    split; [f_equal; lia|]. replace (64 * b + (64 + x)) with (64 * S b + x) by lia. split; [done|]. split; [lia|lia].
  - destruct (select64_spec (nth b d 0%N) n) as (g & -> & Hg & Hbg & Hc); [lia|]. bs. exists g. split; [done|]. rewrite bit_at_eq by done. split; [done|].
    rewrite rank_bits_word by lia. split; [lia|lia].
Qed.

(** ** Finding the block *)
Lemma gallop_spec R fuel count off h rank n : (forall j, off + j < length rank -> rank !! (off + j) = Some (R (off + j))) ->
  1 <= h -> h < count -> R (off + h) <= n -> off + count < length rank -> count <= 2 * h + fuel ->
  exists step, gallop fuel count off (2 * h) rank n = Some step /\ 1 <= step / 2 < count /\ R (off + step / 2) <= n.
Proof.
  intros HR. revert h. induction fuel as [|f IH]; intros h Hh Hc Hn Hl Hf; cbn [gallop].
  - rewrite decide_False by lia. exists (2 * h). split; [done|]. replace (2 * h / 2) with h by lia. lia.
  - case_decide as H.
    + rewrite HR by lia. bs. case_decide as H'.
      * apply (IH (2 * h)); lia.
      * exists (2 * h). split; [done|]. replace (2 * h / 2) with h by lia. lia.
    + exists (2 * h). split; [done|]. replace (2 * h / 2) with h by lia. lia.
Qed.
Lemma select_block_spec R fuel count off rank n N : (forall j, j <= N -> rank !! j = Some (R j)) -> length rank = S N ->
  off + count = N -> count <= fuel -> R off <= n < R N ->
  exists b, select_block fuel count off rank n = Some b /\ off <= b < N /\ R b <= n < R (b + 1).
Proof.
  intros HR Hlen. revert count off. induction fuel as [|f IH]; intros count off HN Hf Hn.
  { assert (off = N) as Eo by lia. rewrite Eo in Hn. lia. }
  assert (count <> 0) by (intros E0; assert (off = N) as Eo by lia; rewrite Eo in Hn; lia).
  cbn [select_block]. rewrite HR by lia. bs. case_decide as H1.
  - exists off. split; [done|]. lia.
  - assert (count <> 1) by (intros ->; rewrite HN in H1; lia).
    destruct count as [|count]; [done|]. cbn [gallop]. rewrite (decide_True (P := 1 < S count)) by lia. rewrite HR by lia. bs.
    rewrite (decide_True (P := R (off + 1) <= n)) by lia.
    destruct (gallop_spec R count (S count) off 1 rank n) as (step & E & Hs & HRs); [intros; apply HR; lia|lia|lia|lia|lia|lia|].
    rewrite E. bs. destruct (IH (S count - step / 2) (off + step / 2)) as (b & -> & Hb); [lia|lia|lia|]. exists b. split; [done|]. lia.
Qed.

(** ** The tables *)
Lemma block_popcount_spec d j : 8 * j + 8 <= length d -> block_popcount d (8 * j) = Some (rank_bits d (512 * (j + 1)) - rank_bits d (512 * j)).
Proof.
  intros H. unfold block_popcount.
  destruct (for_range_inv (fun k s => rank_bits d (64 * (8 * j + k)) = rank_bits d (512 * j) + s) (fun k s => w ← d !! (8 * j + k); Some (s + popcount w)) 0 8 0) as (s & -> & Hs).
  - lia.
  - rewrite !Nat.add_0_r. f_equal. lia.
  - intros k s Hk Hs. rewrite (nth_lk d _ 0%N) by lia. bs. eexists. split; [done|]. rewrite Nat.add_succ_r, popcount_rank. lia.
  - f_equal. replace (512 * (j + 1)) with (64 * (8 * j + 8)) by lia. lia.
Qed.
Lemma build_rank_spec n d : 8 * ((n + 511) / 512) <= length d ->
  exists rank, build_rank n d = Some rank /\ length rank = S ((n + 511) / 512) /\ forall j, j <= (n + 511) / 512 -> rank !! j = Some (rank_bits d (512 * j)).
Proof.
  intros H. unfold build_rank. set (m := (n + 511) / 512) in *.
  destruct (for_range_inv (fun j '(rank, i, s) => length rank = m + 1 /\ i = 8 * j /\ s = rank_bits d (512 * j) /\ forall k, k < j -> rank !! k = Some (rank_bits d (512 * k)))
    (fun j '(rank, i, s) => rank ← wr rank j s; c ← block_popcount d i; Some (rank, i + 8, s + c)) 0 m (replicate (m + 1) 0, 0, 0)) as ([[rank i] s] & E & H1 & H2 & H3 & H4).
  - lia.
  - split; [apply replicate_length|]. split; [done|]. split; [done|lia].
  - intros j [[rank i] s] Hj (H1 & -> & -> & H4). rewrite wr_Some by lia. bs. rewrite block_popcount_spec by lia. bs. eexists. split; [done|].
    split; [by rewrite insert_length|]. split; [lia|]. split.
    + pose proof (rank_bits_mono d (512 * j) (512 * (j + 1))). replace (512 * S j) with (512 * (j + 1)) by lia. lia.
    + intros k Hk. destruct (decide (k = j)) as [->|]; [apply list_lookup_insert; lia|]. rewrite list_lookup_insert_ne by lia. apply H4. lia.
  - rewrite E. bs. cbv beta iota. rewrite wr_Some by lia. eexists. split; [done|]. split; [rewrite insert_length; lia|]. intros j Hj. subst s.
    destruct (decide (j = m)) as [->|]; [apply list_lookup_insert; lia|]. rewrite list_lookup_insert_ne by lia. apply H4. lia.
Qed.

(** State of the constructor of the select table before block [b]: not yet wrapped, or wrapped
    and stuck because all further ranks are positive. *)
Definition sel_ok (R : nat -> nat) (total nb q : nat) (value : N) (select : list nat) (lo : nat) : Prop :=
  length select = (total + 255) / 256 /\ (forall i b, select !! i = Some b -> R b <= 256 * i /\ (b < nb \/ b = 0)) /\
  ((value = N.of_nat (256 * q) /\ (value < 2 ^ 32)%N) \/ (value = 0%N /\ 0 < lo)).
Lemma select_loop_spec R total nb fuel lo hi b q value select :
  lo = R b -> b < nb -> lo <= hi <= lo + 512 -> hi <= total -> sel_ok R total nb q value select lo ->
  (value < N.of_nat lo)%N \/ (N.of_nat hi <= value + N.of_nat (256 * fuel))%N ->
  exists q' value' select', select_loop fuel lo hi b q value select = Some (q', value', select') /\ sel_ok R total nb q' value' select' lo.
Proof.
  intros Hlo Hb Hhi Htot. revert q value select. induction fuel as [|f IH]; intros q value select (H1 & H2 & H3) Hf; cbn [select_loop].
  - rewrite decide_False by lia. eexists _, _, _. split; [done|]. done.
  - case_decide as H; [|eexists _, _, _; split; [done|done]].
    destruct H3 as [[-> Hv]|[-> Hv]]; [|lia].
    rewrite wr_Some by lia. bs. apply IH.
    + split; [by rewrite insert_length|]. split.
      * intros i b' Hi. destruct (decide (i = q)) as [->|].
        -- rewrite list_lookup_insert in Hi by lia. injection Hi as <-. split; [lia|by left].
        -- rewrite list_lookup_insert_ne in Hi by done. by apply H2.
      * destruct (N.lt_ge_cases (N.of_nat (q + 1) * 256) (2 ^ 32)) as [Hlt|Hge].
        -- left. rewrite N.mod_small by done. split; [lia|done].
        -- right. assert (N.of_nat (q + 1) * 256 = 2 ^ 32)%N as ->; [|split; [done|lia]].
           change (2 ^ 32)%N with 4294967296%N in *. lia.
    + destruct (N.lt_ge_cases (N.of_nat (q + 1) * 256) (2 ^ 32)) as [Hlt|Hge].
      * right. rewrite N.mod_small by done. lia.
      * left. assert (N.of_nat (q + 1) * 256 = 2 ^ 32)%N as ->.
        -- change (2 ^ 32)%N with 4294967296%N in *. lia.
        -- change ((2 ^ 32) mod (2 ^ 32))%N with 0%N. change (2 ^ 32)%N with 4294967296%N in *. lia.
Qed.
Lemma build_select_spec R rank nb : length rank = S nb -> (forall j, j <= nb -> rank !! j = Some (R j)) -> R 0 = 0 ->
  (forall j, j < nb -> R j <= R (j + 1) <= R j + 512) ->
  exists select, build_select rank (R nb) = Some select /\ length select = (R nb + 255) / 256 /\
    forall i b, select !! i = Some b -> R b <= 256 * i /\ (b < nb \/ b = 0).
Proof.
  intros Hl HR H0 Hm. unfold build_select.
  assert (forall j, j <= nb -> R j <= R nb) as Hmono.
  { intros j Hj. replace nb with (j + (nb - j)) by lia. assert (j + (nb - j) <= nb) as Hle by lia. revert Hle. generalize (nb - j). induction n as [|n IHn]; intros Hle; [by rewrite Nat.add_0_r|].
    specialize (Hm (j + n)). rewrite Nat.add_succ_r. replace (S (j + n)) with (j + n + 1) by lia. lia. }
  destruct (for_range_inv (fun b '(q, value, select) => sel_ok R (R nb) nb q value select (R b))
    (fun block '(q, value, select) => lo ← rank !! block; hi ← rank !! (block + 1); select_loop 4 lo hi block q value select) 0 (length rank - 1) (0, 0%N, replicate ((R nb + 255) / 256) 0))
    as ([[q value] select] & E & H1 & H2 & _).
  - lia.
  - split; [apply replicate_length|]. split; [|left; done]. intros i b [-> _]%lookup_replicate. rewrite H0. lia.
  - intros b [[q value] select] Hb Hok. rewrite !HR by lia. bs.
    destruct (select_loop_spec R (R nb) nb 4 (R b) (R (b + 1)) b q value select) as (q' & v' & s' & -> & H1 & H2 & H3); [done|lia|apply Hm; lia|apply Hmono; lia|done| |].
    { specialize (Hm b). lia. }
    eexists. split; [done|]. split; [done|]. split; [done|]. destruct H3 as [?|[? ?]]; [by left|]. right. split; [done|]. specialize (Hm b). replace (S b) with (b + 1) by lia. lia.
  - rewrite E. bs. eexists. split; [done|]. done.
Qed.

(** ** The mapper of a bit vector *)
Record mapper_of (m : mapper) (l : list bool) : Prop := {
  mo_count : bit_count_ m = length l;
  mo_len : length (bits_ m) = (length l + 511) / 512 * 8;
  mo_bits : forall x, bit_at (bits_ m) x = nth x l false;
  mo_rank_len : length (rank_ m) = S ((length l + 511) / 512);
  mo_rank : forall j, j <= (length l + 511) / 512 -> rank_ m !! j = Some (rank_bits (bits_ m) (512 * j));
  mo_ranks : forall x, rank_bits (bits_ m) x = count_true (take x l);
  mo_select_len : length (select_ m) = (count_true l + 255) / 256;
  mo_select : forall i b, select_ m !! i = Some b -> rank_bits (bits_ m) (512 * b) <= 256 * i /\ (b < (length l + 511) / 512 \/ b = 0) }.

Lemma new_mapper_spec v l : bv_rep v l -> exists m, new_mapper (bv_size v) (bv_data v) = Some m /\ mapper_of m l.
Proof.
  intros H. unfold new_mapper. pose proof (rep_len _ _ H) as Hlen. rewrite (rep_size _ _ H).
  destruct (build_rank_spec (length l) (bv_data v)) as (rank & -> & Hrl & HR); [lia|]. bs.
  set (nb := (length l + 511) / 512) in *. set (R := fun j => rank_bits (bv_data v) (512 * j)).
  assert (default 0 (last rank) = R nb) as ->. { rewrite last_lookup, Hrl. cbn [pred]. rewrite HR by lia. done. }
  assert (R nb = count_true l) as Htot. { unfold R. rewrite (rank_rep _ _ _ H), take_ge; [done|]. unfold nb. lia. }
  destruct (build_select_spec R rank nb) as (select & -> & Hsl & Hsel); [done|done|done| |].
  { intros j Hj. unfold R. split; [apply rank_bits_mono; lia|]. replace (512 * (j + 1)) with (512 * j + 512) by lia. rewrite rank_bits_add.
    pose proof (filter_length (fun y => bit_at (bv_data v) y = true) (seq (512 * j) 512)) as Hle. rewrite seq_length in Hle. lia. }
  bs. eexists. split; [done|]. split; cbn [bit_count_ bits_ rank_ select_].
  - done.
  - done.
  - apply (rep_bits _ _ H).
  - done.
  - done.
  - intros x. apply (rank_rep _ _ _ H).
  - by rewrite Hsl, Htot.
  - done.
Qed.
Lemma local_count_spec m l : mapper_of m l -> local_id_count m = count_true l.
Proof.
  intros H. unfold local_id_count. rewrite last_lookup, (mo_rank_len _ _ H). cbn [pred]. rewrite (mo_rank _ _ H) by lia. cbn [from_option]. rewrite (mo_ranks _ _ H), take_ge; [done|]. lia.
Qed.
Lemma test_bit_spec m l g : mapper_of m l -> g < length l ->
  exists w, bits_ m !! (g / 64) = Some w /\ (N.land w (N.shiftl 1 (N.of_nat (g mod 64))) =? 0)%N = negb (nth g l false).
Proof.
  intros H Hg. pose proof (mo_len _ _ H). rewrite (nth_lk (bits_ m) (g / 64) 0%N) by lia. eexists. split; [done|]. rewrite <- (mo_bits _ _ H).
  unfold bit_at. set (w := nth (g / 64) (bits_ m) 0%N). destruct (N.testbit w (N.of_nat (g mod 64))) eqn:E; cbn [negb].
  - apply N.eqb_neq. intros Hz. assert (N.testbit (N.land w (N.shiftl 1 (N.of_nat (g mod 64)))) (N.of_nat (g mod 64)) = false) as Hf by (rewrite Hz; apply N.bits_0).
    rewrite N.land_spec, E, shift1_bit, bool_decide_true in Hf by done. done.
  - apply N.eqb_eq. apply N.bits_inj. intros i. rewrite N.bits_0, N.land_spec. replace i with (N.of_nat (N.to_nat i)) by lia. rewrite shift1_bit.
    case_bool_decide as Hi; [|apply andb_false_r]. by rewrite <- Hi, E.
Qed.
Lemma mapped_spec m l g : mapper_of m l -> g < length l -> is_global_id_mapped m g = Some (nth g l false).
Proof.
  intros H Hg. unfold is_global_id_mapped, global_id_count. rewrite (mo_count _ _ H), bool_decide_true by done. cbn [chk]. bs.
  destruct (test_bit_spec m l g H Hg) as (w & -> & Hw). bs. by rewrite Hw, negb_involutive.
Qed.
Lemma rank_of_spec m l g : mapper_of m l -> g < length l -> rank_of m g = Some (count_true (take g l)).
Proof.
  intros H Hg. unfold rank_of. pose proof (mo_len _ _ H) as Hlen. rewrite (mo_rank _ _ H) by lia. bs.
  destruct (for_range_inv (fun i s => s = rank_bits (bits_ m) (64 * i)) (fun i local => x ← bits_ m !! i; Some (local + popcount x)) (g / 512 * 8) (g / 64) (rank_bits (bits_ m) (512 * (g / 512)))) as (s & -> & ->).
  - lia.
  - f_equal. lia.
  - intros i s Hi ->. rewrite (nth_lk (bits_ m) i 0%N) by lia. bs. eexists. split; [done|]. by rewrite popcount_rank.
  - bs. rewrite (nth_lk (bits_ m) (g / 64) 0%N) by lia. bs. rewrite popcount_low by lia. rewrite <- rank_bits_word by lia.
    replace (64 * (g / 64) + g mod 64) with g by lia. by rewrite (mo_ranks _ _ H).
Qed.
Lemma count_lt m l g : mapper_of m l -> nth g l false = true -> g < length l /\ count_true (take g l) < count_true l.
Proof.
  intros H Hg. assert (g < length l) as Hlt by (destruct (decide (g < length l)); [done|]; by rewrite nth_overflow in Hg by lia). split; [done|].
  rewrite <- (mo_ranks _ _ H). pose proof (rank_bits_S (bits_ m) g) as Hs. rewrite (mo_bits _ _ H), Hg in Hs. pose proof (rank_bits_mono (bits_ m) (S g) (length l) Hlt) as Hm.
  rewrite (mo_ranks _ _ H (length l)), take_ge in Hm by lia. lia.
Qed.
Lemma to_local_spec m l g : mapper_of m l -> nth g l false = true -> to_local m g = Some (count_true (take g l)).
Proof.
  intros H Hg. destruct (count_lt _ _ _ H Hg) as [Hlt Hc]. unfold to_local. unfold global_id_count. rewrite (mo_count _ _ H), bool_decide_true by done. cbn [chk]. bs.
  rewrite (mapped_spec _ _ _ H Hlt). bs. rewrite Hg. cbn [chk]. bs. rewrite (rank_of_spec _ _ _ H Hlt). bs. rewrite (local_count_spec _ _ H), bool_decide_true by done. done.
Qed.
Lemma to_local_or_spec m l g d : mapper_of m l -> to_local_or m g d = Some (if nth g l false then Some (count_true (take g l)) else d).
Proof.
  intros H. unfold to_local_or, global_id_count. rewrite (mo_count _ _ H). case_decide as Hg; [by rewrite nth_overflow|].
  destruct (test_bit_spec m l g H) as (w & -> & Hw); [lia|]. bs. rewrite Hw. destruct (nth g l false) eqn:E; cbn [negb]; [|done].
  rewrite (rank_of_spec _ _ _ H) by lia. bs. rewrite (local_count_spec _ _ H). destruct (count_lt _ _ _ H E). rewrite bool_decide_true by done. done.
Qed.
Lemma to_global_spec m l i : mapper_of m l -> i < count_true l -> exists g, to_global m i = Some g /\ nth g l false = true /\ count_true (take g l) = i.
Proof.
  intros H Hi. unfold to_global. rewrite (local_count_spec _ _ H), bool_decide_true by done. cbn [chk]. bs. pose proof (mo_len _ _ H) as Hlen.
  destruct (lookup_lt_is_Some_2 (select_ m) (i / 256)) as [start Hs]; [rewrite (mo_select_len _ _ H); lia|]. rewrite Hs. bs.
  destruct (mo_select _ _ H _ _ Hs) as [Hr Hb]. rewrite (mo_count _ _ H). set (nb := (length l + 511) / 512) in *.
  assert (rank_bits (bits_ m) (512 * nb) = count_true l) as Htot by (rewrite (mo_ranks _ _ H), take_ge; [done|unfold nb; lia]).
  assert (start < nb) as Hst.
  { destruct Hb as [?| ->]; [done|]. destruct (decide (nb = 0)) as [E|]; [|lia]. rewrite E in Htot. cbn in Htot. lia. }
  rewrite (mo_rank _ _ H) by (fold nb; lia). bs. rewrite bool_decide_true by lia. cbn [chk]. bs. unfold bit_select. rewrite bool_decide_true by lia. cbn [chk]. bs.
  destruct (select_block_spec (fun j => rank_bits (bits_ m) (512 * j)) (nb - start) (nb - start) start (rank_ m) i nb) as (b & -> & Hbn & Hrb).
  { intros j Hj. by apply (mo_rank _ _ H). } { apply (mo_rank_len _ _ H). } { lia. } { lia. } { lia. }
  bs. rewrite (mo_rank _ _ H) by (fold nb; lia). bs. rewrite bool_decide_true by lia. cbn [chk]. bs.
  replace (512 * b) with (64 * (8 * b)) in Hrb |- * by lia. replace (512 * (b + 1)) with (64 * (8 * b + 8)) in Hrb by lia.
  destruct (select512_spec (bits_ m) 8 (8 * b) (8 * b + 8) (i - rank_bits (bits_ m) (64 * (8 * b))) 0) as (x & -> & H1 & H2 & H3); [lia|lia|lia|lia|]. bs.
  assert (0 + x + b * 512 = 64 * (8 * b) + x) as -> by lia. set (g := 64 * (8 * b) + x) in *. rewrite (mo_bits _ _ H) in H1.
  destruct (count_lt _ _ _ H H1) as [Hg _]. rewrite (mapped_spec _ _ _ H Hg). bs. rewrite H1. cbn [chk]. bs. rewrite (to_local_spec _ _ _ H H1). bs.
  rewrite <- (mo_ranks _ _ H), H2. rewrite bool_decide_true by lia. cbn [chk]. bs. exists g. split; [done|]. split; [done|]. rewrite <- (mo_ranks _ _ H), H2. lia.
Qed.
Lemma to_global_local m l g : mapper_of m l -> nth g l false = true -> to_global m (count_true (take g l)) = Some g.
Proof.
  intros H Hg. destruct (count_lt _ _ _ H Hg) as [_ Hc]. destruct (to_global_spec _ _ _ H Hc) as (g' & E & Hg' & Hr). rewrite E. f_equal.
  apply (rank_bits_inj (bits_ m)); [by rewrite (mo_bits _ _ H)|by rewrite (mo_bits _ _ H)|]. by rewrite !(mo_ranks _ _ H).
Qed.
