(** Bit vectors implement lists of booleans. *)
From Verif Require Import Base CchCustomizeProofs BitVectorModel BitVectorSpec.
Ltac Zify.zify_post_hook ::= Z.div_mod_to_equations.

(** ** Words *)
Definition word (w : N) : Prop := (w < 2 ^ 64)%N.
Lemma word_bits w : word w <-> forall b, (64 <= b)%N -> N.testbit w b = false.
Proof.
  unfold word. split.
  - intros H b Hb. destruct (N.eq_dec w 0) as [->|Hw]; [apply N.bits_0|].
    apply N.bits_above_log2. apply N.log2_lt_pow2; [lia|]. eapply N.lt_le_trans; [exact H|]. apply N.pow_le_mono_r; lia.
  - intros H. destruct (N.eq_dec w 0) as [->|Hw]; [done|]. apply N.log2_lt_pow2; [lia|].
    destruct (N.lt_ge_cases (N.log2 w) 64) as [?|Hge]; [done|]. specialize (H _ Hge). by rewrite N.bit_log2 in H.
Qed.
Lemma word_eq w w' : word w -> word w' -> (forall b, b < 64 -> N.testbit w (N.of_nat b) = N.testbit w' (N.of_nat b)) -> w = w'.
Proof.
  intros H H' E. apply N.bits_inj. intros b. destruct (N.lt_ge_cases b 64) as [Hb|Hb].
  - specialize (E (N.to_nat b) ltac:(lia)). by rewrite N2Nat.id in E.
  - rewrite (proj1 (word_bits w) H), (proj1 (word_bits w') H'); done.
Qed.
Lemma ones_bit b : b < 64 -> N.testbit ones64 (N.of_nat b) = true.
Proof. intros. apply N.ones_spec_low. lia. Qed.
Lemma ones_high b : (64 <= b)%N -> N.testbit ones64 b = false.
Proof. intros. by apply N.ones_spec_high. Qed.
Lemma not64_bit w b : b < 64 -> N.testbit (not64 w) (N.of_nat b) = negb (N.testbit w (N.of_nat b)).
Proof. intros. unfold not64. rewrite N.lxor_spec, ones_bit by done. by destruct (N.testbit w _). Qed.
Lemma word_0 : word 0. Proof. done. Qed.
Lemma word_ones : word ones64. Proof. done. Qed.
Lemma word_land w w' : word w -> word (N.land w w').
Proof. rewrite !word_bits. intros H b Hb. by rewrite N.land_spec, H. Qed.
Lemma word_lor w w' : word w -> word w' -> word (N.lor w w').
Proof. rewrite !word_bits. intros H H' b Hb. by rewrite N.lor_spec, H, H'. Qed.
Lemma word_lxor w w' : word w -> word w' -> word (N.lxor w w').
Proof. rewrite !word_bits. intros H H' b Hb. by rewrite N.lxor_spec, H, H'. Qed.
Lemma word_not w : word w -> word (not64 w).
Proof. intros. apply word_lxor; [done|apply word_ones]. Qed.
Lemma word_shift v b : b < 64 -> word (N.shiftl (N.b2n v) (N.of_nat b)).
Proof.
  intros Hb. apply word_bits. intros c Hc. rewrite N.shiftl_spec_high' by lia. destruct v; cbn [N.b2n].
  - destruct (c - N.of_nat b)%N eqn:E; [lia|]. done.
  - apply N.bits_0.
Qed.
Lemma shift_bit v b c : N.testbit (N.shiftl (N.b2n v) (N.of_nat b)) (N.of_nat c) = bool_decide (b = c) && v.
Proof.
  destruct (decide (c < b)) as [Hlt|Hge].
  - rewrite N.shiftl_spec_low by lia. rewrite bool_decide_false by lia. done.
  - rewrite N.shiftl_spec_high' by lia. destruct (decide (b = c)) as [->|Hne].
    + rewrite N.sub_diag, bool_decide_true by done. by destruct v.
    + rewrite bool_decide_false by done. destruct v; cbn [N.b2n]; [|apply N.bits_0].
      destruct (N.of_nat c - N.of_nat b)%N eqn:E; [lia|done].
Qed.
Lemma shift1_bit b c : N.testbit (N.shiftl 1 (N.of_nat b)) (N.of_nat c) = bool_decide (b = c).
Proof. rewrite (shift_bit true). apply andb_true_r. Qed.

(** ** Arrays of words *)
Definition words (d : list N) : Prop := Forall word d.
Lemma words_nth d i : words d -> word (nth i d 0%N).
Proof.
  intros H. destruct (nth_in_or_default i d 0%N) as [Hin| ->]; [|apply word_0].
  unfold words in H. rewrite Forall_forall in H. apply H. by apply elem_of_list_In.
Qed.
Lemma words_of d : (forall i, i < length d -> word (nth i d 0%N)) -> words d.
Proof.
  intros H. apply Forall_forall. intros w (i & Hi)%elem_of_list_lookup.
  rewrite <- (nth_lookup_Some _ _ 0%N _ Hi). apply H. by eapply lookup_lt_Some.
Qed.
Lemma nth_lk {A} (d : list A) i x : i < length d -> d !! i = Some (nth i d x).
Proof. intros H. destruct (lookup_lt_is_Some_2 d i H) as [w Hw]. by rewrite (nth_lookup_Some _ _ x _ Hw). Qed.
Lemma nth_insert {A} (d : list A) i j x y : i < length d -> nth j (<[i := x]> d) y = if decide (j = i) then x else nth j d y.
Proof.
  intros H. rewrite !nth_lookup. case_decide as Hj.
  - subst. by rewrite list_lookup_insert.
  - by rewrite list_lookup_insert_ne.
Qed.
Lemma nth_ext' {A} (l k : list A) d : length l = length k -> (forall i, i < length l -> nth i l d = nth i k d) -> l = k.
Proof. intros. by apply (nth_ext _ _ d d). Qed.

Lemma upd_block_spec f k d : 8 * k + 8 <= length d -> exists d', upd_block f k d = Some d' /\ length d' = length d /\
  forall i, nth i d' 0%N = if decide (i / 8 = k) then f (i mod 8) (nth i d 0%N) else nth i d 0%N.
Proof.
  intros H. unfold upd_block.
  destruct (for_range_inv (fun j d' => length d' = length d /\
    forall i, nth i d' 0%N = if decide (i / 8 = k /\ i mod 8 < j) then f (i mod 8) (nth i d 0%N) else nth i d 0%N)
    (fun j d => w ← d !! (8 * k + j); wr d (8 * k + j) (f j w)) 0 8 d) as (d' & -> & H1 & H2).
  - lia.
  - split; [done|]. intros i. rewrite decide_False by lia. done.
  - intros j d1 Hj (H1 & H2). rewrite (nth_lk d1 _ 0%N) by lia. rewrite bind_S, wr_Some by lia. eexists. split; [done|].
    rewrite insert_length. split; [done|]. intros i. rewrite nth_insert by lia. rewrite !H2.
    destruct (decide (i = 8 * k + j)) as [->|Hne].
    + rewrite (decide_False (P := (8 * k + j) / 8 = k /\ (8 * k + j) mod 8 < j)) by lia. rewrite decide_True by lia.
      by replace ((8 * k + j) mod 8) with j by lia.
    + destruct (decide (i / 8 = k /\ i mod 8 < j)); [rewrite decide_True by lia|rewrite decide_False by lia]; done.
  - exists d'. split; [done|]. split; [done|]. intros i. rewrite H2. repeat case_decide; lia || done.
Qed.
Lemma blocks_spec (f : nat -> nat -> N -> N) lo hi d : lo <= hi -> 8 * hi <= length d ->
  exists d', for_range lo hi (fun k d => upd_block (f k) k d) d = Some d' /\ length d' = length d /\
  forall i, nth i d' 0%N = if decide (lo <= i / 8 < hi) then f (i / 8) (i mod 8) (nth i d 0%N) else nth i d 0%N.
Proof.
  intros Hle H.
  destruct (for_range_inv (fun k d' => length d' = length d /\
    forall i, nth i d' 0%N = if decide (lo <= i / 8 < k) then f (i / 8) (i mod 8) (nth i d 0%N) else nth i d 0%N)
    (fun k d => upd_block (f k) k d) lo hi d) as (d' & -> & H1 & H2).
  - lia.
  - split; [done|]. intros i. rewrite decide_False by lia. done.
  - intros k d1 Hk (H1 & H2). destruct (upd_block_spec (f k) k d1) as (d2 & -> & H3 & H4); [lia|]. exists d2. split; [done|].
    split; [lia|]. intros i. rewrite H4, H2. destruct (decide (i / 8 = k)) as [<-|Hne].
    + rewrite decide_False by lia. rewrite decide_True by lia. done.
    + repeat case_decide; lia || done.
  - by exists d'.
Qed.
Lemma block_spec d k : 8 * k + 8 <= length d -> exists b, block d k = Some b /\ length b = 8 /\ forall j, j < 8 -> nth j b 0%N = nth (8 * k + j) d 0%N.
Proof.
  intros H. unfold block.
  assert (mapM (fun j => d !! (8 * k + j)) (seq 0 8) = Some ((fun j => nth (8 * k + j) d 0%N) <$> seq 0 8)) as ->.
  { apply mapM_Some_2. apply Forall2_fmap_r, Forall_Forall2_diag, Forall_forall. intros j Hj%elem_of_seq. apply nth_lk. lia. }
  eexists. split; [done|]. split; [done|]. intros j Hj. do 8 (destruct j as [|j]; [done|]). lia.
Qed.

(** ** The padding mask *)
Lemma mask_loop_spec fuel x i u : length u = 8 -> i * 64 + x < 512 -> x <= 64 * fuel ->
  (forall j, i <= j -> nth j u 0%N = 0%N) ->
  exists u' i' x', mask_loop fuel x i u = Some (u', i', x') /\ length u' = 8 /\ i' * 64 + x' = i * 64 + x /\ x' < 64 /\
    (forall j, j < i -> nth j u' 0%N = nth j u 0%N) /\ (forall j, i <= j < i' -> nth j u' 0%N = ones64) /\ (forall j, i' <= j -> nth j u' 0%N = 0%N).
Proof.
  revert x i u. induction fuel as [|fuel IH]; intros x i u Hu Hx Hf Hz; cbn [mask_loop].
  - rewrite decide_False by lia. exists u, i, x. split; [done|]. split; [done|]. split; [done|]. split; [lia|]. split; [done|]. split; [lia|done].
  - destruct (decide (64 <= x)) as [H|H].
    + rewrite wr_Some, bind_S by lia. destruct (IH (x - 64) (S i) (<[i := ones64]> u)) as (u' & i' & x' & -> & H1 & H2 & H3 & H4 & H5 & H6).
      * by rewrite insert_length.
      * lia.
      * lia.
      * intros j Hj. rewrite nth_insert, decide_False by lia. apply Hz. lia.
      * exists u', i', x'. split; [done|]. split; [done|]. split; [lia|]. split; [done|]. split; [|split; [|done]].
        -- intros j Hj. rewrite H4, nth_insert, decide_False by lia. done.
        -- intros j Hj. destruct (decide (j = i)) as [->|]; [|apply H5; lia]. rewrite H4, nth_insert, decide_True by lia. done.
    + exists u, i, x. split; [done|]. split; [done|]. split; [done|]. split; [lia|]. split; [done|]. split; [lia|done].
Qed.
Lemma padding_mask_spec size : exists m, padding_mask size = Some m /\ length m = 8 /\ words m /\
  forall j b, b < 64 -> N.testbit (nth j m 0%N) (N.of_nat b) = bool_decide (64 * j + b < size mod 512).
Proof.
  unfold padding_mask.
  destruct (mask_loop_spec 8 (size mod 512) 0 (replicate 8 0%N)) as (u & i & x & -> & Hl & Hx & Hx64 & _ & H1 & H2).
  { done. } { lia. } { lia. } { intros j _. rewrite nth_lookup. destruct (replicate 8 0%N !! j) as [w|] eqn:E; [|done]. by apply lookup_replicate in E as [-> _]. }
  assert (forall j b, j < i -> b < 64 -> N.testbit (nth j u 0%N) (N.of_nat b) = bool_decide (64 * j + b < size mod 512)) as Hlow.
  { intros j b Hj Hb. rewrite H1, ones_bit by lia. rewrite bool_decide_true by lia. done. }
  assert (words u) as Hw.
  { apply words_of. intros j _. destruct (decide (j < i)); [rewrite H1 by lia; apply word_ones|rewrite H2 by lia; apply word_0]. }
  rewrite bind_S. cbv beta iota. case_decide as Hne; [subst x|].
  - exists u. split; [done|]. split; [done|]. split; [done|]. intros j b Hb. destruct (decide (j < i)); [by apply Hlow|].
    rewrite H2, N.bits_0 by lia. rewrite bool_decide_false by lia. done.
  - assert (i < 8) by lia. rewrite wr_Some by lia. eexists. split; [done|]. rewrite insert_length. split; [done|].
    assert ((N.shiftl 1 (N.of_nat x) - 1)%N = N.ones (N.of_nat x)) as ->.
    { rewrite N.ones_equiv, N.shiftl_1_l. lia. }
    split.
    + apply words_of. intros j _. rewrite nth_insert by lia. case_decide; [|by apply words_nth].
      apply word_bits. intros b Hb. apply N.ones_spec_high. lia.
    + intros j b Hb. rewrite nth_insert by lia. destruct (decide (j = i)) as [->|Hj].
      * destruct (decide (b < x)); [rewrite N.ones_spec_low by lia; rewrite bool_decide_true by lia; done|].
        rewrite N.ones_spec_high by lia. rewrite bool_decide_false by lia. done.
      * destruct (decide (j < i)); [by apply Hlow|]. rewrite H2, N.bits_0 by lia. rewrite bool_decide_false by lia. done.
Qed.

(** ** Bits *)
Lemma bit_at_eq d i b : b < 64 -> bit_at d (64 * i + b) = N.testbit (nth i d 0%N) (N.of_nat b).
Proof. intros. unfold bit_at. by replace ((64 * i + b) / 64) with i by lia; replace ((64 * i + b) mod 64) with b by lia. Qed.
Lemma bit_at_out d x : 64 * length d <= x -> bit_at d x = false.
Proof. intros. unfold bit_at. rewrite nth_overflow by lia. apply N.bits_0. Qed.
Lemma data_eq d d' : words d -> words d' -> length d = length d' -> (forall x, x < 64 * length d -> bit_at d x = bit_at d' x) -> d = d'.
Proof.
  intros H H' Hl E. apply (nth_ext' _ _ 0%N Hl). intros i Hi. apply word_eq; [by apply words_nth|by apply words_nth|].
  intros b Hb. rewrite <- !bit_at_eq by done. apply E. lia.
Qed.

(** The state of a vector whose padding may be dirty. *)
Definition raw (v : bitvec) : Prop := length (bv_data v) = u64_count (bv_size v) /\ words (bv_data v) /\ (bv_null v = true -> bv_size v = 0).

Lemma reset_padding_spec v : raw v -> exists v', reset_padding v = Some v' /\ raw v' /\ bv_size v' = bv_size v /\ bv_null v' = bv_null v /\
  forall x, bit_at (bv_data v') x = bit_at (bv_data v) x && bool_decide (x < bv_size v).
Proof.
  intros (Hl & Hw & Hn). unfold reset_padding, u64_count, v8_count in *. case_decide as H.
  - exists v. split; [done|]. split; [done|]. split; [done|]. split; [done|]. intros x. case_bool_decide; [by rewrite andb_true_r|].
    rewrite andb_false_r. apply bit_at_out. lia.
  - destruct (padding_mask_spec (bv_size v)) as (m & -> & Hm & Hmw & Hmb). rewrite bind_S.
    destruct (upd_block_spec (fun j w => N.land w (nth j m 0%N)) (bv_size v / 512) (bv_data v)) as (d & -> & Hd & Hn'); [lia|]. bs.
    eexists. split; [done|]. cbn [bv_data bv_size bv_null]. split; [|split; [done|split; [done|]]].
    + split; [cbn [bv_data bv_size]; unfold u64_count, v8_count; lia|]. split; [|done]. apply words_of. intros i Hi. cbn [bv_data]. rewrite Hn'.
      case_decide; [apply word_land|]; by apply words_nth.
    + intros x. unfold bit_at. rewrite Hn'. case_decide as Hk.
      * rewrite N.land_spec, Hmb by lia. f_equal. apply bool_decide_ext. lia.
      * destruct (decide (x < bv_size v)) as [Hx|Hx]; [rewrite bool_decide_true by done; by rewrite andb_true_r|].
        rewrite bool_decide_false by done. rewrite andb_false_r. rewrite nth_overflow by lia. apply N.bits_0.
Qed.

Lemma rep_of v l : raw v -> bv_size v = length l -> (forall x, bit_at (bv_data v) x = nth x l false) -> bv_rep v l.
Proof.
  intros (Hl & Hw & Hn) Hs Hb. split; [done| |done|done|].
  - rewrite <- Hs. apply Hl.
  - intros E. destruct l; [done|]. cbn in Hs. rewrite Hn in Hs by done. done.
Qed.
Lemma rep_raw v l : bv_rep v l -> raw v.
Proof.
  intros H. split; [unfold u64_count, v8_count; rewrite (rep_size _ _ H); apply H|]. split; [apply H|].
  intros E. rewrite (rep_size _ _ H). by rewrite (rep_null _ _ H E).
Qed.
Lemma bits_of v n (f : nat -> bool) : raw v -> bv_size v = n -> (forall x, bit_at (bv_data v) x = bool_decide (x < n) && f x) -> bv_rep v (f <$> seq 0 n).
Proof.
  intros Hr Hs Hb. apply rep_of; [done|by rewrite fmap_length, seq_length|]. intros x. rewrite Hb, nth_lookup, list_lookup_fmap.
  case_bool_decide; [rewrite lookup_seq_lt by lia; done|]. rewrite lookup_seq_ge by lia. done.
Qed.

(** ** Single bits *)
Lemma access_spec v l x : bv_rep v l -> x < length l -> bv_access v x = Some (nth (x / 64) (bv_data v) 0%N).
Proof.
  intros H Hx. unfold bv_access. rewrite (rep_size _ _ H), bool_decide_true by done. cbn [chk]. bs. apply nth_lk. rewrite (rep_len _ _ H). lia.
Qed.
Lemma is_set_spec v l x : bv_rep v l -> x < length l -> bv_is_set v x = l !! x.
Proof.
  intros H Hx. unfold bv_is_set. rewrite (access_spec _ _ _ H Hx). bs. rewrite (nth_lk l x false Hx), <- (rep_bits _ _ H). f_equal.
  unfold bit_at. set (w := nth (x / 64) (bv_data v) 0%N). set (b := x mod 64).
  destruct (N.testbit w (N.of_nat b)) eqn:E.
  - apply negb_true_iff, N.eqb_neq. intros E'. assert (N.testbit (N.land w (N.shiftl 1 (N.of_nat b))) (N.of_nat b) = false) as Hf by (by rewrite E', N.bits_0).
    rewrite N.land_spec, shift1_bit, bool_decide_true, E in Hf by done. done.
  - apply negb_false_iff, N.eqb_eq. apply N.bits_inj. intros c. rewrite N.bits_0, N.land_spec.
    rewrite <- (N2Nat.id c), shift1_bit. case_bool_decide as Hc; [|apply andb_false_r]. rewrite <- Hc. by rewrite E.
Qed.
Lemma store_spec v l x d y : bv_rep v l -> x < length l -> word d ->
  (forall b, b < 64 -> N.testbit d (N.of_nat b) = if decide (b = x mod 64) then y else N.testbit (nth (x / 64) (bv_data v) 0%N) (N.of_nat b)) ->
  exists v', bv_store v x d = Some v' /\ bv_rep v' (<[x := y]> l).
Proof.
  intros H Hx Hd Hb. unfold bv_store. pose proof (rep_len _ _ H) as Hl. rewrite wr_Some by lia. bs. eexists. split; [done|].
  apply rep_of; cbn [bv_data bv_size bv_null].
  - destruct (rep_raw _ _ H) as (H1 & H2 & H3). split; [by cbn [bv_data bv_size]; rewrite insert_length|]. split; [|done]. cbn [bv_data]. by apply Forall_insert.
  - rewrite insert_length. apply H.
  - intros z. rewrite nth_insert by done. rewrite <- (rep_bits _ _ H). unfold bit_at. rewrite nth_insert by lia.
    destruct (decide (z / 64 = x / 64)) as [E|E].
    + rewrite Hb by lia. repeat case_decide; try lia; try done. by rewrite E.
    + rewrite decide_False by (intros ->; done). done.
Qed.
Lemma op_spec v l o : bv_rep v l -> op_index o < length l -> exists v', op_call o v = Some v' /\ bv_rep v' (op_list l o).
Proof.
  intros H Hx. assert (forall x, x < length l -> word (nth (x / 64) (bv_data v) 0%N)) as Hw by (intros; by apply words_nth, H).
  assert (forall x, nth x l false = N.testbit (nth (x / 64) (bv_data v) 0%N) (N.of_nat (x mod 64))) as Hold by (intros; by rewrite <- (rep_bits _ _ H)).
  destruct o as [x|x b|x b|x|x]; cbn [op_index op_list op_call op_value] in *; unfold op_list; cbn [op_index op_value];
    unfold bv_set, bv_set_if, bv_set_to, bv_reset, bv_toggle; rewrite (access_spec _ _ _ H Hx); bs; (apply (store_spec v l); [done|done|..]).
  - apply word_lor; [by apply Hw|apply (word_shift true); lia].
  - intros c Hc. rewrite N.lor_spec, shift1_bit. case_decide; [subst; rewrite bool_decide_true by done; apply orb_true_r|].
    rewrite bool_decide_false by lia. apply orb_false_r.
  - apply word_lor; [by apply Hw|apply word_shift; lia].
  - intros c Hc. rewrite N.lor_spec, shift_bit. case_decide; [subst; rewrite bool_decide_true by done; by rewrite Hold|].
    rewrite bool_decide_false by lia. apply orb_false_r.
  - apply word_lor; [by apply word_land, Hw|apply word_shift; lia].
  - intros c Hc. rewrite N.lor_spec, N.land_spec, not64_bit, shift1_bit, shift_bit by done. case_decide; [subst; rewrite bool_decide_true by done; by rewrite andb_false_r|].
    rewrite bool_decide_false by lia. cbn. by rewrite andb_true_r, orb_false_r.
  - by apply word_land, Hw.
  - intros c Hc. rewrite N.land_spec, not64_bit, shift1_bit by done. case_decide; [subst; rewrite bool_decide_true by done; by rewrite andb_false_r|].
    rewrite bool_decide_false by lia. apply andb_true_r.
  - apply word_lxor; [by apply Hw|apply (word_shift true); lia].
  - intros c Hc. rewrite N.lxor_spec, shift1_bit. case_decide; [subst; rewrite bool_decide_true by done; rewrite Hold; apply xorb_true_r|].
    rewrite bool_decide_false by lia. apply xorb_false_r.
Qed.
