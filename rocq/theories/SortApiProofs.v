(** Proofs about SortApiModel. *)
From Verif Require Import Base PermutationModel SortModel UtilSpec PermutationProofs SortProofs SortApiSpec SortApiModel.

Lemma u32_small x : (x < 4294967296)%N -> u32 x = N.to_nat x.
Proof. intros H. unfold u32. by rewrite N.mod_small. Qed.
Lemma size_mod n : (N.of_nat n < 4294967296)%N -> u32 (N.of_nat n) = n.
Proof. intros H. rewrite (u32_small _ H). apply Nat2N.id. Qed.
Lemma u32_lt x : (N.of_nat (u32 x) < 4294967296)%N.
Proof. unfold u32. rewrite N2Nat.id. apply N.mod_upper_bound. done. Qed.
Lemma u32_pred i : 1 <= i -> (N.of_nat i < 4294967296)%N -> u32 (N.of_nat i + 4294967295) = i - 1.
Proof.
  intros Hi Hl. unfold u32.
  replace (N.of_nat i + 4294967295)%N with (N.of_nat (i - 1) + 1 * 4294967296)%N by lia.
  rewrite N.mod_add by done. rewrite N.mod_small by lia. apply Nat2N.id.
Qed.
Lemma u32_succ i : (N.of_nat i + 1 < 4294967296)%N -> u32 (N.of_nat i + 1) = S i.
Proof. intros H. rewrite (u32_small _ H). lia. Qed.

(** ** Strict weak orders *)
Section weak.
Context {A : Type} (less : A -> A -> bool) (l : list A) (H : strict_weak less l).
Lemma sw_asym x y : x ∈ l -> y ∈ l -> less x y = true -> less y x = false.
Proof.
  intros Hx Hy Hxy. destruct (less y x) eqn:E; [|done].
  rewrite <- (sw_irrefl _ _ H x Hx). symmetry. by apply (sw_trans _ _ H x y x).
Qed.
(** Negative transitivity. *)
Lemma sw_neg x y z : x ∈ l -> y ∈ l -> z ∈ l -> less x y = false -> less y z = false -> less x z = false.
Proof.
  intros Hx Hy Hz Hxy Hyz. destruct (less x z) eqn:E; [|done].
  destruct (less y x) eqn:Eyx.
  { rewrite <- Hyz. symmetry. by apply (sw_trans _ _ H y x z). }
  destruct (less z y) eqn:Ezy.
  { rewrite <- Hxy. symmetry. by apply (sw_trans _ _ H x z y). }
  destruct (sw_equiv _ _ H x y z) as [E' _]; congruence.
Qed.
End weak.

Lemma strict_weak_sub {A} (less : A -> A -> bool) l l' :
  strict_weak less l -> (forall x, x ∈ l' -> x ∈ l) -> strict_weak less l'.
Proof.
  intros H Hs. split; intros.
  - apply (sw_irrefl _ _ H). eauto.
  - eapply (sw_trans _ _ H x y z); eauto.
  - eapply (sw_equiv _ _ H x y z); eauto.
Qed.

(** The comparator on positions. *)
Lemma less_at_weak {T} (less : T -> T -> bool) v :
  strict_weak less v -> strict_weak (less_at less v) (seq 0 (length v)).
Proof.
  intros H.
  assert (forall i, i ∈ seq 0 (length v) -> exists x, v !! i = Some x /\ x ∈ v) as Hv.
  { intros i Hi%elem_of_seq. destruct (lookup_lt_is_Some_2 v i) as [x Hx]; [lia|].
    exists x. split; [done|]. by eapply elem_of_list_lookup_2. }
  split.
  - intros i Hi. destruct (Hv i Hi) as (x & Ex & Hx). unfold less_at. rewrite Ex. by apply (sw_irrefl _ _ H).
  - intros i j k Hi Hj Hk. destruct (Hv i Hi) as (x & Ex & Hx), (Hv j Hj) as (y & Ey & Hy), (Hv k Hk) as (z & Ez & Hz).
    unfold less_at. rewrite Ex, Ey, Ez. by apply (sw_trans _ _ H).
  - intros i j k Hi Hj Hk. destruct (Hv i Hi) as (x & Ex & Hx), (Hv j Hj) as (y & Ey & Hy), (Hv k Hk) as (z & Ez & Hz).
    unfold less_at. rewrite Ex, Ey, Ez. by apply (sw_equiv _ _ H).
Qed.

(** ** Insertion sort *)
Definition stable_rel (less : nat -> nat -> bool) (a b : nat) : Prop :=
  less b a = false /\ (less a b = true \/ a < b).

Lemma insertion_stable (less : nat -> nat -> bool) l :
  strict_weak less l -> StronglySorted lt l -> StronglySorted (stable_rel less) (std_stable_sort less l).
Proof.
  intros H Hs. induction Hs as [|a l Hs IH Hall]; [constructor|].
  change (std_stable_sort less (a :: l)) with (insert_stable less a (std_stable_sort less l)).
  rewrite Forall_forall in Hall.
  assert (forall s, (forall b, b ∈ s -> b ∈ l) -> StronglySorted (stable_rel less) s ->
    StronglySorted (stable_rel less) (insert_stable less a s)) as Hins.
  { intros s Hsub Hss. induction Hss as [|b s Hss IHs Hb]; cbn; [repeat constructor|].
    rewrite Forall_forall in Hb.
    assert (b ∈ l) as Hbl by (apply Hsub; set_solver). pose proof (Hall b Hbl) as Hab.
    destruct (less b a) eqn:E.
    - constructor; [apply IHs; set_solver|]. rewrite Forall_forall. intros z Hz.
      rewrite insert_stable_perm in Hz. apply elem_of_cons in Hz as [->|Hz]; [|by apply Hb].
      split; [|by left]. apply (sw_asym _ _ H b a); [set_solver|set_solver|done].
    - constructor; [by constructor; [|rewrite Forall_forall]|]. rewrite Forall_forall. intros z Hz.
      apply elem_of_cons in Hz as [->|Hz]; [split; [done|by right]|].
      assert (z ∈ l) as Hzl by (apply Hsub; set_solver). destruct (Hb z Hz) as [Hzb _].
      split; [|right; by apply Hall]. apply (sw_neg _ _ H z b a); [set_solver..|done|done]. }
  apply Hins.
  - intros b Hb. by rewrite std_stable_sort_perm in Hb.
  - apply IH. eapply strict_weak_sub; [done|]. set_solver.
Qed.

Global Instance stable_rel_antisymm less : AntiSymm (=) (stable_rel less).
Proof. intros a b [H1 [H2|H2]] [H3 [H4|H4]]; try congruence. lia. Qed.

Lemma stable_order_sorted {T} (less : T -> T -> bool) v p :
  stable_order_perm less v p -> StronglySorted (stable_rel (less_at less v)) p.
Proof.
  intros [Hp Hs].
  assert (forall a, a ∈ p -> exists x, v !! a = Some x) as Hv.
  { intros a Ha. rewrite Hp in Ha. apply elem_of_seq in Ha. apply lookup_lt_is_Some_2. lia. }
  clear Hp. induction p as [|a p IH]; [constructor|]. constructor.
  - apply IH; [|set_solver]. intros i j b c x y Hij Hb Hc. apply (Hs (S i) (S j) b c x y); [lia|done..].
  - rewrite Forall_forall. intros b Hb. pose proof Hb as [j Hj]%elem_of_list_lookup_1.
    destruct (Hv a) as [x Hx]; [set_solver|]. destruct (Hv b) as [y Hy]; [set_solver|].
    destruct (Hs 0 (S j) a b x y) as [H1 H2]; [lia|done..|]. unfold stable_rel, less_at. rewrite Hx, Hy. done.
Qed.

Lemma stable_order_unique {T} (less : T -> T -> bool) v p q :
  stable_order_perm less v p -> stable_order_perm less v q -> p = q.
Proof.
  intros Hp Hq. apply (StronglySorted_unique (stable_rel (less_at less v))).
  - by apply stable_order_sorted.
  - by apply stable_order_sorted.
  - destruct Hp as [-> _], Hq as [-> _]. done.
Qed.

Section comparator.
Context {T : Type} (less : T -> T -> bool).

Lemma stable_positions v :
  strict_weak less v -> stable_order_perm less v (std_stable_sort (less_at less v) (seq 0 (length v))).
Proof.
  intros H. split; [apply std_stable_sort_perm|]. intros i j a b x y Hij Ha Hb Hx Hy.
  pose proof (insertion_stable (less_at less v) (seq 0 (length v)) (less_at_weak _ _ H) (seq_StronglySorted _ _)) as Hs.
  pose proof (StronglySorted_lookup _ _ i j a b Hs Hij Ha Hb) as [H1 H2].
  unfold less_at in H1, H2. rewrite Hx, Hy in H1, H2. done.
Qed.

Lemma stable_permutation_correct v :
  strict_weak less v -> (N.of_nat (length v) < 4294967296)%N ->
  exists p, compute_stable_sort_permutation_using_comparator less v = Some p /\ stable_order_perm less v p.
Proof.
  intros H Hl. unfold compute_stable_sort_permutation_using_comparator.
  rewrite (size_mod _ Hl), identity_permutation_correct, bind_S. eexists. split; [done|]. by apply stable_positions.
Qed.

Lemma permutation_correct std_sort v :
  sorts std_sort -> strict_weak less v -> (N.of_nat (length v) < 4294967296)%N ->
  exists p, compute_sort_permutation_using_comparator std_sort less v = Some p /\ order_perm less v p.
Proof.
  intros Hstd H Hl. unfold compute_sort_permutation_using_comparator.
  rewrite (size_mod _ Hl), identity_permutation_correct, bind_S. eexists. split; [done|].
  destruct (Hstd nat (less_at less v) (seq 0 (length v)) (less_at_weak _ _ H)) as [Hp Ho].
  split; [done|]. intros i j a b x y Hij Ha Hb Hx Hy.
  specialize (Ho i j a b Hij Ha Hb). unfold less_at in Ho. by rewrite Hx, Hy in Ho.
Qed.

Lemma positions_perm (v : list T) p : p ≡ₚ seq 0 (length v) -> perm p.
Proof. intros H. unfold perm. rewrite H at 2. by rewrite seq_length. Qed.

Lemma inverse_stable_correct v :
  strict_weak less v -> (N.of_nat (length v) < 4294967296)%N ->
  exists q p, compute_inverse_stable_sort_permutation_using_comparator less v = Some q /\
    inverse_of p q /\ perm q /\ stable_order_perm less v p.
Proof.
  intros H Hl. destruct (stable_permutation_correct v H Hl) as (p & E & Hp).
  unfold compute_inverse_stable_sort_permutation_using_comparator. rewrite E, bind_S.
  destruct (invert_permutation_correct p) as (q & -> & Hi & Hq); [by apply (positions_perm v), Hp|]. eauto 10.
Qed.

Lemma inverse_correct std_sort v :
  sorts std_sort -> strict_weak less v -> (N.of_nat (length v) < 4294967296)%N ->
  exists q p, compute_inverse_sort_permutation_using_comparator std_sort less v = Some q /\
    inverse_of p q /\ perm q /\ order_perm less v p.
Proof.
  intros Hstd H Hl. destruct (permutation_correct std_sort v Hstd H Hl) as (p & E & Hp).
  unfold compute_inverse_sort_permutation_using_comparator. rewrite E, bind_S.
  destruct (invert_permutation_correct p) as (q & -> & Hi & Hq); [by apply (positions_perm v), Hp|]. eauto 10.
Qed.

Lemma stable_sort_correct v :
  strict_weak less v ->
  exists p, stable_order_perm less v p /\ permuted_by p v (stable_sort_using_comparator less v).
Proof.
  intros H. pose proof (stable_positions v H) as Hs.
  exists (std_stable_sort (less_at less v) (seq 0 (length v))). split; [done|].
  unfold stable_sort_using_comparator.
  destruct v as [|x0 v0]; [by split|]. set (v := x0 :: v0) in *.
  set (at_ := fun i => default x0 (v !! i)).
  assert (v = at_ <$> seq 0 (length v)) as Hv.
  { apply list_eq_by_lookup_lt; [len|]. intros i Hi.
    rewrite list_lookup_fmap, lookup_seq_lt by done. cbn.
    unfold at_. destruct (lookup_lt_is_Some_2 v i Hi) as [x ->]. done. }
  assert (std_stable_sort less v = at_ <$> std_stable_sort (less_at less v) (seq 0 (length v))) as ->.
  { rewrite Hv at 1. apply std_stable_sort_map. intros a b Ha%elem_of_seq Hb%elem_of_seq. unfold less_at, at_.
    destruct (lookup_lt_is_Some_2 v a) as [x ->]; [lia|]. destruct (lookup_lt_is_Some_2 v b) as [y ->]; [lia|]. done. }
  split; [len|]. intros i x Hi. rewrite list_lookup_fmap, Hi. cbn. unfold at_.
  apply perm_lookup_lt in Hi; [|by apply (positions_perm v), Hs].
  rewrite std_stable_sort_perm, seq_length in Hi.
  destruct (lookup_lt_is_Some_2 v x Hi) as [y ->]. done.
Qed.

(** ** is_sorted *)
Lemma is_sorted_loop_spec v fuel i :
  (N.of_nat (length v) < 4294967296)%N -> 1 <= i -> 1 <= fuel -> length v < fuel + i ->
  exists b, is_sorted_loop less v fuel i = Some b /\
    (b = true <-> forall j x y, i <= j -> v !! j = Some x -> v !! (j - 1) = Some y -> less x y = false).
Proof.
  intros Hl. revert i. induction fuel as [|fuel IH]; intros i Hi Hf1 Hf; [lia|]. cbn [is_sorted_loop].
  case_decide as Hd.
  - destruct (lookup_lt_is_Some_2 v i Hd) as [x Hx]. destruct (lookup_lt_is_Some_2 v (i - 1)) as [y Hy]; [lia|].
    rewrite u32_pred by lia.
    rewrite Hx, bind_S, Hy, bind_S. destruct (less x y) eqn:E.
    + exists false. split; [done|]. split; [done|]. intros H. rewrite (H i x y) in E; done.
    + rewrite u32_succ by lia. destruct (IH (S i)) as (b & Eb & Hb); [lia..|].
      exists b. split; [done|]. rewrite Hb. split.
      * intros H j x' y' Hj Hx' Hy'. destruct (decide (j = i)) as [->|]; [congruence|]. apply (H j); [lia|done..].
      * intros H j x' y' Hj. apply H. lia.
  - exists true. split; [done|]. split; [|done]. intros _ j x y Hj Hx. apply lookup_lt_Some in Hx. lia.
Qed.

Lemma is_sorted_correct v fuel :
  strict_weak less v -> (N.of_nat (length v) < 4294967296)%N -> length v < fuel ->
  exists b, is_sorted_using_comparator less v fuel = Some b /\ (b = true <-> ordered less v).
Proof.
  intros H Hl Hf. destruct (is_sorted_loop_spec v fuel 1) as (b & E & Hb); [done|lia..|].
  exists b. split; [done|]. rewrite Hb. split.
  - intros Ha i j x y Hij Hx Hy. revert y Hy. induction Hij as [|j Hij IH]; intros y Hy.
    + apply (Ha (S i)); [lia|done|]. by replace (S i - 1) with i by lia.
    + destruct (lookup_lt_is_Some_2 v j) as [z Hz]; [apply lookup_lt_Some in Hy; lia|].
      apply (sw_neg _ _ H y z x); [by eapply elem_of_list_lookup_2..| |by apply IH].
      apply (Ha (S j)); [lia|done|]. by replace (S j - 1) with j by lia.
  - intros Ho j x y Hj Hx Hy. apply (Ho (j - 1) j); [lia|done..].
Qed.
End comparator.

(** A vector of 2^32 elements: the permutation is empty, the check does not end. *)
Lemma large_permutation {T} (less : T -> T -> bool) v :
  N.of_nat (length v) = 4294967296%N -> compute_stable_sort_permutation_using_comparator less v = Some [].
Proof. intros Hl. unfold compute_stable_sort_permutation_using_comparator. rewrite Hl. done. Qed.
Lemma large_is_sorted {T} (less : T -> T -> bool) (x : T) n fuel i :
  less x x = false -> N.of_nat n = 4294967296%N -> (N.of_nat i < 4294967296)%N ->
  is_sorted_loop less (replicate n x) fuel i = None.
Proof.
  intros Hx Hn. revert i. induction fuel as [|fuel IH]; intros i Hi; [done|]. cbn [is_sorted_loop].
  assert (forall k, (N.of_nat k < 4294967296)%N -> k < n) as Hlt by (intros; lia).
  rewrite replicate_length. rewrite decide_True by (by apply Hlt).
  rewrite (lookup_replicate_2 n x i (Hlt _ Hi)), bind_S.
  rewrite (lookup_replicate_2 n x _ (Hlt _ (u32_lt _))), bind_S. rewrite Hx.
  apply IH, u32_lt.
Qed.

(** ** Sorting by key *)
Section key.
Context {T : Type} `{Inhabited T} (key : T -> nat).

Lemma key_weak v : strict_weak (compare_by_key key) v.
Proof.
  unfold compare_by_key. split.
  - intros x _. apply Nat.ltb_irrefl.
  - intros x y z _ _ _. rewrite !Nat.ltb_lt. lia.
  - intros x y z _ _ _. rewrite !Nat.ltb_ge. lia.
Qed.

Lemma key_order_perm v p : order_perm (compare_by_key key) v p <-> sort_perm key v p.
Proof.
  unfold order_perm, sort_perm, compare_by_key. split; intros [Hp Hs]; (split; [done|]); intros i j a b x y Hij Ha Hb Hx Hy.
  - specialize (Hs i j a b x y Hij Ha Hb Hx Hy). apply Nat.ltb_ge in Hs. done.
  - apply Nat.ltb_ge. by apply (Hs i j a b).
Qed.
Lemma key_stable_order_perm v p : stable_order_perm (compare_by_key key) v p <-> stable_sort_perm key v p.
Proof.
  unfold stable_order_perm, stable_sort_perm, compare_by_key.
  split; intros [Hp Hs]; (split; [done|]); intros i j a b x y Hij Ha Hb Hx Hy;
    specialize (Hs i j a b x y Hij Ha Hb Hx Hy); rewrite ?Nat.ltb_ge, ?Nat.ltb_lt in *; lia.
Qed.

Lemma inverse_by_key_correct std_sort v kc :
  sorts std_sort -> (N.of_nat (length v) < 4294967296)%N -> (forall x, x ∈ v -> key x < kc) ->
  exists q p, compute_inverse_sort_permutation_using_key std_sort key v kc = Some q /\
    inverse_of p q /\ perm q /\ sort_perm key v p.
Proof.
  intros Hstd Hl Hb. unfold compute_inverse_sort_permutation_using_key. destruct (use_bucket_sort v kc).
  - rewrite bucket_inverse_sort_permutation_correct by done.
    exists (spos_list key v), (comparator_sort_permutation key v).
    pose proof (comparator_sort_permutation_correct key v) as Hs.
    split; [done|]. split; [by apply stable_sort_perm_inverse|]. split; [apply spos_list_perm|].
    by apply stable_sort_perm_sort_perm.
  - destruct (inverse_correct (compare_by_key key) std_sort v Hstd (key_weak v) Hl) as (q & p & E & Hi & Hq & Hp).
    exists q, p. split; [done|]. split; [done|]. split; [done|]. by apply key_order_perm.
Qed.

Lemma stable_permuted_sorted v r p :
  sort_perm key v p -> permuted_by p v r -> r ≡ₚ v /\ ordered (compare_by_key key) r.
Proof.
  intros [Hp Hs] Hr. pose proof (positions_perm v p Hp) as Hperm.
  assert (length p = length v) as Hl by (rewrite Hp; len).
  split; [by eapply permuted_by_Permutation|]. destruct Hr as [Hlr Hr].
  intros i j x y Hij Hx Hy.
  destruct (lookup_lt_is_Some_2 p i) as [a Ha]; [apply lookup_lt_Some in Hx; lia|].
  destruct (lookup_lt_is_Some_2 p j) as [b Hb]; [apply lookup_lt_Some in Hy; lia|].
  unfold compare_by_key. apply Nat.ltb_ge. apply (Hs i j a b); [done|done|done| |].
  - rewrite <- (Hr i a Ha). done.
  - rewrite <- (Hr j b Hb). done.
Qed.

Lemma sort_by_key_correct std_sort v kc :
  sorts std_sort -> (forall x, x ∈ v -> key x < kc) ->
  exists r, sort_using_key std_sort key v kc = Some r /\ r ≡ₚ v /\ ordered (compare_by_key key) r.
Proof.
  intros Hstd Hb. unfold sort_using_key. destruct (use_bucket_sort v kc) eqn:E.
  - destruct (stable_sort_using_key_correct key v kc Hb) as (r & p & Er & Hp & Hr).
    unfold stable_sort_using_key in Er. rewrite E in Er. exists r. split; [done|].
    apply (stable_permuted_sorted v r p); [by apply stable_sort_perm_sort_perm|done].
  - eexists. split; [done|]. apply Hstd, key_weak.
Qed.

(** ** Moving *)
Context (moved : T -> T).

Lemma bucket_moving_eq v kc : bucket_sort_moving key moved v kc = bucket_sort key v kc.
Proof.
  unfold bucket_sort_moving, bucket_sort. destruct (compute_key_pos key v kc) as [kp|]; [|done]. rewrite !bind_S.
  set (f := fun i '(r, key_pos, v) => _). set (g := fun i '(r, key_pos) => _).
  assert (forall n i v' r kp, (forall j, i <= j -> v' !! j = v !! j) -> i + n <= length v -> length v' = length v ->
    ('(r, _, _) ← for_n n i f (r, kp, v'); Some r) = ('(r, _) ← for_n n i g (r, kp); Some r)) as Hn.
  { induction n as [|n IH]; intros i v' r kp' Hv Hn Hl; [done|]. cbn [for_n].
    unfold f at 2, g at 2. cbv beta iota. rewrite (Hv i) by lia.
    destruct (lookup_lt_is_Some_2 v i) as [x Hx]; [lia|]. rewrite Hx, !bind_S.
    destruct (kp' !! key x) as [k|]; [|done]. rewrite !bind_S.
    destruct (wr r k x) as [r'|]; [|done]. rewrite !bind_S.
    rewrite (wr_Some v') by lia. rewrite bind_S.
    destruct (wr kp' (key x) (S k)) as [kp2|]; [|done]. rewrite !bind_S.
    apply IH; [|lia|len]. intros j Hj. rewrite list_lookup_insert_ne by lia. apply Hv. lia. }
  unfold for_range. apply Hn; [done|lia|done].
Qed.

Lemma sort_moving_eq std_sort is_stable v kc :
  sort_using_key_moving std_sort key moved is_stable v kc =
  if (is_stable : bool) then stable_sort_using_key key v kc else sort_using_key std_sort key v kc.
Proof.
  unfold sort_using_key_moving, stable_sort_using_key, sort_using_key. rewrite bucket_moving_eq.
  destruct is_stable, (use_bucket_sort v kc); done.
Qed.

Lemma apply_moving_eq p v :
  perm p -> length p = length v -> apply_permutation_moving moved p v = apply_permutation p v.
Proof.
  intros Hp Hlp. unfold apply_permutation_moving, apply_permutation.
  set (f := fun i '(r, v) => _). set (g := fun i r => _).
  assert (forall n i v' r, (forall j a, i <= j -> p !! j = Some a -> v' !! a = v !! a) -> i + n <= length v -> length v' = length v ->
    ('(r, _) ← for_n n i f (r, v'); Some r) = for_n n i g r) as Hn.
  { induction n as [|n IH]; intros i v' r Hv Hn Hl; [done|]. cbn [for_n].
    unfold f at 2, g at 2. cbv beta iota.
    destruct (lookup_lt_is_Some_2 p i) as [a Ha]; [lia|]. rewrite Ha, !bind_S.
    rewrite (Hv i a) by done. pose proof (perm_lookup_lt _ _ _ Hp Ha) as Hal.
    destruct (lookup_lt_is_Some_2 v a) as [x Hx]; [lia|]. rewrite Hx, !bind_S.
    destruct (wr r i x) as [r'|]; [|done]. rewrite !bind_S.
    rewrite (wr_Some v') by lia. rewrite !bind_S.
    apply IH; [|lia|len]. intros j b Hj Hb. rewrite list_lookup_insert_ne; [by apply (Hv j); [lia|]|].
    intros ->. pose proof (perm_inj _ _ _ _ Hp Ha Hb). lia. }
  unfold for_range. apply Hn; [done|lia|done].
Qed.

Lemma apply_inverse_moving_eq p v :
  apply_inverse_permutation_moving moved p v = apply_inverse_permutation p v.
Proof.
  unfold apply_inverse_permutation_moving, apply_inverse_permutation.
  set (f := fun i '(r, v) => _). set (g := fun i r => _).
  assert (forall n i v' r, (forall j, i <= j -> v' !! j = v !! j) -> i + n <= length v -> length v' = length v ->
    ('(r, _) ← for_n n i f (r, v'); Some r) = for_n n i g r) as Hn.
  { induction n as [|n IH]; intros i v' r Hv Hn Hl; [done|]. cbn [for_n].
    unfold f at 2, g at 2. cbv beta iota. destruct (p !! i) as [a|]; [|done]. rewrite !bind_S.
    rewrite (Hv i) by lia.
    destruct (lookup_lt_is_Some_2 v i) as [x Hx]; [lia|]. rewrite Hx, !bind_S.
    destruct (wr r a x) as [r'|]; [|done]. rewrite !bind_S.
    rewrite (wr_Some v') by lia. rewrite !bind_S.
    apply IH; [|lia|len]. intros j Hj. rewrite list_lookup_insert_ne by lia. apply Hv. lia. }
  unfold for_range. apply Hn; [done|lia|done].
Qed.
End key.
