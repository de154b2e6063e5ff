(** Proofs about SortModel: bucket sort and comparator sort both compute the
    stable sort by key. *)
From Verif Require Import Base PermutationModel SortModel UtilSpec PermutationProofs.

Section sort.
Context {T : Type} `{Inhabited T} (key : T -> nat).

Definition cntlt (k : nat) (v : list T) : nat := length (filter (fun x => key x < k) v).
Definition cnteq (k : nat) (v : list T) : nat := length (filter (fun x => key x = k) v).

Lemma cntlt_S k v : cntlt (S k) v = cntlt k v + cnteq k v.
Proof.
  unfold cntlt, cnteq. induction v as [|x v IH]; [done|].
  rewrite !filter_cons. repeat case_decide; cbn; lia.
Qed.
Lemma cntlt_0 v : cntlt 0 v = 0.
Proof.
  unfold cntlt. induction v as [|x v IH]; [done|]. rewrite filter_cons_False by lia. done.
Qed.
Lemma cntlt_mono k k' v : k <= k' -> cntlt k v <= cntlt k' v.
Proof. induction 1; [done|]. rewrite cntlt_S. lia. Qed.
Lemma cntlt_le k v : cntlt k v <= length v.
Proof. apply filter_length. Qed.
Lemma cnteq_app k v1 v2 : cnteq k (v1 ++ v2) = cnteq k v1 + cnteq k v2.
Proof. unfold cnteq. rewrite filter_app, app_length. done. Qed.
Lemma cnteq_take_mono k i j v : i <= j -> cnteq k (take i v) <= cnteq k (take j v).
Proof.
  intros Hij. replace (take j v) with (take i v ++ drop i (take j v)).
  - rewrite cnteq_app. lia.
  - rewrite <- (take_drop i (take j v)) at 2. rewrite take_take. f_equal. f_equal. lia.
Qed.
Lemma cnteq_take_le k i v : cnteq k (take i v) <= cnteq k v.
Proof. rewrite <- (take_drop i v) at 2. rewrite cnteq_app. lia. Qed.
Lemma cnteq_take_S k i v x :
  v !! i = Some x -> cnteq k (take (S i) v) = cnteq k (take i v) + (if decide (key x = k) then 1 else 0).
Proof.
  intros Hx. rewrite (take_S_r _ _ _ Hx), cnteq_app. f_equal. unfold cnteq.
  rewrite filter_cons. case_decide; done.
Qed.

(** Position of element [i] in the stable sorted order. *)
Definition spos (v : list T) (i : nat) : nat :=
  match v !! i with
  | Some x => cntlt (key x) v + cnteq (key x) (take i v)
  | None => 0
  end.

Lemma spos_lt v i : i < length v -> spos v i < length v.
Proof.
  intros Hi. unfold spos. destruct (lookup_lt_is_Some_2 v i Hi) as [x Hx]. rewrite Hx.
  pose proof (cnteq_take_S (key x) i v x Hx). rewrite decide_True in H0 by done.
  pose proof (cnteq_take_le (key x) (S i) v). pose proof (cntlt_S (key x) v).
  pose proof (cntlt_le (S (key x)) v). lia.
Qed.

Lemma spos_order v i j x y :
  v !! i = Some x -> v !! j = Some y ->
  key x < key y \/ (key x = key y /\ i < j) -> spos v i < spos v j.
Proof.
  intros Hx Hy Hlt. unfold spos. rewrite Hx, Hy.
  pose proof (cnteq_take_S (key x) i v x Hx) as Hc. rewrite decide_True in Hc by done.
  destruct Hlt as [Hlt|[Heq Hij]].
  - pose proof (cnteq_take_le (key x) (S i) v). pose proof (cntlt_S (key x) v).
    pose proof (cntlt_mono (S (key x)) (key y) v). lia.
  - rewrite <- Heq. pose proof (cnteq_take_mono (key x) (S i) j v). lia.
Qed.

Lemma spos_order_inv v i j x y :
  v !! i = Some x -> v !! j = Some y -> spos v i < spos v j ->
  key x < key y \/ (key x = key y /\ i < j).
Proof.
  intros Hx Hy Hlt.
  destruct (lt_eq_lt_dec (key x) (key y)) as [[?|Heq]|Hgt]; [auto| |].
  - destruct (lt_eq_lt_dec i j) as [[?| ->]|?]; [auto|lia|].
    pose proof (spos_order v j i y x Hy Hx). lia.
  - pose proof (spos_order v j i y x Hy Hx). lia.
Qed.

Lemma spos_inj v i j : i < length v -> j < length v -> spos v i = spos v j -> i = j.
Proof.
  intros Hi Hj Heq.
  destruct (lookup_lt_is_Some_2 v i Hi) as [x Hx]. destruct (lookup_lt_is_Some_2 v j Hj) as [y Hy].
  destruct (lt_eq_lt_dec i j) as [[?| ->]|?]; [|done|].
  - destruct (le_lt_dec (key x) (key y)).
    + pose proof (spos_order v i j x y Hx Hy). lia.
    + pose proof (spos_order v j i y x Hy Hx). lia.
  - destruct (le_lt_dec (key y) (key x)).
    + pose proof (spos_order v j i y x Hy Hx). lia.
    + pose proof (spos_order v i j x y Hx Hy). lia.
Qed.

Definition spos_list (v : list T) : list nat := spos v <$> seq 0 (length v).
Lemma spos_list_lookup v i : i < length v -> spos_list v !! i = Some (spos v i).
Proof. intros. unfold spos_list. rewrite list_lookup_fmap, lookup_seq_lt by done. done. Qed.
Lemma spos_list_length v : length (spos_list v) = length v.
Proof. unfold spos_list. len. Qed.
Lemma spos_list_perm v : perm (spos_list v).
Proof.
  apply NoDup_bounded_perm.
  - apply NoDup_alt. intros i j x Hi Hj.
    assert (i < length v) by (apply lookup_lt_Some in Hi; rewrite spos_list_length in Hi; done).
    assert (j < length v) by (apply lookup_lt_Some in Hj; rewrite spos_list_length in Hj; done).
    rewrite spos_list_lookup in Hi, Hj by done. simplify_eq. by eapply spos_inj.
  - intros x [i Hi]%elem_of_list_lookup_1.
    pose proof (lookup_lt_Some _ _ _ Hi) as Hl. rewrite spos_list_length in *.
    rewrite spos_list_lookup in Hi by done. simplify_eq. by apply spos_lt.
Qed.

(** The inverse of the position list is the stable sorting permutation. *)
Lemma inverse_spos_stable v p : inverse_of (spos_list v) p -> stable_sort_perm key v p.
Proof.
  intros Hinv. pose proof (inverse_of_perm _ _ (spos_list_perm v) Hinv) as Hp.
  destruct Hinv as [Hl Hinv]. rewrite spos_list_length in Hl. split.
  { rewrite <- Hl. exact Hp. }
  intros i j a b x y Hij Ha Hb Hx Hy.
  apply Hinv in Ha, Hb.
  rewrite spos_list_lookup in Ha by (by eapply lookup_lt_Some). 
  rewrite spos_list_lookup in Hb by (by eapply lookup_lt_Some). simplify_eq.
  by apply (spos_order_inv v a b).
Qed.

(** A stable sorting permutation is unique. *)
Lemma stable_sort_perm_inverse v p : stable_sort_perm key v p -> inverse_of p (spos_list v).
Proof.
  intros [Hp Hs].
  assert (length p = length v) as Hl by (rewrite Hp; len).
  assert (perm p) as Hperm by (unfold perm; rewrite Hl; done).
  (* the map i -> spos (p i) is strictly increasing on [0,n), hence identity *)
  assert (forall i a, p !! i = Some a -> spos v a = i) as Hid.
  { assert (forall j b, p !! j = Some b -> j <= spos v b) as Hge.
    { induction j as [|j IH]; intros b Hb; [lia|].
      destruct (lookup_lt_is_Some_2 p j) as [a Ha]; [apply lookup_lt_Some in Hb; lia|].
      specialize (IH _ Ha).
      pose proof (perm_lookup_lt _ _ _ Hperm Ha). pose proof (perm_lookup_lt _ _ _ Hperm Hb).
      destruct (lookup_lt_is_Some_2 v a) as [x Hx]; [lia|]. destruct (lookup_lt_is_Some_2 v b) as [y Hy]; [lia|].
      pose proof (spos_order v a b x y Hx Hy (Hs j (S j) a b x y ltac:(lia) Ha Hb Hx Hy)). lia. }
    assert (forall d i a, i + d = length v - 1 -> p !! i = Some a -> spos v a <= i) as Hle.
    { induction d as [|d IH]; intros i a Hd Ha.
      - pose proof (perm_lookup_lt _ _ _ Hperm Ha). pose proof (spos_lt v a). lia.
      - destruct (lookup_lt_is_Some_2 p (S i)) as [b Hb]; [apply lookup_lt_Some in Ha; lia|].
        specialize (IH (S i) b ltac:(lia) Hb).
        pose proof (perm_lookup_lt _ _ _ Hperm Ha). pose proof (perm_lookup_lt _ _ _ Hperm Hb).
        destruct (lookup_lt_is_Some_2 v a) as [x Hx]; [lia|]. destruct (lookup_lt_is_Some_2 v b) as [y Hy]; [lia|].
        pose proof (spos_order v a b x y Hx Hy (Hs i (S i) a b x y ltac:(lia) Ha Hb Hx Hy)). lia. }
    intros i a Ha. pose proof (lookup_lt_Some _ _ _ Ha).
    specialize (Hge _ _ Ha). specialize (Hle (length v - 1 - i) i a ltac:(lia) Ha). lia. }
  split; [rewrite spos_list_length; lia|]. intros i a. split.
  - intros Ha. pose proof (perm_lookup_lt _ _ _ Hperm Ha). rewrite spos_list_lookup by lia. f_equal. by apply Hid.
  - intros Ha. pose proof (lookup_lt_Some _ _ _ Ha) as Hal. rewrite spos_list_length in Hal.
    rewrite spos_list_lookup in Ha by done. simplify_eq.
    destruct (perm_surj p a Hperm) as [j Hj]; [lia|]. pose proof (Hid _ _ Hj). congruence.
Qed.

Lemma stable_sort_perm_unique v p q : stable_sort_perm key v p -> stable_sort_perm key v q -> p = q.
Proof.
  intros H1%stable_sort_perm_inverse H2%stable_sort_perm_inverse.
  eapply inverse_of_unique; apply inverse_of_sym; done.
Qed.

(** ** compute_key_pos *)
Lemma count_keys_correct v kc :
  (forall x, x ∈ v -> key x < kc) ->
  exists c, count_keys key v kc = Some c /\ length c = kc /\ forall k, k < kc -> c !! k = Some (cnteq k v).
Proof.
  intros Hb. unfold count_keys.
  destruct (for_range_inv
    (fun i c => length c = kc /\ forall k, k < kc -> c !! k = Some (cnteq k (take i v)))
    (fun i key_pos => x ← v !! i; c ← key_pos !! key x; wr key_pos (key x) (S c)) 0 (length v) (replicate kc 0))
    as (c & Hc & Hlen & Hinv); [lia| | |].
  - split; [len|]. intros k Hk. rewrite lookup_replicate_2 by done. done.
  - intros i c Hi [Hlen Hinv]. destruct (lookup_lt_is_Some_2 v i) as [x Hx]; [lia|].
    assert (key x < kc) by (apply Hb; by eapply elem_of_list_lookup_2).
    rewrite Hx; cbn. rewrite Hinv by done; cbn. rewrite wr_Some by lia. eexists. split; [done|].
    split; [len|]. intros k Hk. rewrite (cnteq_take_S _ _ _ _ Hx). case_decide as E.
    + rewrite E in *. rewrite list_lookup_insert by lia. f_equal. lia.
    + rewrite list_lookup_insert_ne by done. rewrite Hinv by done. f_equal. lia.
  - exists c. split; [done|]. split; [done|]. intros k Hk. rewrite Hinv by done. rewrite take_ge by lia. done.
Qed.

Lemma compute_key_pos_correct v kc :
  (forall x, x ∈ v -> key x < kc) ->
  exists c, compute_key_pos key v kc = Some c /\ length c = kc /\ forall k, k < kc -> c !! k = Some (cntlt k v).
Proof.
  intros Hb. unfold compute_key_pos.
  destruct (count_keys_correct v kc Hb) as (c & -> & Hlen & Hc). rewrite bind_S. unfold prefix_sums.
  destruct (for_range_inv
    (fun i '(kp, sum) => length kp = kc /\ sum = cntlt i v /\
        (forall k, k < i -> kp !! k = Some (cntlt k v)) /\ (forall k, i <= k < kc -> kp !! k = Some (cnteq k v)))
    (fun i '(key_pos, sum) => c ← key_pos !! i; key_pos ← wr key_pos i sum; Some (key_pos, sum + c)) 0 kc (c, 0))
    as ([kp sum] & Hr & Hl & Hsum & Hlo & Hhi); [lia| | |].
  - split; [done|]. split; [by rewrite cntlt_0|]. split; [lia|]. intros k Hk. apply Hc; lia.
  - intros i [kp sum] Hi (Hl & Hsum & Hlo & Hhi). rewrite Hhi by lia; cbn. rewrite wr_Some by lia. cbn.
    eexists. split; [done|]. split; [len|]. split; [rewrite cntlt_S; lia|]. split.
    + intros k Hk. destruct (decide (i = k)) as [->|].
      * rewrite list_lookup_insert by lia. congruence.
      * rewrite list_lookup_insert_ne by done. apply Hlo; lia.
    + intros k Hk. rewrite list_lookup_insert_ne by lia. apply Hhi; lia.
  - rewrite Hr. cbn. eauto.
Qed.

(** The common loop of the three bucket sorts: iteration [i] obtains [spos v i]. *)
Lemma bucket_loop {R} (upd : R -> nat -> nat -> T -> option R) (P : nat -> R -> Prop) v kc (r0 : R) :
  (forall x, x ∈ v -> key x < kc) ->
  P 0 r0 ->
  (forall i x r, v !! i = Some x -> P i r -> exists r', upd r (spos v i) i x = Some r' /\ P (S i) r') ->
  exists r, (key_pos ← compute_key_pos key v kc;
    '(p, _) ← for_range 0 (length v)
      (fun i '(p, key_pos) =>
         x ← v !! i; k ← key_pos !! key x;
         p ← upd p k i x; key_pos ← wr key_pos (key x) (S k); Some (p, key_pos))
      (r0, key_pos);
    Some p) = Some r /\ P (length v) r.
Proof.
  intros Hb HP0 Hstep. destruct (compute_key_pos_correct v kc Hb) as (c & -> & Hlen & Hc). rewrite bind_S.
  destruct (for_range_inv
    (fun i '(r, kp) => P i r /\ length kp = kc /\ forall k, k < kc -> kp !! k = Some (cntlt k v + cnteq k (take i v)))
    (fun i '(p, key_pos) =>
         x ← v !! i; k ← key_pos !! key x;
         p ← upd p k i x; key_pos ← wr key_pos (key x) (S k); Some (p, key_pos)) 0 (length v) (r0, c))
    as ([r kp] & Hr & HP & _); [lia| | |].
  - split; [done|]. split; [done|]. intros k Hk. rewrite Hc by done. f_equal. rewrite take_0; change (cnteq k []) with 0; lia.
  - intros i [r kp] Hi (HP & Hl & Hkp). destruct (lookup_lt_is_Some_2 v i) as [x Hx]; [lia|].
    assert (key x < kc) by (apply Hb; by eapply elem_of_list_lookup_2).
    destruct (Hstep i x r Hx HP) as (r' & Hr' & HP').
    rewrite Hx; cbn. rewrite Hkp by done; cbn.
    replace (cntlt (key x) v + cnteq (key x) (take i v)) with (spos v i) by (unfold spos; rewrite Hx; done).
    rewrite Hr'; cbn. rewrite wr_Some by lia. cbn. eexists. split; [done|]. split; [done|]. split; [len|].
    intros k Hk. rewrite (cnteq_take_S _ _ _ _ Hx). case_decide as E.
    + rewrite <- E. rewrite list_lookup_insert by lia. f_equal. unfold spos. rewrite Hx. lia.
    + rewrite list_lookup_insert_ne by done. rewrite Hkp by done. f_equal. lia.
  - rewrite Hr. cbn. eauto.
Qed.

Lemma bucket_inverse_sort_permutation_correct v kc :
  (forall x, x ∈ v -> key x < kc) ->
  bucket_inverse_sort_permutation key v kc = Some (spos_list v).
Proof.
  intros Hb. unfold bucket_inverse_sort_permutation.
  destruct (bucket_loop (fun p k i x => wr p i k)
    (fun i p => length p = length v /\ forall j, j < i -> p !! j = Some (spos v j)) v kc
    (replicate (length v) 0)) as (r & -> & Hl & Hr); [done|split; [len|lia]| |].
  - intros i x r Hx [Hl Hr]. pose proof (lookup_lt_Some _ _ _ Hx). rewrite wr_Some by lia. eexists. split; [done|].
    split; [len|]. intros j Hj. destruct (decide (i = j)) as [->|].
    + rewrite list_lookup_insert by lia. done.
    + rewrite list_lookup_insert_ne by done. apply Hr; lia.
  - f_equal. apply list_eq_by_lookup_lt; [by rewrite spos_list_length|]. intros i Hi.
    rewrite Hr, spos_list_lookup by lia. done.
Qed.

Lemma bucket_sort_permutation_correct v kc :
  (forall x, x ∈ v -> key x < kc) ->
  exists p, bucket_sort_permutation key v kc = Some p /\ stable_sort_perm key v p.
Proof.
  intros Hb. unfold bucket_sort_permutation.
  destruct (bucket_loop (fun p k i x => wr p k i)
    (fun i p => length p = length v /\ forall j, j < i -> p !! spos v j = Some j) v kc
    (replicate (length v) 0)) as (p & Hp & Hl & Hr); [done|split; [len|lia]| |].
  - intros i x r Hx [Hl Hr]. pose proof (lookup_lt_Some _ _ _ Hx). pose proof (spos_lt v i).
    rewrite wr_Some by lia. eexists. split; [done|].
    split; [len|]. intros j Hj. destruct (decide (i = j)) as [->|].
    + rewrite list_lookup_insert by lia. done.
    + rewrite list_lookup_insert_ne; [apply Hr; lia|]. intros E%spos_inj; [done|lia..].
  - exists p. split; [done|]. apply inverse_spos_stable. split; [by rewrite spos_list_length|].
    intros i x. split.
    + intros Hi. pose proof (lookup_lt_Some _ _ _ Hi) as Hil. rewrite spos_list_length in Hil.
      rewrite spos_list_lookup in Hi by done. simplify_eq. apply Hr. done.
    + intros Hx. destruct (perm_surj (spos_list v) x (spos_list_perm v)) as [j Hj].
      { rewrite spos_list_length, <- Hl. by eapply lookup_lt_Some. }
      pose proof (lookup_lt_Some _ _ _ Hj) as Hjl. rewrite spos_list_length in Hjl.
      pose proof Hj as Hj'. rewrite spos_list_lookup in Hj' by done. simplify_eq.
      rewrite Hr in Hx by done. simplify_eq. done.
Qed.

Lemma bucket_sort_correct v kc :
  (forall x, x ∈ v -> key x < kc) ->
  exists r, bucket_sort key v kc = Some r /\ length r = length v /\ permuted_by (spos_list v) r v.
Proof.
  intros Hb. unfold bucket_sort.
  destruct (bucket_loop (fun r k i x => wr r k x)
    (fun i r => length r = length v /\ forall j, j < i -> r !! spos v j = v !! j) v kc
    (replicate (length v) inhabitant)) as (r & Hr & Hl & Hpt); [done|split; [len|lia]| |].
  - intros i x r Hx [Hl Hr]. pose proof (lookup_lt_Some _ _ _ Hx). pose proof (spos_lt v i).
    rewrite wr_Some by lia. eexists. split; [done|].
    split; [len|]. intros j Hj. destruct (decide (i = j)) as [->|].
    + rewrite list_lookup_insert by lia. done.
    + rewrite list_lookup_insert_ne; [apply Hr; lia|]. intros E%spos_inj; [done|lia..].
  - exists r. split; [done|]. split; [done|]. split; [by rewrite spos_list_length|].
    intros i x Hi. pose proof (lookup_lt_Some _ _ _ Hi) as Hil. rewrite spos_list_length in Hil.
    rewrite spos_list_lookup in Hi by done. simplify_eq. symmetry. by apply Hpt.
Qed.
End sort.

(** ** insertion sort *)
Lemma insert_stable_perm {A} (less : A -> A -> bool) x l : insert_stable less x l ≡ₚ x :: l.
Proof.
  induction l as [|y l IH]; [done|]. cbn. destruct (less y x); [|done].
  rewrite IH. apply Permutation_swap.
Qed.
Lemma std_stable_sort_perm {A} (less : A -> A -> bool) l : std_stable_sort less l ≡ₚ l.
Proof.
  induction l as [|x l IH]; [done|]. cbn. rewrite insert_stable_perm. by rewrite IH.
Qed.
Lemma std_stable_sort_map {A B} (f : B -> A) (less : A -> A -> bool) (less' : B -> B -> bool) l :
  (forall x y, x ∈ l -> y ∈ l -> less' x y = less (f x) (f y)) ->
  std_stable_sort less (f <$> l) = f <$> std_stable_sort less' l.
Proof.
  assert (forall x l, (forall y, y ∈ l -> less' y x = less (f y) (f x)) ->
    insert_stable less (f x) (f <$> l) = f <$> insert_stable less' x l) as Hins.
  { intros x l0. induction l0 as [|y l0 IH]; intros Hl; [done|]. cbn. rewrite <- Hl by set_solver.
    destruct (less' y x); [|done]. cbn. f_equal. apply IH. set_solver. }
  induction l as [|x l IH]; intros Hl; [done|]. change (insert_stable less (f x) (std_stable_sort less (f <$> l)) = f <$> insert_stable less' x (std_stable_sort less' l)). rewrite IH by set_solver. apply Hins.
  intros y Hy. apply Hl; [|set_solver].
  rewrite std_stable_sort_perm in Hy. set_solver.
Qed.

Lemma std_stable_sort_sorted (f : nat -> nat) (less : nat -> nat -> bool) l :
  (forall x y, x ∈ l -> y ∈ l -> less x y = (f x <? f y)) ->
  StronglySorted lt l ->
  StronglySorted (fun a b => f a < f b \/ (f a = f b /\ a < b)) (std_stable_sort less l).
Proof.
  intros Hless Hs. induction Hs as [|x l Hs IH Hall]; [constructor|].
  change (std_stable_sort less (x :: l)) with (insert_stable less x (std_stable_sort less l)).
  assert (forall s, (forall y, y ∈ s -> y ∈ l) ->
     StronglySorted (fun a b => f a < f b \/ (f a = f b /\ a < b)) s ->
     StronglySorted (fun a b => f a < f b \/ (f a = f b /\ a < b)) (insert_stable less x s)) as Hins.
  { intros s Hsub Hss. induction Hss as [|y s Hss IHs Hally]; cbn; [repeat constructor|].
    rewrite Hless by set_solver. rewrite Forall_forall in Hall.
    assert (x < y) by (apply Hall, Hsub; set_solver).
    destruct (Nat.ltb_spec (f y) (f x)).
    - constructor; [apply IHs; set_solver|]. rewrite Forall_forall. intros z Hz.
      rewrite insert_stable_perm in Hz. apply elem_of_cons in Hz as [->|Hz]; [lia|].
      rewrite Forall_forall in Hally. by apply Hally.
    - constructor; [by constructor|]. rewrite Forall_forall. intros z Hz.
      apply elem_of_cons in Hz as [->|Hz]; [lia|].
      rewrite Forall_forall in Hally. specialize (Hally z Hz).
      assert (x < z) by (apply Hall, Hsub; set_solver). lia. }
  apply Hins.
  - intros y Hy. rewrite std_stable_sort_perm in Hy. done.
  - apply IH. intros; apply Hless; set_solver.
Qed.

Lemma StronglySorted_lookup {A} (R : A -> A -> Prop) l i j x y :
  StronglySorted R l -> i < j -> l !! i = Some x -> l !! j = Some y -> R x y.
Proof.
  intros Hs. revert i j. induction Hs as [|z l Hs IH Hall]; intros i j Hij Hi Hj; [done|].
  destruct j as [|j]; [lia|]. destruct i as [|i]; cbn in *; simplify_eq.
  - rewrite Forall_forall in Hall. apply Hall. by eapply elem_of_list_lookup_2.
  - eapply (IH i j); [lia|done..].
Qed.

Lemma seq_StronglySorted a n : StronglySorted lt (seq a n).
Proof.
  revert a. induction n as [|n IH]; intros a; cbn; [constructor|]. constructor; [done|].
  rewrite Forall_forall. intros x Hx%elem_of_seq. lia.
Qed.

Section sort2.
Context {T : Type} `{Inhabited T} (key : T -> nat).

Lemma comparator_sort_permutation_correct (v : list T) :
  stable_sort_perm key v (comparator_sort_permutation key v).
Proof.
  unfold comparator_sort_permutation. split; [apply std_stable_sort_perm|].
  intros i j a b x y Hij Ha Hb Hx Hy.
  set (f := fun i => from_option key 0 (v !! i)).
  pose proof (std_stable_sort_sorted f (key_less key v) (seq 0 (length v))) as Hs.
  assert (f a < f b \/ (f a = f b /\ a < b)) as Hf.
  { eapply (StronglySorted_lookup (fun a b => f a < f b \/ (f a = f b /\ a < b))); [apply Hs|exact Hij|exact Ha|exact Hb].
    - intros i' j' Hi%elem_of_seq Hj%elem_of_seq. unfold key_less, f.
      destruct (lookup_lt_is_Some_2 v i') as [? ->]; [lia|].
      destruct (lookup_lt_is_Some_2 v j') as [? ->]; [lia|]. done.
    - apply seq_StronglySorted. }
  unfold f in Hf. rewrite Hx, Hy in Hf. exact Hf.
Qed.

Lemma compute_stable_sort_permutation_correct v kc :
  (forall x, x ∈ v -> key x < kc) ->
  exists p, compute_stable_sort_permutation_using_key key v kc = Some p /\ stable_sort_perm key v p.
Proof.
  intros Hb. unfold compute_stable_sort_permutation_using_key. destruct (use_bucket_sort v kc).
  - by apply bucket_sort_permutation_correct.
  - eexists. split; [done|]. apply comparator_sort_permutation_correct.
Qed.

Lemma stable_sort_perm_sort_perm (v : list T) p : stable_sort_perm key v p -> sort_perm key v p.
Proof.
  intros [Hp Hs]. split; [done|]. intros i j a b x y Hij Ha Hb Hx Hy.
  specialize (Hs i j a b x y Hij Ha Hb Hx Hy). lia.
Qed.

Lemma compute_sort_permutation_correct std_sort v kc :
  (forall x, x ∈ v -> key x < kc) ->
  sort_perm key v (std_sort (seq 0 (length v))) ->
  exists p, compute_sort_permutation_using_key key std_sort v kc = Some p /\ sort_perm key v p.
Proof.
  intros Hb Hstd. unfold compute_sort_permutation_using_key. destruct (use_bucket_sort v kc).
  - destruct (bucket_sort_permutation_correct key v kc Hb) as (p & ? & ?%stable_sort_perm_sort_perm). eauto.
  - eauto.
Qed.

Lemma compute_inverse_stable_sort_permutation_correct v kc :
  (forall x, x ∈ v -> key x < kc) ->
  exists q p, compute_inverse_stable_sort_permutation_using_key key v kc = Some q /\
    inverse_of p q /\ perm q /\ stable_sort_perm key v p.
Proof.
  intros Hb. unfold compute_inverse_stable_sort_permutation_using_key. 
  pose proof (comparator_sort_permutation_correct v) as Hs.
  destruct (use_bucket_sort v kc).
  - rewrite bucket_inverse_sort_permutation_correct by done.
    exists (spos_list key v), (comparator_sort_permutation key v).
    split; [done|]. split; [by apply stable_sort_perm_inverse|]. split; [apply spos_list_perm|done].
  - destruct (invert_permutation_correct (comparator_sort_permutation key v)) as (q & -> & Hi & Hpq).
    { unfold perm. destruct Hs as [Hs _]. rewrite Hs at 2. rewrite seq_length. done. }
    eauto 10.
Qed.

Lemma stable_sort_using_key_correct v kc :
  (forall x, x ∈ v -> key x < kc) ->
  exists r p, stable_sort_using_key key v kc = Some r /\ stable_sort_perm key v p /\ permuted_by p v r.
Proof.
  intros Hb. unfold stable_sort_using_key.
  pose proof (comparator_sort_permutation_correct v) as Hs.
  assert (perm (comparator_sort_permutation key v)) as Hperm.
  { unfold perm. destruct Hs as [Hs _]. rewrite Hs at 2. rewrite seq_length. done. }
  assert (length (comparator_sort_permutation key v) = length v) as Hlp.
  { destruct Hs as [Hs _]. rewrite Hs. len. }
  destruct (use_bucket_sort v kc).
  - destruct (bucket_sort_correct key v kc Hb) as (r & -> & Hl & Hl' & Hby).
    exists r, (comparator_sort_permutation key v). split; [done|]. split; [done|]. split; [lia|].
    intros i x Hi. apply stable_sort_perm_inverse in Hs as [_ Hinv]. symmetry. apply Hby. by apply Hinv.
  - eexists _, (comparator_sort_permutation key v). split; [done|]. split; [done|].
    assert (v = (fun i => v !!! i) <$> seq 0 (length v)) as Hv.
    { apply list_eq_by_lookup_lt; [len|]. intros i Hi.
      rewrite list_lookup_fmap, lookup_seq_lt by done. cbn. by apply list_lookup_lookup_total_lt. }
    assert (std_stable_sort (fun x y => key x <? key y) v =
       (fun i => v !!! i) <$> comparator_sort_permutation key v) as ->.
    { rewrite Hv at 1. unfold comparator_sort_permutation. apply std_stable_sort_map.
      intros a b Ha%elem_of_seq Hb'%elem_of_seq. unfold key_less.
      rewrite (list_lookup_lookup_total_lt v a), (list_lookup_lookup_total_lt v b) by lia. done. }
    split; [len|]. intros i x Hi. rewrite list_lookup_fmap, Hi. cbn. symmetry. apply list_lookup_lookup_total_lt.
    apply perm_lookup_lt in Hi; [lia|done].
Qed.

Lemma is_sorted_using_key_correct (v : list T) :
  is_sorted_using_key key v = true <-> Sorted (fun x y => key x <= key y) v.
Proof.
  induction v as [|x v IH]; [split; [constructor|done]|].
  destruct v as [|y v].
  - split; [repeat constructor|done].
  - change (is_sorted_using_key key (x :: y :: v)) with (if key y <? key x then false else is_sorted_using_key key (y :: v)).
    destruct (Nat.ltb_spec (key y) (key x)).
    + split; [done|]. intros Hs. inversion Hs as [|? ? ? Hhd]; subst. inversion Hhd; subst. lia.
    + rewrite IH. split.
      * intros. constructor; [done|]. constructor. lia.
      * intros Hs. by inversion Hs.
Qed.
End sort2.

Lemma bucket_eq_comparator {T} (key : T -> nat) v kc :
  (forall x, x ∈ v -> key x < kc) ->
  bucket_sort_permutation key v kc = Some (comparator_sort_permutation key v).
Proof.
  intros Hb. destruct (bucket_sort_permutation_correct key v kc Hb) as (p & -> & Hp). f_equal.
  eapply stable_sort_perm_unique; [done|]. apply comparator_sort_permutation_correct.
Qed.

Lemma key_count_boundary : exists (v : list nat) kc,
  (forall x, x ∈ v -> id x <= kc) /\ compute_stable_sort_permutation_using_key id v kc = None.
Proof. exists [2], 2. split; [|done]. intros x Hx. set_unfold. unfold id. lia. Qed.
