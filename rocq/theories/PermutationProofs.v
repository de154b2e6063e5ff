(** Proofs about PermutationModel. *)
From Verif Require Import Base PermutationModel UtilSpec.

Ltac len := repeat (rewrite replicate_length in * || rewrite insert_length in * || rewrite seq_length in * || rewrite app_length in * || rewrite take_length in * || rewrite drop_length in * || rewrite fmap_length in *); try lia.

(** ** is_permutation *)
Lemma is_permutation_loop_spec n l (pre : list nat) found :
  length found = n ->
  (forall x, x < n -> found !! x = Some (bool_decide (x ∈ pre))) ->
  exists b, is_permutation_loop n l found = Some b /\
    (b = true <-> (forall x, x ∈ l -> x < n) /\ NoDup l /\ (forall x, x ∈ l -> x ∉ pre)).
Proof.
  revert pre found. induction l as [|x l IH]; intros pre found Hlen Hf; cbn.
  { exists true. split; [done|]. split; [|done]. intros _. repeat split; [|constructor|]; set_solver. }
  case_decide as Hx.
  { exists false. split; [done|]. split; [done|]. intros (Hb & _). specialize (Hb x). set_unfold. naive_solver lia. }
  rewrite Hf by lia. cbn. case_bool_decide as Hpre.
  { exists false. split; [done|]. split; [done|]. intros (_ & _ & H). specialize (H x). set_solver. }
  rewrite wr_Some by lia. cbn.
  destruct (IH (x :: pre) (<[x:=true]> found)) as (b & Hb & Hiff).
  - len.
  - intros y Hy. destruct (decide (x = y)) as [->|Hne].
    + rewrite list_lookup_insert by lia. f_equal. symmetry. apply bool_decide_eq_true_2. set_solver.
    + rewrite list_lookup_insert_ne by done. rewrite Hf by done. f_equal. apply bool_decide_ext. set_solver.
  - exists b. split; [done|]. rewrite Hiff. split.
    + intros (H1 & H2 & H3). repeat split; [|apply NoDup_cons|]; set_unfold; naive_solver lia.
    + intros (H1 & H2 & H3). apply NoDup_cons in H2 as [H2 H2']. repeat split; [|done|]; set_unfold; naive_solver.
Qed.

Lemma is_permutation_correct p :
  exists b, is_permutation p = Some b /\ (b = true <-> perm p).
Proof.
  unfold is_permutation.
  destruct (is_permutation_loop_spec (length p) p [] (replicate (length p) false)) as (b & Hb & Hiff).
  - len.
  - intros x Hx. rewrite lookup_replicate_2 by done. f_equal. 
  - exists b. split; [done|]. rewrite Hiff. split.
    + intros (H1 & H2 & _). by apply NoDup_bounded_perm.
    + intros Hp. split; [|split; [by apply perm_NoDup|set_solver]].
      intros x [i Hi]%elem_of_list_lookup_1. by eapply perm_lookup_lt.
Qed.

Section apply.
Context {T : Type} `{Inhabited T}.

(** ** apply_permutation *)
Lemma apply_permutation_correct p (v : list T) :
  perm p -> length p = length v ->
  exists r, apply_permutation p v = Some r /\ permuted_by p v r.
Proof.
  intros Hp Hl. unfold apply_permutation.
  destruct (for_range_inv
    (fun i r => length r = length v /\ forall j x, j < i -> p !! j = Some x -> r !! j = v !! x)
    (fun i r => pi ← p !! i; x ← v !! pi; wr r i x) 0 (length v) (replicate (length v) inhabitant))
    as (r & Hr & Hlen & Hinv); [lia|split; [len|lia]| |].
  - intros i r Hi [Hlen Hinv].
    destruct (lookup_lt_is_Some_2 p i) as [x Hx]; [lia|].
    pose proof (perm_lookup_lt _ _ _ Hp Hx).
    destruct (lookup_lt_is_Some_2 v x) as [y Hy]; [lia|].
    exists (<[i:=y]> r). rewrite Hx; cbn. rewrite Hy; cbn. rewrite wr_Some by lia.
    split; [done|]. split; [len|]. intros j z Hj Hz.
    destruct (decide (i = j)) as [->|].
    + rewrite list_lookup_insert by lia. congruence.
    + rewrite list_lookup_insert_ne by done. apply Hinv; [lia|done].
  - exists r. split; [done|]. split; [lia|]. intros i x Hi. apply Hinv; [|done].
    apply lookup_lt_Some in Hi. lia.
Qed.

(** ** apply_inverse_permutation *)
Lemma apply_inverse_permutation_correct p (v : list T) :
  perm p -> length p = length v ->
  exists r, apply_inverse_permutation p v = Some r /\ length r = length v /\ permuted_by p r v.
Proof.
  intros Hp Hl. unfold apply_inverse_permutation.
  destruct (for_range_inv
    (fun i r => length r = length v /\ forall j x, j < i -> p !! j = Some x -> r !! x = v !! j)
    (fun i r => pi ← p !! i; x ← v !! i; wr r pi x) 0 (length v) (replicate (length v) inhabitant))
    as (r & Hr & Hlen & Hinv); [lia|split; [len|lia]| |].
  - intros i r Hi [Hlen Hinv].
    destruct (lookup_lt_is_Some_2 p i) as [x Hx]; [lia|].
    pose proof (perm_lookup_lt _ _ _ Hp Hx).
    destruct (lookup_lt_is_Some_2 v i) as [y Hy]; [lia|].
    exists (<[x:=y]> r). rewrite Hx; cbn. rewrite Hy; cbn. rewrite wr_Some by lia.
    split; [done|]. split; [len|]. intros j z Hj Hz.
    destruct (decide (x = z)) as [->|].
    + rewrite list_lookup_insert by lia. assert (i = j) as -> by (by eapply perm_inj). done.
    + rewrite list_lookup_insert_ne by done. apply Hinv; [|done]. destruct (decide (j = i)); [naive_solver|lia].
  - exists r. split; [done|]. split; [lia|]. split; [lia|]. intros i x Hi. symmetry. apply Hinv; [|done].
    apply lookup_lt_Some in Hi. lia.
Qed.

Lemma permuted_by_inj p (r r' v : list T) :
  perm p -> length r = length p -> length r' = length p ->
  permuted_by p r v -> permuted_by p r' v -> r = r'.
Proof.
  intros Hp Hl Hl' [_ H1] [_ H2]. apply list_eq_by_lookup_lt; [lia|]. intros x Hx.
  destruct (perm_surj p x Hp) as [i Hi]; [lia|].
  rewrite <- (H1 i x), <- (H2 i x); done.
Qed.

Lemma apply_then_inverse p (v r : list T) :
  perm p -> length p = length v ->
  apply_permutation p v = Some r -> apply_inverse_permutation p r = Some v.
Proof.
  intros Hp Hl Hr.
  destruct (apply_permutation_correct p v Hp Hl) as (r' & Hr' & Hby). simplify_eq.
  destruct (apply_inverse_permutation_correct p r Hp) as (v' & Hv' & Hlv & Hby').
  { destruct Hby; lia. }
  rewrite Hv'. f_equal. destruct Hby as [? ?]. eapply permuted_by_inj; [done|..|done|split; done]; lia.
Qed.

Lemma inverse_then_apply p (v r : list T) :
  perm p -> length p = length v ->
  apply_inverse_permutation p v = Some r -> apply_permutation p r = Some v.
Proof.
  intros Hp Hl Hr.
  destruct (apply_inverse_permutation_correct p v Hp Hl) as (r' & Hr' & Hlr & Hby). simplify_eq.
  destruct (apply_permutation_correct p r Hp) as (v' & Hv' & Hby'); [lia|].
  rewrite Hv'. f_equal. by eapply permuted_by_unique.
Qed.
End apply.

(** ** chain *)
Lemma chain_correct p q :
  perm p -> perm q -> length p = length q ->
  exists r, chain_permutation_first_left_then_right p q = Some r /\
    perm r /\ length r = length p /\ forall i x, q !! i = Some x -> r !! i = p !! x.
Proof.
  intros Hp Hq Hl. unfold chain_permutation_first_left_then_right.
  destruct (for_range_inv
    (fun i r => length r = length p /\ forall j x, j < i -> q !! j = Some x -> r !! j = p !! x)
    (fun i r => qi ← q !! i; pqi ← p !! qi; wr r i pqi) 0 (length p) (replicate (length p) 0))
    as (r & Hr & Hlen & Hinv); [lia|split; [len|lia]| |].
  - intros i r Hi [Hlen Hinv].
    destruct (lookup_lt_is_Some_2 q i) as [x Hx]; [lia|].
    pose proof (perm_lookup_lt _ _ _ Hq Hx).
    destruct (lookup_lt_is_Some_2 p x) as [y Hy]; [lia|].
    exists (<[i:=y]> r). rewrite Hx; cbn. rewrite Hy; cbn. rewrite wr_Some by lia.
    split; [done|]. split; [len|]. intros j z Hj Hz.
    destruct (decide (i = j)) as [->|].
    + rewrite list_lookup_insert by lia. congruence.
    + rewrite list_lookup_insert_ne by done. apply Hinv; [lia|done].
  - exists r. split; [done|].
    assert (forall i x, q !! i = Some x -> r !! i = p !! x) as Hpt.
    { intros i x Hi. apply Hinv; [|done]. apply lookup_lt_Some in Hi. lia. }
    split; [|split; [lia|done]].
    apply NoDup_bounded_perm.
    + apply NoDup_alt. intros i j y Hi Hj.
      destruct (lookup_lt_is_Some_2 q i) as [a Ha]; [apply lookup_lt_Some in Hi; lia|].
      destruct (lookup_lt_is_Some_2 q j) as [b Hb]; [apply lookup_lt_Some in Hj; lia|].
      rewrite (Hpt i a) in Hi by done. rewrite (Hpt j b) in Hj by done.
      assert (a = b) as -> by (by eapply (perm_inj p)). by eapply (perm_inj q).
    + intros y [i Hi]%elem_of_list_lookup_1.
      destruct (lookup_lt_is_Some_2 q i) as [a Ha]; [apply lookup_lt_Some in Hi; lia|].
      rewrite (Hpt i a) in Hi by done. apply perm_lookup_lt in Hi; [lia|done].
Qed.

Lemma chain_right_then_left_is_flip p q :
  chain_permutation_first_right_then_left p q = chain_permutation_first_left_then_right q p.
Proof. done. Qed.

(** Applying [p] and then [q] equals applying the chained permutation. *)
Lemma apply_chain {T} `{Inhabited T} p q (v v1 v2 : list T) r :
  perm p -> perm q -> length p = length q -> length p = length v ->
  apply_permutation p v = Some v1 -> apply_permutation q v1 = Some v2 ->
  chain_permutation_first_left_then_right p q = Some r ->
  apply_permutation r v = Some v2.
Proof.
  intros Hp Hq Hl Hv H1 H2 Hr.
  destruct (chain_correct p q Hp Hq Hl) as (r' & Hr' & Hpr & Hlr & Hpt). simplify_eq.
  destruct (apply_permutation_correct p v Hp Hv) as (v1' & E1 & Hl1 & By1). simplify_eq.
  destruct (apply_permutation_correct q v1 Hq) as (v2' & E2 & Hl2 & By2); [lia|]. simplify_eq.
  destruct (apply_permutation_correct r v Hpr) as (v3 & E3 & Hl3 & By3); [lia|].
  rewrite E3. f_equal. apply list_eq_by_lookup_lt; [lia|]. intros i Hi.
  destruct (lookup_lt_is_Some_2 q i) as [a Ha]; [lia|].
  pose proof (perm_lookup_lt _ _ _ Hq Ha).
  destruct (lookup_lt_is_Some_2 p a) as [b Hb]; [lia|].
  rewrite (By2 i a) by done. rewrite (By1 a b) by done. apply By3. rewrite (Hpt i a) by done. done.
Qed.

(** ** invert *)
Lemma invert_permutation_correct p :
  perm p -> exists q, invert_permutation p = Some q /\ inverse_of p q /\ perm q.
Proof.
  intros Hp. unfold invert_permutation.
  destruct (for_range_inv
    (fun i r => length r = length p /\ forall j x, j < i -> p !! j = Some x -> r !! x = Some j)
    (fun i r => pi ← p !! i; wr r pi i) 0 (length p) (replicate (length p) 0))
    as (r & Hr & Hlen & Hinv); [lia|split; [len|lia]| |].
  - intros i r Hi [Hlen Hinv].
    destruct (lookup_lt_is_Some_2 p i) as [x Hx]; [lia|].
    pose proof (perm_lookup_lt _ _ _ Hp Hx).
    exists (<[x:=i]> r). rewrite Hx; cbn. rewrite wr_Some by lia.
    split; [done|]. split; [len|]. intros j z Hj Hz.
    destruct (decide (x = z)) as [->|].
    + rewrite list_lookup_insert by lia. f_equal. by eapply perm_inj.
    + rewrite list_lookup_insert_ne by done. apply Hinv; [|done]. destruct (decide (j = i)); [naive_solver|lia].
  - exists r. split; [done|].
    assert (inverse_of p r) as Hinvof.
    { split; [done|]. intros i x. split.
      - intros Hi. apply Hinv; [|done]. apply lookup_lt_Some in Hi. lia.
      - intros Hx. destruct (perm_surj p x Hp) as [j Hj]; [apply lookup_lt_Some in Hx; lia|].
        assert (r !! x = Some j) as Hx' by (apply Hinv; [apply lookup_lt_Some in Hj; lia|done]).
        congruence. }
    split; [done|]. by eapply inverse_of_perm.
Qed.

(** Applying the inverse permutation is the same as [apply_inverse_permutation]. *)
Lemma apply_inverted {T} `{Inhabited T} p q (v : list T) :
  perm p -> length p = length v -> invert_permutation p = Some q ->
  apply_permutation q v = apply_inverse_permutation p v.
Proof.
  intros Hp Hl Hq. destruct (invert_permutation_correct p Hp) as (q' & E & [Hlq Hinv] & Hpq). simplify_eq.
  destruct (apply_permutation_correct q v Hpq) as (r1 & -> & Hl1 & By1); [lia|].
  destruct (apply_inverse_permutation_correct p v Hp Hl) as (r2 & -> & Hl2 & Hl3 & By2). f_equal.
  apply list_eq_by_lookup_lt; [lia|]. intros x Hx.
  destruct (lookup_lt_is_Some_2 q x) as [i Hi]; [lia|].
  rewrite (By1 x i) by done. apply By2. by apply Hinv.
Qed.

(** ** identity *)
Lemma identity_permutation_correct n : identity_permutation n = Some (seq 0 n).
Proof.
  unfold identity_permutation.
  destruct (for_range_inv
    (fun i r => length r = n /\ forall j, j < i -> r !! j = Some j)
    (fun i p => wr p i i) 0 n (replicate n 0)) as (r & Hr & Hlen & Hinv); [lia|split; [len|lia]| |].
  - intros i r Hi [Hlen Hinv]. exists (<[i:=i]> r). rewrite wr_Some by lia.
    split; [done|]. split; [len|]. intros j Hj. destruct (decide (i = j)) as [->|].
    + rewrite list_lookup_insert by lia. done.
    + rewrite list_lookup_insert_ne by done. apply Hinv; lia.
  - rewrite Hr. f_equal. apply list_eq_by_lookup_lt; [len|]. intros i Hi.
    rewrite Hinv by lia. rewrite lookup_seq_lt by lia. done.
Qed.

Lemma apply_identity {T} `{Inhabited T} (v : list T) :
  apply_permutation (seq 0 (length v)) v = Some v.
Proof.
  destruct (apply_permutation_correct (seq 0 (length v)) v (perm_seq _)) as (r & -> & Hl & By); [len|].
  f_equal. rewrite seq_length in Hl. apply list_eq_by_lookup_lt; [done|]. intros i Hi. apply By. rewrite lookup_seq_lt by lia. done.
Qed.

(** ** to elements of *)
Lemma apply_to_elements_correct p v :
  (forall x, x ∈ v -> x < length p) ->
  exists r, apply_permutation_to_elements_of p v = Some r /\ length r = length v /\
    forall i x, v !! i = Some x -> r !! i = p !! x.
Proof.
  intros Hb. unfold apply_permutation_to_elements_of, inplace_apply_permutation_to_elements_of.
  destruct (for_range_inv
    (fun i r => length r = length v /\ (forall j x, j < i -> v !! j = Some x -> r !! j = p !! x)
       /\ (forall j, i <= j -> r !! j = v !! j))
    (fun i v => vi ← v !! i; x ← p !! vi; wr v i x) 0 (length v) v)
    as (r & Hr & Hlen & Hinv & _); [lia|split; [done|split; [lia|done]]| |].
  - intros i r Hi (Hlen & Hinv & Hrest).
    destruct (lookup_lt_is_Some_2 v i) as [x Hx]; [lia|].
    assert (x < length p) by (apply Hb; by eapply elem_of_list_lookup_2).
    destruct (lookup_lt_is_Some_2 p x) as [y Hy]; [done|].
    exists (<[i:=y]> r). rewrite (Hrest i), Hx by lia; cbn. rewrite Hy; cbn. rewrite wr_Some by lia.
    split; [done|]. split; [len|]. split.
    + intros j z Hj Hz. destruct (decide (i = j)) as [->|].
      * rewrite list_lookup_insert by lia. congruence.
      * rewrite list_lookup_insert_ne by done. apply Hinv; [lia|done].
    + intros j Hj. rewrite list_lookup_insert_ne by lia. apply Hrest; lia.
  - exists r. split; [done|]. split; [done|]. intros i x Hi. apply Hinv; [|done].
    by apply lookup_lt_Some in Hi.
Qed.

Lemma apply_to_possibly_invalid_inplace_correct (p v : list N) :
  (forall x, x ∈ v -> x = invalid_id \/ (N.to_nat x < length p)) ->
  exists r, inplace_apply_permutation_to_possibly_invalid_elements_of p v = Some r /\ length r = length v /\
    forall i x, v !! i = Some x ->
      r !! i = if N.eqb x invalid_id then Some invalid_id else p !! N.to_nat x.
Proof.
  intros Hb. unfold inplace_apply_permutation_to_possibly_invalid_elements_of.
  destruct (for_range_inv
    (fun i r => length r = length v /\ (forall j x, j < i -> v !! j = Some x ->
         r !! j = if N.eqb x invalid_id then Some invalid_id else p !! N.to_nat x)
       /\ (forall j, i <= j -> r !! j = v !! j))
    (fun i v => vi ← v !! i; if N.eqb vi invalid_id then Some v else x ← p !! N.to_nat vi; wr v i x) 0 (length v) v)
    as (r & Hr & Hlen & Hinv & _); [lia|split; [done|split; [lia|done]]| |].
  - intros i r Hi (Hlen & Hinv & Hrest).
    destruct (lookup_lt_is_Some_2 v i) as [x Hx]; [lia|].
    rewrite (Hrest i), Hx by lia; cbn.
    destruct (N.eqb_spec x invalid_id) as [->|Hne].
    + exists r. split; [done|]. split; [done|]. split.
      * intros j z Hj Hz. destruct (decide (i = j)) as [->|].
        -- simplify_eq. rewrite N.eqb_refl, Hrest by lia. done.
        -- apply Hinv; [lia|done].
      * intros j Hj. apply Hrest; lia.
    + destruct (Hb x) as [->|Hlt]; [by eapply elem_of_list_lookup_2|done|].
      destruct (lookup_lt_is_Some_2 p (N.to_nat x)) as [y Hy]; [done|].
      rewrite Hy; cbn. exists (<[i:=y]> r). rewrite wr_Some by lia.
      split; [done|]. split; [len|]. split.
      * intros j z Hj Hz. destruct (decide (i = j)) as [->|].
        -- simplify_eq. rewrite list_lookup_insert by lia.
           rewrite (proj2 (N.eqb_neq _ _) Hne). done.
        -- rewrite list_lookup_insert_ne by done. apply Hinv; [lia|done].
      * intros j Hj. rewrite list_lookup_insert_ne by lia. apply Hrest; lia.
  - exists r. split; [done|]. split; [done|]. intros i x Hi. apply Hinv; [|done].
    by apply lookup_lt_Some in Hi.
Qed.

(** ** invert_vector *)
Lemma skip_smaller_spec v i pos fuel :
  (forall a b x y, a <= b -> v !! a = Some x -> v !! b = Some y -> x <= y) ->
  length v <= pos + fuel -> pos <= length v ->
  (forall j x, j < pos -> v !! j = Some x -> x < i) ->
  let r := skip_smaller v i pos fuel in
  pos <= r <= length v /\ (forall j x, v !! j = Some x -> (x < i <-> j < r)).
Proof.
  intros Hs. revert pos. induction fuel as [|fuel IH]; intros pos Hf Hpos Hlt; cbn.
  - split; [lia|]. intros j x Hj. pose proof (lookup_lt_Some _ _ _ Hj). split; [lia|]. intros; eapply Hlt; [|done]; lia.
  - destruct (v !! pos) as [y|] eqn:Hy.
    + case_decide as Hc.
      * destruct (IH (S pos)) as [H1 H2].
        -- lia.
        -- apply lookup_lt_Some in Hy. lia.
        -- intros j x Hj Hx. destruct (decide (j = pos)) as [->|]; [naive_solver|]. eapply Hlt; [|done]; lia.
        -- split; [lia|done].
      * split; [lia|]. intros j x Hj. split.
        -- intros Hx. destruct (decide (j < pos)); [done|]. exfalso.
           assert (y <= x) by (eapply (Hs pos j); [lia|done..]). lia.
        -- intros. by eapply Hlt.
    + apply lookup_ge_None_1 in Hy. split; [lia|]. intros j x Hj. pose proof (lookup_lt_Some _ _ _ Hj).
      split; [lia|]. intros; eapply Hlt; [|done]; lia.
Qed.

Lemma sorted_lookup_le (v : list nat) a b x y :
  StronglySorted le v -> a <= b -> v !! a = Some x -> v !! b = Some y -> x <= y.
Proof.
  intros Hs. revert a b. induction Hs as [|z v Hs IH Hall]; intros a b Hab Ha Hb; [done|].
  destruct a as [|a], b as [|b]; cbn in *; simplify_eq.
  - done.
  - rewrite Forall_forall in Hall. apply Hall. by eapply elem_of_list_lookup_2.
  - lia.
  - eapply (IH a b); [lia|done..].
Qed.

Lemma invert_vector_correct v n :
  StronglySorted le v -> (forall x, x ∈ v -> x < n) ->
  exists idx, invert_vector v n = Some idx /\ length idx = S n /\
    idx !! 0 = Some 0 /\ idx !! n = Some (length v) /\
    (forall x lo hi, x < n -> idx !! x = Some lo -> idx !! S x = Some hi -> lo <= hi) /\
    (forall x lo hi j y, x < n -> idx !! x = Some lo -> idx !! S x = Some hi ->
        v !! j = Some y -> (y = x <-> lo <= j < hi)).
Proof.
  intros Hs Hb.
  (* characterisation: idx !! i counts the elements smaller than i *)
  assert (exists idx, invert_vector v n = Some idx /\ length idx = S n /\
      forall i r, idx !! i = Some r -> r <= length v /\ forall j x, v !! j = Some x -> (x < i <-> j < r)) as (idx & Hidx & Hlen & Hch).
  { destruct v as [|v0 v'] eqn:Ev.
    - exists (replicate (S n) 0). split; [done|]. split; [len|]. intros i r Hr.
      apply lookup_replicate in Hr as [-> ?]. split; [cbn; lia|]. intros j x Hj. done.
    - rewrite <- Ev in *. assert (invert_vector v n =
        (index ← wr (replicate (S n) 0) 0 0;
      '(index, pos) ← for_range 0 n
          (fun i '(index, pos) =>
             let pos := skip_smaller v i pos (length v - pos) in
             index ← wr index i pos; Some (index, pos)) (index, 0);
      wr index n (length v))) as -> by (rewrite Ev; done).
      rewrite wr_Some by len. rewrite bind_S.
      destruct (for_range_inv
        (fun i '(index, pos) => length index = S n /\ pos <= length v /\
            (forall j x, j < pos -> v !! j = Some x -> x < i) /\
            (forall k r, k < i -> index !! k = Some r -> r <= length v /\ forall j x, v !! j = Some x -> (x < k <-> j < r)))
        (fun i '(index, pos) =>
             let pos := skip_smaller v i pos (length v - pos) in
             index ← wr index i pos; Some (index, pos)) 0 n (<[0:=0]> (replicate (S n) 0), 0))
        as ([index pos] & Hr & Hlen & Hpos & Hlt & Hinv).
      + lia.
      + split; [len|]. split; [lia|]. split; lia.
      + intros i [index pos] Hi (Hlen & Hpos & Hlt & Hinv). cbn zeta.
        pose proof (skip_smaller_spec v i pos (length v - pos)) as [Hr1 Hr2].
        * intros a b x y Hab. by apply sorted_lookup_le.
        * lia.
        * lia.
        * done.
        * set (r := skip_smaller v i pos (length v - pos)) in *.
          rewrite wr_Some by lia. cbn. eexists. split; [done|]. split; [len|]. split; [lia|]. split.
          -- intros j x Hj Hx. assert (x < i) by (by eapply Hr2). lia.
          -- intros k r' Hk Hk'. destruct (decide (i = k)) as [->|].
             ++ rewrite list_lookup_insert in Hk' by lia. simplify_eq. split; [lia|done].
             ++ rewrite list_lookup_insert_ne in Hk' by done. apply Hinv; [lia|done].
      + rewrite Hr. cbn. rewrite wr_Some by lia. eexists. split; [done|]. split; [len|].
        intros i r Hi. destruct (decide (i = n)) as [->|].
        * rewrite list_lookup_insert in Hi by lia. simplify_eq. split; [lia|]. intros j x Hj.
          pose proof (lookup_lt_Some _ _ _ Hj). split; [done|]. intros _. apply Hb. by eapply elem_of_list_lookup_2.
        * rewrite list_lookup_insert_ne in Hi by done. apply Hinv; [|done].
          apply lookup_lt_Some in Hi. lia. }
  exists idx. split; [done|]. split; [done|].
  assert (forall x r, idx !! x = Some r -> r <= length v) as Hle by (intros x r Hx; by apply Hch in Hx as [? _]).
  split.
  { destruct (lookup_lt_is_Some_2 idx 0) as [r Hr]; [lia|]. rewrite Hr. f_equal.
    destruct (Hch 0 r Hr) as [Hrl Hr']. destruct r as [|r]; [done|].
    destruct (lookup_lt_is_Some_2 v 0) as [x Hx]; [lia|]. specialize (Hr' 0 x Hx). lia. }
  split.
  { destruct (lookup_lt_is_Some_2 idx n) as [r Hr]; [lia|]. rewrite Hr. f_equal.
    destruct (Hch n r Hr) as [Hrl Hr']. destruct (decide (r = length v)); [done|].
    destruct (lookup_lt_is_Some_2 v r) as [x Hx]; [lia|]. specialize (Hr' r x Hx).
    assert (x < n) by (apply Hb; by eapply elem_of_list_lookup_2). lia. }
  split.
  - intros x lo hi Hx Hlo Hhi. destruct (Hch _ _ Hlo) as [Hlol Hlo']. destruct (Hch _ _ Hhi) as [Hhil Hhi'].
    destruct (decide (lo <= hi)); [done|]. exfalso.
    destruct (lookup_lt_is_Some_2 v hi) as [y Hy]; [lia|].
    specialize (Hlo' _ _ Hy). specialize (Hhi' _ _ Hy). lia.
  - intros x lo hi j y Hx Hlo Hhi Hj. destruct (Hch _ _ Hlo) as [Hlol Hlo']. destruct (Hch _ _ Hhi) as [Hhil Hhi'].
    specialize (Hlo' _ _ Hj). specialize (Hhi' _ _ Hj). lia.
Qed.

(** ** invert_inverse_vector *)

Lemma valid_index_mono idx i j a b :
  valid_index idx -> i <= j -> idx !! i = Some a -> idx !! j = Some b -> a <= b.
Proof.
  intros [_ Hm] Hij Ha. revert b. induction Hij as [|j Hij IH]; intros b Hb; [naive_solver|].
  destruct (lookup_lt_is_Some_2 idx j) as [c Hc]; [apply lookup_lt_Some in Hb; lia|].
  specialize (IH _ Hc). specialize (Hm _ _ _ Hc Hb). lia.
Qed.

Lemma fill_range_correct (v : list nat) lo hi i :
  lo <= hi <= length v ->
  exists v', for_range lo hi (fun j v => wr v j i) v = Some v' /\ length v' = length v /\
    forall j, v' !! j = if decide (lo <= j < hi) then Some i else v !! j.
Proof.
  intros Hle.
  destruct (for_range_inv
    (fun k v' => length v' = length v /\ forall j, v' !! j = if decide (lo <= j < k) then Some i else v !! j)
    (fun j v => wr v j i) lo hi v) as (v' & Hv & Hlen & Hinv).
  - lia.
  - split; [done|]. intros j. rewrite decide_False by lia. done.
  - intros k v' Hk [Hlen Hinv]. exists (<[k:=i]> v'). rewrite wr_Some by lia. split; [done|].
    split; [len|]. intros j. destruct (decide (k = j)) as [->|].
    + rewrite list_lookup_insert by lia. rewrite decide_True by lia. done.
    + rewrite list_lookup_insert_ne by done. rewrite Hinv. repeat case_decide; lia || done.
  - eauto.
Qed.

Lemma invert_inverse_vector_correct idx :
  valid_index idx ->
  exists v, invert_inverse_vector idx = Some v /\
    (exists m, idx !! (length idx - 1) = Some m /\ length v = m) /\
    (forall i lo hi j, idx !! i = Some lo -> idx !! S i = Some hi -> lo <= j < hi -> v !! j = Some i).
Proof.
  intros Hvi. unfold invert_inverse_vector. destruct Hvi as [H0 Hm] eqn:E. clear E.
  assert (idx <> []) as Hne by (by intros ->).
  assert (0 < length idx) by (destruct idx; cbn in *; [done|lia]).
  destruct (lookup_lt_is_Some_2 idx (length idx - 1)) as [m Hmm]; [lia|].
  rewrite last_lookup. replace (pred (length idx)) with (length idx - 1) by lia. rewrite Hmm. cbn.
  destruct (for_range_inv
    (fun k v => length v = m /\ forall i lo hi j, i < k -> idx !! i = Some lo -> idx !! S i = Some hi -> lo <= j < hi -> v !! j = Some i)
    (fun i v => lo ← idx !! i; hi ← idx !! S i; for_range lo hi (fun j v => wr v j i) v)
    0 (length idx - 1) (replicate m 0)) as (v & Hv & Hlen & Hinv).
  - lia.
  - split; [len|lia].
  - intros k v Hk [Hlen Hinv].
    destruct (lookup_lt_is_Some_2 idx k) as [lo Hlo]; [lia|].
    destruct (lookup_lt_is_Some_2 idx (S k)) as [hi Hhi]; [lia|].
    rewrite Hlo; cbn. rewrite Hhi; cbn.
    assert (lo <= hi) by eauto.
    assert (hi <= m) by (eapply valid_index_mono; [exact Hvi| |exact Hhi|exact Hmm]; lia).
    destruct (fill_range_correct v lo hi k) as (v' & Hv' & Hl' & Hpt); [lia|].
    exists v'. split; [done|]. split; [lia|]. intros i lo' hi' j Hi Hlo' Hhi' Hj. rewrite Hpt.
    destruct (decide (i = k)) as [->|].
    + simplify_eq. rewrite decide_True by lia. done.
    + rewrite decide_False.
      * eapply Hinv; [|done..]. lia.
      * assert (hi' <= lo) by (eapply valid_index_mono; [exact Hvi| |exact Hhi'|exact Hlo]; lia). lia.
  - rewrite Hv. exists v. split; [done|]. split; [eauto|]. intros i lo hi j Hlo Hhi Hj.
    eapply Hinv; [|done..]. apply lookup_lt_Some in Hhi. lia.
Qed.

Lemma invert_vector_round_trip v n idx :
  StronglySorted le v -> (forall x, x ∈ v -> x < n) ->
  invert_vector v n = Some idx -> invert_inverse_vector idx = Some v.
Proof.
  intros Hs Hb Hidx. destruct (invert_vector_correct v n Hs Hb) as (idx' & E & Hlen & H0 & Hn & Hmono & Hin).
  simplify_eq.
  assert (valid_index idx) as Hvi.
  { split; [done|]. intros i lo hi Hlo Hhi. eapply Hmono; [|done..]. apply lookup_lt_Some in Hhi. lia. }
  destruct (invert_inverse_vector_correct idx Hvi) as (v' & -> & (m & Hm & Hlv) & Hpt). f_equal.
  rewrite Hlen in Hm. replace (S n - 1) with n in Hm by lia. simplify_eq.
  apply list_eq_by_lookup_lt; [lia|]. intros j Hj.
  destruct (lookup_lt_is_Some_2 v j) as [x Hx]; [lia|]. rewrite Hx.
  assert (x < n) by (apply Hb; by eapply elem_of_list_lookup_2).
  destruct (lookup_lt_is_Some_2 idx x) as [lo Hlo]; [lia|].
  destruct (lookup_lt_is_Some_2 idx (S x)) as [hi Hhi]; [lia|].
  eapply Hpt; [done..|]. by eapply Hin.
Qed.

(** ** filter *)
Section filt.
Context {T : Type}.

Lemma select_app sel keep1 keep2 (v1 v2 : list T) :
  length keep1 = length v1 ->
  select sel (keep1 ++ keep2) (v1 ++ v2) = select sel keep1 v1 ++ select sel keep2 v2.
Proof.
  revert v1. induction keep1 as [|b k IH]; intros [|x v1] Hl; [done..|]. cbn.
  rewrite IH by (cbn in Hl; lia). destruct (sel b); done.
Qed.
Lemma select_length_le sel keep (v : list T) : length (select sel keep v) <= length keep.
Proof.
  revert v. induction keep as [|b k IH]; intros [|x v]; cbn; [lia..|]. specialize (IH v).
  destruct (sel b); cbn; lia.
Qed.

Lemma inplace_filter_correct sel keep (v : list T) :
  length keep = length v -> inplace_filter sel keep v = Some (select sel keep v).
Proof.
  intros Hl. unfold inplace_filter.
  destruct (for_range_inv
    (fun i '(vec, out) => length vec = length v /\ out <= i /\
       take out vec = select sel (take i keep) (take i v) /\ drop i vec = drop i v)
    (fun inp '(vec, out) =>
        b ← keep !! inp;
        if sel b then x ← vec !! inp; vec ← wr vec out x; Some (vec, S out)
        else Some (vec, out)) 0 (length v) (v, 0)) as ([vec out] & Hr & Hlen & Hout & Hsel & _).
  - lia.
  - done.
  - intros i [vec out] Hi (Hlen & Hout & Hsel & Hrest).
    destruct (lookup_lt_is_Some_2 keep i) as [b Hb]; [lia|].
    destruct (lookup_lt_is_Some_2 v i) as [x Hx]; [lia|].
    assert (vec !! i = Some x) as Hvx.
    { rewrite <- (Nat.add_0_r i), <- lookup_drop, Hrest, lookup_drop, Nat.add_0_r. done. }
    assert (select sel (take (S i) keep) (take (S i) v) =
            select sel (take i keep) (take i v) ++ (if sel b then [x] else [])) as Hstep.
    { rewrite (take_S_r _ _ _ Hb), (take_S_r _ _ _ Hx). rewrite select_app; [|len]. done. }
    rewrite Hb; cbn. destruct (sel b).
    + rewrite Hvx; cbn. rewrite wr_Some by lia. cbn. eexists. split; [done|]. split; [len|]. split; [lia|]. split.
      * rewrite Hstep, <- Hsel. rewrite (take_S_r _ _ x); [|rewrite list_lookup_insert by lia; done].
        rewrite take_insert by lia. done.
      * rewrite drop_insert_gt by lia.
        replace (S i) with (i + 1) by lia. rewrite <- !drop_drop, Hrest. done.
    + eexists. split; [done|]. split; [done|]. split; [lia|]. split.
      * rewrite Hstep, app_nil_r. done.
      * replace (S i) with (i + 1) by lia. rewrite <- !drop_drop, Hrest. done.
  - rewrite Hr. cbn. f_equal. rewrite Hsel, !take_ge by lia. done.
Qed.
End filt.

(** ** The copying variant for possibly invalid elements *)
Lemma copy_variant_wrong : ~ (forall p v : list N,
  (forall x, x ∈ v -> x = invalid_id \/ (N.to_nat x < length p)) ->
  exists r, apply_permutation_to_possibly_invalid_elements_of p v = Some r /\ length r = length v /\
    forall i x, v !! i = Some x ->
      r !! i = if N.eqb x invalid_id then Some invalid_id else p !! N.to_nat x).
Proof.
  intros H. destruct (H [] [invalid_id]) as (r & Hr & _).
  - intros x Hx. set_unfold. destruct Hx as [->|[]]. by left.
  - lazy in Hr. done.
Qed.

Lemma for_n_ext {S} n i (f g : nat -> S -> option S) (P : nat -> S -> Prop) s :
  P i s ->
  (forall j s, i <= j < i + n -> P j s -> f j s = g j s) ->
  (forall j s s', i <= j < i + n -> P j s -> f j s = Some s' -> P (Datatypes.S j) s') ->
  for_n n i f s = for_n n i g s.
Proof.
  revert i s. induction n as [|n IH]; intros i s HP Hfg Hstep; [done|]. cbn [for_n].
  rewrite <- Hfg; [|lia|done]. destruct (f i s) as [s'|] eqn:E; [|done]. cbn.
  apply IH.
  - eapply Hstep; [|done|done]. lia.
  - intros j s'' Hj. apply Hfg; lia.
  - intros j s1 s2 Hj. apply Hstep; lia.
Qed.

Lemma copy_variant_without_invalid (p v : list N) :
  (forall x, x ∈ v -> x <> invalid_id) ->
  apply_permutation_to_possibly_invalid_elements_of p v = inplace_apply_permutation_to_possibly_invalid_elements_of p v.
Proof.
  intros Hv. unfold apply_permutation_to_possibly_invalid_elements_of, inplace_apply_permutation_to_elements_of_N,
    inplace_apply_permutation_to_possibly_invalid_elements_of, for_range.
  apply (for_n_ext _ _ _ _ (fun i w => forall j, i <= j -> w !! j = v !! j)).
  - done.
  - intros j w Hj Hw. rewrite Hw by done. destruct (v !! j) as [x|] eqn:Hx; [|done]. cbn.
    assert (x <> invalid_id) as Hne by (apply Hv; by eapply elem_of_list_lookup_2).
    apply N.eqb_neq in Hne. rewrite Hne. done.
  - intros j w w' Hj Hw E k Hk. destruct (w !! j) as [x|]; [|done]. cbn in E.
    destruct (p !! N.to_nat x) as [y|]; [|done]. cbn in E. apply wr_is_Some in E as [_ ->].
    rewrite list_lookup_insert_ne by lia. apply Hw; lia.
Qed.

(** ** The two directions of inverting are mutually inverse *)
Lemma invert_inverse_round_trip idx v :
  valid_index idx -> invert_inverse_vector idx = Some v ->
  StronglySorted le v /\ (forall x, x ∈ v -> x < length idx - 1) /\
  invert_vector v (length idx - 1) = Some idx.
Proof.
  intros Hvi Hv. destruct (invert_inverse_vector_correct idx Hvi) as (v' & E & (m & Hm & Hlen) & Hpt). simplify_eq.
  assert (0 < length idx) by (destruct Hvi as [H0 _]; by apply lookup_lt_Some in H0).
  (* every position lies in a unique range *)
  assert (forall j, j < length v -> exists i lo hi, idx !! i = Some lo /\ idx !! S i = Some hi /\ lo <= j < hi) as Hcover.
  { intros j Hj.
    assert (forall k b, idx !! k = Some b -> j < b -> exists i lo hi, idx !! i = Some lo /\ idx !! S i = Some hi /\ lo <= j < hi) as Hk.
    { induction k as [|k IH]; intros b Hb Hjb.
      - destruct Hvi as [H0 _]. simplify_eq. lia.
      - destruct (lookup_lt_is_Some_2 idx k) as [c Hc]; [apply lookup_lt_Some in Hb; lia|].
        destruct (decide (j < c)); [by eapply IH|]. exists k, c, b. split; [done|]. split; [done|]. lia. }
    eapply Hk; [exact Hm|done]. }
  assert (forall j k x y, j <= k -> v !! j = Some x -> v !! k = Some y -> x <= y) as Hmono.
  { intros j k x y Hjk Hx Hy.
    destruct (Hcover j) as (i & lo & hi & Hlo & Hhi & Hj); [by eapply lookup_lt_Some|].
    destruct (Hcover k) as (i' & lo' & hi' & Hlo' & Hhi' & Hk); [by eapply lookup_lt_Some|].
    assert (x = i) as -> by (pose proof (Hpt _ _ _ _ Hlo Hhi Hj); congruence).
    assert (y = i') as -> by (pose proof (Hpt _ _ _ _ Hlo' Hhi' Hk); congruence).
    destruct (decide (i <= i')); [done|]. exfalso.
    assert (hi' <= lo) by (eapply (valid_index_mono idx (S i') i); [done| |done|done]; lia). lia. }
  assert (StronglySorted le v) as Hsort.
  { clear -Hmono. induction v as [|x v IH]; constructor.
    - apply IH. intros j k a b Hjk Ha Hb. apply (Hmono (S j) (S k)); [lia|done..].
    - rewrite Forall_forall. intros y [j Hj]%elem_of_list_lookup_1. apply (Hmono 0 (S j)); [lia|done..]. }
  assert (forall x, x ∈ v -> x < length idx - 1) as Hbound.
  { intros x [j Hj]%elem_of_list_lookup_1.
    destruct (Hcover j) as (i & lo & hi & Hlo & Hhi & Hr); [by eapply lookup_lt_Some|].
    pose proof (Hpt _ _ _ _ Hlo Hhi Hr). simplify_eq. apply lookup_lt_Some in Hhi. lia. }
  split; [done|]. split; [done|].
  destruct (invert_vector_correct v (length idx - 1) Hsort Hbound) as (idx' & -> & Hl & H0 & Hn & Hmono' & Hin). f_equal.
  apply list_eq_by_lookup_lt; [lia|].
  assert (forall i, i < length idx -> idx' !! i = idx !! i) as Hall.
  { induction i as [|i IH]; intros Hi.
    - rewrite H0. destruct Hvi as [-> _]. done.
    - destruct (lookup_lt_is_Some_2 idx i) as [lo Hlo]; [lia|]. destruct (lookup_lt_is_Some_2 idx (S i)) as [hi Hhi]; [lia|].
      destruct (lookup_lt_is_Some_2 idx' (S i)) as [hi' Hhi']; [lia|].
      assert (idx' !! i = Some lo) as Hlo' by (rewrite IH by lia; done).
      rewrite Hhi, Hhi'. f_equal.
      assert (lo <= hi) by (destruct Hvi as [_ Hvi]; eauto).
      assert (lo <= hi') by (eapply Hmono'; [|exact Hlo'|exact Hhi']; lia).
      assert (hi <= length v) by (eapply (valid_index_mono idx (S i)); [done| |done|done]; lia).
      assert (hi' <= length v).
      { destruct (valid_index_mono idx' (S i) (length idx - 1) hi' (length v)); [|lia|done|done|done|lia].
        split; [done|]. intros k a b Ha Hb. eapply Hmono'; [|done|done]. apply lookup_lt_Some in Hb. lia. }
      destruct (lt_eq_lt_dec hi hi') as [[Hlt|?]|Hlt]; [|done|]; exfalso.
      + destruct (lookup_lt_is_Some_2 v hi) as [y Hy]; [lia|].
        assert (y = i) as -> by (eapply (Hin i lo hi' hi); [lia|done|done|done|lia]).
        destruct (Hcover hi) as (i' & lo2 & hi2 & Hlo2 & Hhi2 & Hr); [lia|].
        pose proof (Hpt _ _ _ _ Hlo2 Hhi2 Hr). simplify_eq. lia.
      + destruct (lookup_lt_is_Some_2 v hi') as [y Hy]; [lia|].
        assert (y = i) as Hyi by (pose proof (Hpt _ _ _ hi' Hlo Hhi ltac:(lia)); congruence).
        pose proof (proj1 (Hin i lo hi' hi' y ltac:(lia) Hlo' Hhi' Hy) Hyi). lia. }
  intros i Hi. apply Hall. lia.
Qed.
