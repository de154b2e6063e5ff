(** Property theorems C07-C14 (vector utilities and graph utilities). *)
From Verif Require Import Base PermutationModel SortModel GraphUtilModel UtilSpec GraphSpec
  PermutationProofs SortProofs GraphUtilProofs.

(** * C07 *)
Theorem C07_is_permutation : forall p,
  exists b, is_permutation p = Some b /\ (b = true <-> perm p).
Proof. exact is_permutation_correct. Qed.
Print Assumptions C07_is_permutation.
Example C07_is_permutation_ex : is_permutation [2;0;1] = Some true /\ is_permutation [2;0;2] = Some false
  /\ is_permutation [3;0;1] = Some false.
Proof. done. Qed.

Theorem C07_apply_permutation : forall T (HT : Inhabited T) p (v : list T),
  perm p -> length p = length v ->
  exists r, apply_permutation p v = Some r /\ permuted_by p v r.
Proof. exact @apply_permutation_correct. Qed.
Print Assumptions C07_apply_permutation.
Example C07_apply_ex : perm [2;0;1] /\ apply_permutation [2;0;1] [10;11;12] = Some [12;10;11].
Proof. split; [|done]. apply NoDup_bounded_perm; [repeat constructor; set_solver|]. intros x. cbn. set_unfold. lia. Qed.

Theorem C07_apply_inverse_permutation : forall T (HT : Inhabited T) p (v : list T),
  perm p -> length p = length v ->
  exists r, apply_inverse_permutation p v = Some r /\ length r = length v /\ permuted_by p r v.
Proof. exact @apply_inverse_permutation_correct. Qed.
Print Assumptions C07_apply_inverse_permutation.
Example C07_apply_inverse_ex : apply_inverse_permutation [2;0;1] [12;10;11] = Some [10;11;12].
Proof. done. Qed.

Theorem C07_apply_then_inverse : forall T (HT : Inhabited T) p (v r : list T),
  perm p -> length p = length v ->
  apply_permutation p v = Some r -> apply_inverse_permutation p r = Some v.
Proof. exact @apply_then_inverse. Qed.
Print Assumptions C07_apply_then_inverse.

Theorem C07_inverse_then_apply : forall T (HT : Inhabited T) p (v r : list T),
  perm p -> length p = length v ->
  apply_inverse_permutation p v = Some r -> apply_permutation p r = Some v.
Proof. exact @inverse_then_apply. Qed.
Print Assumptions C07_inverse_then_apply.

Theorem C07_chain : forall p q,
  perm p -> perm q -> length p = length q ->
  exists r, chain_permutation_first_left_then_right p q = Some r /\
    perm r /\ length r = length p /\ forall i x, q !! i = Some x -> r !! i = p !! x.
Proof. exact chain_correct. Qed.
Print Assumptions C07_chain.

Theorem C07_apply_chain : forall T (HT : Inhabited T) p q (v v1 v2 : list T) r,
  perm p -> perm q -> length p = length q -> length p = length v ->
  apply_permutation p v = Some v1 -> apply_permutation q v1 = Some v2 ->
  chain_permutation_first_left_then_right p q = Some r ->
  apply_permutation r v = Some v2.
Proof. exact @apply_chain. Qed.
Print Assumptions C07_apply_chain.
Example C07_chain_ex : chain_permutation_first_left_then_right [2;0;1] [1;0;2] = Some [0;2;1].
Proof. done. Qed.

Theorem C07_invert : forall p,
  perm p -> exists q, invert_permutation p = Some q /\ inverse_of p q /\ perm q.
Proof. exact invert_permutation_correct. Qed.
Print Assumptions C07_invert.

Theorem C07_apply_inverted : forall T (HT : Inhabited T) p q (v : list T),
  perm p -> length p = length v -> invert_permutation p = Some q ->
  apply_permutation q v = apply_inverse_permutation p v.
Proof. exact @apply_inverted. Qed.
Print Assumptions C07_apply_inverted.
Example C07_invert_ex : invert_permutation [2;0;1;3] = Some [1;2;0;3].
Proof. done. Qed.

Theorem C07_identity : forall n, identity_permutation n = Some (seq 0 n) /\ perm (seq 0 n).
Proof. exact (fun n => conj (identity_permutation_correct n) (perm_seq n)). Qed.
Print Assumptions C07_identity.

Theorem C07_identity_neutral : forall T (HT : Inhabited T) (v : list T),
  apply_permutation (seq 0 (length v)) v = Some v.
Proof. exact @apply_identity. Qed.
Print Assumptions C07_identity_neutral.

Theorem C07_elements : forall p v,
  (forall x, x ∈ v -> x < length p) ->
  exists r, apply_permutation_to_elements_of p v = Some r /\ length r = length v /\
    forall i x, v !! i = Some x -> r !! i = p !! x.
Proof. exact apply_to_elements_correct. Qed.
Print Assumptions C07_elements.
Example C07_elements_ex : apply_permutation_to_elements_of [2;0;1] [0;0;2;1] = Some [2;2;1;0].
Proof. done. Qed.

(** * C08: the in-place variant is right, the copying one reads out of range on
    every vector containing invalid_id. *)
Definition C08_statement : Prop := forall p v : list N,
  (forall x, x ∈ v -> x = invalid_id \/ (N.to_nat x < length p)) ->
  exists r, apply_permutation_to_possibly_invalid_elements_of p v = Some r /\ length r = length v /\
    forall i x, v !! i = Some x ->
      r !! i = if N.eqb x invalid_id then Some invalid_id else p !! N.to_nat x.

Theorem C08_inplace : forall p v : list N,
  (forall x, x ∈ v -> x = invalid_id \/ (N.to_nat x < length p)) ->
  exists r, inplace_apply_permutation_to_possibly_invalid_elements_of p v = Some r /\ length r = length v /\
    forall i x, v !! i = Some x ->
      r !! i = if N.eqb x invalid_id then Some invalid_id else p !! N.to_nat x.
Proof. exact apply_to_possibly_invalid_inplace_correct. Qed.
Print Assumptions C08_inplace.
Example C08_inplace_ex :
  inplace_apply_permutation_to_possibly_invalid_elements_of [1;0]%N [0;invalid_id;1]%N = Some [1;invalid_id;0]%N.
Proof. lazy. done. Qed.

Theorem C08_copy_refuted : ~ C08_statement.
Proof. exact copy_variant_wrong. Qed.
Print Assumptions C08_copy_refuted.

Theorem C08_copy_partial : forall p v : list N,
  (forall x, x ∈ v -> x <> invalid_id) ->
  apply_permutation_to_possibly_invalid_elements_of p v = inplace_apply_permutation_to_possibly_invalid_elements_of p v.
Proof. exact copy_variant_without_invalid. Qed.
Print Assumptions C08_copy_partial.
Example C08_copy_ex : (forall x, x ∈ [1;0;1]%N -> x <> invalid_id) /\
  apply_permutation_to_possibly_invalid_elements_of [7;8]%N [1;0;1]%N = Some [8;7;8]%N.
Proof. split; [|done]. intros x Hx. set_unfold. unfold invalid_id. lia. Qed.

(** * C09 *)
Theorem C09_stable_sort_permutation : forall T (key : T -> nat) v kc,
  (forall x, x ∈ v -> key x < kc) ->
  exists p, compute_stable_sort_permutation_using_key key v kc = Some p /\ stable_sort_perm key v p.
Proof. exact @compute_stable_sort_permutation_correct. Qed.
Print Assumptions C09_stable_sort_permutation.

Theorem C09_branch_independent : forall T (key : T -> nat) v kc,
  (forall x, x ∈ v -> key x < kc) ->
  bucket_sort_permutation key v kc = Some (comparator_sort_permutation key v).
Proof. exact @bucket_eq_comparator. Qed.
Print Assumptions C09_branch_independent.

Theorem C09_stable_sort_permutation_unique : forall T (key : T -> nat) v p q,
  stable_sort_perm key v p -> stable_sort_perm key v q -> p = q.
Proof. exact @stable_sort_perm_unique. Qed.
Print Assumptions C09_stable_sort_permutation_unique.

Theorem C09_sort_permutation : forall T (key : T -> nat) std_sort v kc,
  (forall x, x ∈ v -> key x < kc) ->
  sort_perm key v (std_sort (seq 0 (length v))) ->
  exists p, compute_sort_permutation_using_key key std_sort v kc = Some p /\ sort_perm key v p.
Proof. exact @compute_sort_permutation_correct. Qed.
Print Assumptions C09_sort_permutation.

Theorem C09_inverse_sort_permutation : forall T (key : T -> nat) v kc,
  (forall x, x ∈ v -> key x < kc) ->
  exists q p, compute_inverse_stable_sort_permutation_using_key key v kc = Some q /\
    inverse_of p q /\ perm q /\ stable_sort_perm key v p.
Proof. exact @compute_inverse_stable_sort_permutation_correct. Qed.
Print Assumptions C09_inverse_sort_permutation.

Theorem C09_stable_sort : forall T (HT : Inhabited T) (key : T -> nat) v kc,
  (forall x, x ∈ v -> key x < kc) ->
  exists r p, stable_sort_using_key key v kc = Some r /\ stable_sort_perm key v p /\ permuted_by p v r.
Proof. exact @stable_sort_using_key_correct. Qed.
Print Assumptions C09_stable_sort.

Theorem C09_is_sorted : forall T (key : T -> nat) v,
  is_sorted_using_key key v = true <-> Sorted (fun x y => key x <= key y) v.
Proof. exact @is_sorted_using_key_correct. Qed.
Print Assumptions C09_is_sorted.

(** both branches exercised: key_count 4 (bucket) and 40 (comparator) for 1 and 2 elements. *)
Example C09_ex :
  compute_stable_sort_permutation_using_key fst [(3,0);(1,1);(3,2);(0,3)] 4 = Some [3;1;0;2] /\
  use_bucket_sort [(3,0);(1,1);(3,2);(0,3)] 4 = true /\
  use_bucket_sort [(30,0);(1,1)] 48 = false /\
  compute_stable_sort_permutation_using_key fst [(30,0);(1,1)] 48 = Some [1;0] /\
  compute_inverse_stable_sort_permutation_using_key fst [(3,0);(1,1);(3,2);(0,3)] 4 = Some [2;1;3;0] /\
  stable_sort_using_key fst [(3,0);(1,1);(3,2);(0,3)] 4 = Some [(0,3);(1,1);(3,0);(3,2)].
Proof. done. Qed.

(** The debug assertion [k <= key_count] (sort.h:135) admits keys for which the
    counting array is written out of range. *)
Theorem C09_assert_too_weak_refuted : exists (v : list nat) kc,
  (forall x, x ∈ v -> id x <= kc) /\ compute_stable_sort_permutation_using_key id v kc = None.
Proof. exact key_count_boundary. Qed.
Print Assumptions C09_assert_too_weak_refuted.

(** * C10 *)
Theorem C10_sort_permutation : forall n tail head,
  length tail = length head -> (forall x, x ∈ tail -> x < n) -> (forall x, x ∈ head -> x < n) ->
  exists r, compute_sort_permutation_first_by_tail_then_by_head false n tail head = Some r /\ lex_sort_perm tail head r.
Proof. exact (fun n tail head => compute_sort_permutation_lex_correct n tail n head). Qed.
Print Assumptions C10_sort_permutation.

Theorem C10_inverse_sort_permutation : forall n tail head,
  length tail = length head -> (forall x, x ∈ tail -> x < n) -> (forall x, x ∈ head -> x < n) ->
  exists r ri, compute_inverse_sort_permutation_first_by_tail_then_by_head false n tail head = Some ri /\
    lex_sort_perm tail head r /\ inverse_of r ri.
Proof. exact (fun n tail head => compute_inverse_sort_permutation_lex_correct n tail n head). Qed.
Print Assumptions C10_inverse_sort_permutation.

Theorem C10_sort_permutation_and_apply : forall asserts n tail head,
  length tail = length head -> (forall x, x ∈ tail -> x < n) -> (forall x, x ∈ head -> x < n) ->
  exists r tail', compute_sort_permutation_first_by_tail_then_by_head_and_apply_sort_to_tail asserts n tail head = Some (r, tail')
    /\ lex_sort_perm tail head r /\ permuted_by r tail tail' /\ Sorted le tail'.
Proof. exact (fun asserts n tail head => compute_sort_permutation_lex_apply_correct asserts n tail n head). Qed.
Print Assumptions C10_sort_permutation_and_apply.

Theorem C10_inverse_sort_permutation_and_apply : forall asserts n tail head,
  length tail = length head -> (forall x, x ∈ tail -> x < n) -> (forall x, x ∈ head -> x < n) ->
  exists r ri tail', compute_inverse_sort_permutation_first_by_tail_then_by_head_and_apply_sort_to_tail asserts n tail head = Some (ri, tail')
    /\ lex_sort_perm tail head r /\ inverse_of r ri /\ permuted_by r tail tail' /\ Sorted le tail'.
Proof. exact (fun asserts n tail head => compute_inverse_sort_permutation_lex_apply_correct asserts n tail n head). Qed.
Print Assumptions C10_inverse_sort_permutation_and_apply.

Example C10_ex :
  compute_sort_permutation_first_by_tail_then_by_head false 3 [2;0;2;0] [1;2;0;2] = Some [1;3;2;0] /\
  compute_inverse_sort_permutation_first_by_tail_then_by_head false 3 [2;0;2;0] [1;2;0;2] = Some [3;0;2;1] /\
  compute_sort_permutation_first_by_tail_then_by_head_and_apply_sort_to_tail true 3 [2;0;2;0] [1;2;0;2] = Some ([1;3;2;0],[0;0;2;2]) /\
  compute_inverse_sort_permutation_first_by_tail_then_by_head_and_apply_sort_to_tail true 3 [2;0;2;0] [1;2;0;2] = Some ([3;0;2;1],[0;0;2;2]).
Proof. done. Qed.

(** With assertions compiled in, graph_util.cpp:90 and :102 check the *input* [a]
    and abort for every unsorted tail vector. *)
Theorem C10_with_assertions_refuted : exists n tail head,
  length tail = length head /\ (forall x, x ∈ tail -> x < n) /\ (forall x, x ∈ head -> x < n) /\
  compute_sort_permutation_first_by_tail_then_by_head true n tail head = None /\
  compute_inverse_sort_permutation_first_by_tail_then_by_head true n tail head = None.
Proof. exact lex_assertion_fails. Qed.
Print Assumptions C10_with_assertions_refuted.

(** * C11 *)
Theorem C11_invert_vector : forall v n,
  StronglySorted le v -> (forall x, x ∈ v -> x < n) ->
  exists idx, invert_vector v n = Some idx /\ length idx = S n /\
    idx !! 0 = Some 0 /\ idx !! n = Some (length v) /\
    (forall x lo hi, x < n -> idx !! x = Some lo -> idx !! S x = Some hi -> lo <= hi) /\
    (forall x lo hi j y, x < n -> idx !! x = Some lo -> idx !! S x = Some hi ->
        v !! j = Some y -> (y = x <-> lo <= j < hi)).
Proof. exact invert_vector_correct. Qed.
Print Assumptions C11_invert_vector.

Theorem C11_invert_inverse_vector : forall idx,
  valid_index idx ->
  exists v, invert_inverse_vector idx = Some v /\
    (exists m, idx !! (length idx - 1) = Some m /\ length v = m) /\
    (forall i lo hi j, idx !! i = Some lo -> idx !! S i = Some hi -> lo <= j < hi -> v !! j = Some i).
Proof. exact invert_inverse_vector_correct. Qed.
Print Assumptions C11_invert_inverse_vector.

Theorem C11_round_trip : forall v n idx,
  StronglySorted le v -> (forall x, x ∈ v -> x < n) ->
  invert_vector v n = Some idx -> invert_inverse_vector idx = Some v.
Proof. exact invert_vector_round_trip. Qed.
Print Assumptions C11_round_trip.

Theorem C11_round_trip_back : forall idx v,
  valid_index idx -> invert_inverse_vector idx = Some v ->
  StronglySorted le v /\ (forall x, x ∈ v -> x < length idx - 1) /\
  invert_vector v (length idx - 1) = Some idx.
Proof. exact invert_inverse_round_trip. Qed.
Print Assumptions C11_round_trip_back.

Example C11_ex : invert_vector [1;1;3] 5 = Some [0;0;2;2;3;3] /\ invert_inverse_vector [0;0;2;2;3;3] = Some [1;1;3]
  /\ StronglySorted le [1;1;3] /\ valid_index [0;0;2;2;3;3].
Proof.
  split; [done|]. split; [done|]. split; [repeat constructor; lia|].
  split; [done|]. intros i lo hi H1 H2. do 6 (destruct i as [|i]; cbn in *; simplify_eq; try lia).
Qed.

(** * C12 *)
Theorem C12_keep : forall T keep (v : list T),
  length keep = length v -> keep_element_of_vector_if keep v = Some (select (fun b => b) keep v).
Proof. exact (fun T => @inplace_filter_correct T (fun b => b)). Qed.
Print Assumptions C12_keep.

Theorem C12_remove : forall T remove (v : list T),
  length remove = length v -> remove_element_from_vector_if remove v = Some (select negb remove v).
Proof. exact (fun T => @inplace_filter_correct T negb). Qed.
Print Assumptions C12_remove.
Example C12_ex : keep_element_of_vector_if [true;false;true;true] [5;6;7;8] = Some [5;7;8]
  /\ remove_element_from_vector_if [true;false;true;true] [5;6;7;8] = Some [6].
Proof. done. Qed.

(** * C13 *)
Theorem C13_find_arc : forall n fo head x y,
  csr n fo head -> x < n -> y < n ->
  exists r, find_arc_or_return_invalid fo head x y = Some r /\
    match r with
    | Some e => arc_from_to fo head x y e /\ forall e', arc_from_to fo head x y e' -> e <= e'
    | None => forall e', ~ arc_from_to fo head x y e'
    end.
Proof. exact find_arc_or_return_invalid_correct. Qed.
Print Assumptions C13_find_arc.

Theorem C13_find_arc_sorted : forall n fo head x y,
  csr n fo head -> heads_sorted fo head -> x < n -> y < n ->
  find_arc_or_return_invalid_given_sorted_head fo head x y = find_arc_or_return_invalid fo head x y.
Proof. exact find_arc_given_sorted_head_correct. Qed.
Print Assumptions C13_find_arc_sorted.

Lemma ex_csr : csr 3 [0;2;4;4] [1;2;0;2].
Proof.
  split; try done.
  - intros i lo hi H1 H2. do 4 (destruct i as [|i]; cbn in *; simplify_eq; try lia).
  - intros x. set_unfold. lia.
Qed.
Example C13_ex : csr 3 [0;2;4;4] [1;2;0;2] /\ heads_sorted [0;2;4;4] [1;2;0;2] /\
  find_arc_or_return_invalid_given_sorted_head [0;2;4;4] [1;2;0;2] 1 2 = Some (Some 3) /\
  find_arc_or_return_invalid_given_sorted_head [0;2;4;4] [1;2;0;2] 1 1 = Some None /\
  find_arc_or_return_invalid [0;2;4;4] [1;2;0;2] 0 1 = Some (Some 0).
Proof.
  split; [exact ex_csr|]. split; [|done].
  intros x e e' a b (lo & hi & H1 & H2 & H3) (lo' & hi' & H1' & H2' & H3') He Ha Hb. simplify_eq.
  destruct x as [|[|[|x]]]; cbn in H1, H2; simplify_eq; try lia;
    destruct e as [|[|[|[|e]]]]; try lia; destruct e' as [|[|[|[|e']]]]; try lia; cbn in Ha, Hb; simplify_eq; lia.
Qed.

(** * C14 *)
Theorem C14_node_path_to_arc_path : forall n fo head path,
  csr n fo head -> (forall x, x ∈ path -> x < n) ->
  (forall i x y, path !! i = Some x -> path !! S i = Some y -> exists e, arc_from_to fo head x y e) ->
  exists r, convert_node_path_to_arc_path fo head path = Some r /\
    length r = length path - 1 /\
    forall i x y, path !! i = Some x -> path !! S i = Some y ->
      exists e, r !! i = Some e /\ arc_from_to fo head x y e /\ (forall e', arc_from_to fo head x y e' -> e <= e').
Proof. exact convert_node_path_correct. Qed.
Print Assumptions C14_node_path_to_arc_path.
Example C14_ex : convert_node_path_to_arc_path [0;2;4;4] [1;2;0;2] [0;1;0;2] = Some [0;2;1].
Proof. done. Qed.

(** Full statement for the other direction: the start node followed by the head of
    every arc. *)
Definition C14_statement : Prop := forall source head path nodes,
  (forall a, a ∈ path -> a < length head) ->
  nodes = source :: ((fun a => head !!! a) <$> path) ->
  convert_arc_path_to_node_path source head path = Some nodes.

Theorem C14_arc_path_to_node_path_refuted : ~ C14_statement.
Proof. exact arc_path_conversion_wrong. Qed.
Print Assumptions C14_arc_path_to_node_path_refuted.

Theorem C14_arc_path_to_node_path_empty_refuted : exists source head,
  convert_arc_path_to_node_path source head [] = Some [].
Proof. exact arc_path_conversion_empty. Qed.
Print Assumptions C14_arc_path_to_node_path_empty_refuted.

(** What does hold: every entry other than the one at index 1. *)
Theorem C14_arc_path_to_node_path_partial : forall source head path,
  path <> [] -> (forall a, a ∈ path -> a < length head) ->
  exists r, convert_arc_path_to_node_path source head path = Some r /\
    length r = S (length path) /\ r !! 0 = Some source /\
    (forall i a, 1 <= i -> path !! i = Some a -> r !! S i = head !! a).
Proof. exact convert_arc_path_correct. Qed.
Print Assumptions C14_arc_path_to_node_path_partial.
Example C14_partial_ex : convert_arc_path_to_node_path 0 [1;2;0;2] [0;2;1] = Some [0;2;0;2].
Proof. done. Qed.  (* index 1 should be 1 *)
