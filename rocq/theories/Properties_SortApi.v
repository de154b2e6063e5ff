(** Property C83: sorting by a comparator, unstable sorting, and moving. *)
From Verif Require Import Base PermutationModel SortModel UtilSpec SortApiSpec SortApiModel SortApiProofs.

(** ** By comparator, stable *)
Theorem C83_stable_permutation_partial : forall T (less : T -> T -> bool) v,
  strict_weak less v -> (N.of_nat (length v) < 4294967296)%N ->
  exists p, compute_stable_sort_permutation_using_comparator less v = Some p /\ stable_order_perm less v p.
Proof. exact @stable_permutation_correct. Qed.
Print Assumptions C83_stable_permutation_partial.

Theorem C83_stable_unique : forall T (less : T -> T -> bool) v p q,
  stable_order_perm less v p -> stable_order_perm less v q -> p = q.
Proof. exact @stable_order_unique. Qed.
Print Assumptions C83_stable_unique.

Theorem C83_inverse_stable_permutation_partial : forall T (less : T -> T -> bool) v,
  strict_weak less v -> (N.of_nat (length v) < 4294967296)%N ->
  exists q p, compute_inverse_stable_sort_permutation_using_comparator less v = Some q /\
    inverse_of p q /\ perm q /\ stable_order_perm less v p.
Proof. exact @inverse_stable_correct. Qed.
Print Assumptions C83_inverse_stable_permutation_partial.

Theorem C83_stable_sort : forall T (less : T -> T -> bool) v,
  strict_weak less v ->
  exists p, stable_order_perm less v p /\ permuted_by p v (stable_sort_using_comparator less v).
Proof. exact @stable_sort_correct. Qed.
Print Assumptions C83_stable_sort.

(** ** By comparator, with any std::sort that does what the standard says *)
Theorem C83_permutation_partial : forall T (less : T -> T -> bool) std_sort v,
  sorts std_sort -> strict_weak less v -> (N.of_nat (length v) < 4294967296)%N ->
  exists p, compute_sort_permutation_using_comparator std_sort less v = Some p /\ order_perm less v p.
Proof. exact @permutation_correct. Qed.
Print Assumptions C83_permutation_partial.

Theorem C83_inverse_permutation_partial : forall T (less : T -> T -> bool) std_sort v,
  sorts std_sort -> strict_weak less v -> (N.of_nat (length v) < 4294967296)%N ->
  exists q p, compute_inverse_sort_permutation_using_comparator std_sort less v = Some q /\
    inverse_of p q /\ perm q /\ order_perm less v p.
Proof. exact @inverse_correct. Qed.
Print Assumptions C83_inverse_permutation_partial.

Theorem C83_sort : forall T (less : T -> T -> bool) std_sort v,
  sorts std_sort -> strict_weak less v ->
  sort_using_comparator std_sort less v ≡ₚ v /\ ordered less (sort_using_comparator std_sort less v).
Proof. intros T less std_sort v Hs Hw. exact (Hs T less v Hw). Qed.
Print Assumptions C83_sort.

(** ** The check *)
Theorem C83_is_sorted_partial : forall T (less : T -> T -> bool) v fuel,
  strict_weak less v -> (N.of_nat (length v) < 4294967296)%N -> length v < fuel ->
  exists b, is_sorted_using_comparator less v fuel = Some b /\ (b = true <-> ordered less v).
Proof. exact @is_sorted_correct. Qed.
Print Assumptions C83_is_sorted_partial.

(** ** By less *)
Theorem C83_less_partial : forall T (lt : T -> T -> bool) std_sort v fuel,
  sorts std_sort -> strict_weak lt v -> (N.of_nat (length v) < 4294967296)%N -> length v < fuel ->
  (exists p, compute_sort_permutation_using_less std_sort lt v = Some p /\ order_perm lt v p) /\
  (exists p, compute_stable_sort_permutation_using_less lt v = Some p /\ stable_order_perm lt v p) /\
  (exists q p, compute_inverse_sort_permutation_using_less std_sort lt v = Some q /\ inverse_of p q /\ order_perm lt v p) /\
  (exists q p, compute_inverse_stable_sort_permutation_using_less lt v = Some q /\ inverse_of p q /\ stable_order_perm lt v p) /\
  (exists p, stable_order_perm lt v p /\ permuted_by p v (stable_sort_using_less lt v)) /\
  (sort_using_less std_sort lt v ≡ₚ v /\ ordered lt (sort_using_less std_sort lt v)) /\
  (exists b, is_sorted_using_less lt v fuel = Some b /\ (b = true <-> ordered lt v)).
Proof.
  intros T lt std_sort v fuel Hs Hw Hl Hf.
  split; [exact (permutation_correct lt std_sort v Hs Hw Hl)|].
  split; [exact (stable_permutation_correct lt v Hw Hl)|].
  split; [destruct (inverse_correct lt std_sort v Hs Hw Hl) as (q & p & H1 & H2 & _ & H3); exists q, p; auto|].
  split; [destruct (inverse_stable_correct lt v Hw Hl) as (q & p & H1 & H2 & _ & H3); exists q, p; auto|].
  split; [exact (stable_sort_correct lt v Hw)|].
  split; [exact (Hs T lt v Hw)|exact (is_sorted_correct lt v fuel Hw Hl Hf)].
Qed.
Print Assumptions C83_less_partial.

(** ** By key, unstable *)
Theorem C83_inverse_by_key_partial : forall T (key : T -> nat) std_sort v kc,
  sorts std_sort -> (N.of_nat (length v) < 4294967296)%N -> (forall x, x ∈ v -> key x < kc) ->
  exists q p, compute_inverse_sort_permutation_using_key std_sort key v kc = Some q /\
    inverse_of p q /\ perm q /\ sort_perm key v p.
Proof. exact @inverse_by_key_correct. Qed.
Print Assumptions C83_inverse_by_key_partial.

Theorem C83_by_key : forall T (HT : Inhabited T) (key : T -> nat) std_sort v kc,
  sorts std_sort -> (forall x, x ∈ v -> key x < kc) ->
  exists r, sort_using_key std_sort key v kc = Some r /\ r ≡ₚ v /\ ordered (fun x y => key x <? key y) r.
Proof. exact @sort_by_key_correct. Qed.
Print Assumptions C83_by_key.

(** ** Moving gives what copying gives, whatever is left in the objects moved from *)
Theorem C83_moving_sort : forall T (HT : Inhabited T) (key : T -> nat) (moved : T -> T) std_sort is_stable v kc,
  sort_using_key_moving std_sort key moved is_stable v kc =
  if is_stable then stable_sort_using_key key v kc else sort_using_key std_sort key v kc.
Proof. exact @sort_moving_eq. Qed.
Print Assumptions C83_moving_sort.

Theorem C83_moving_apply : forall T (HT : Inhabited T) (moved : T -> T) p v,
  perm p -> length p = length v ->
  apply_permutation_moving moved p v = apply_permutation p v /\
  apply_inverse_permutation_moving moved p v = apply_inverse_permutation p v.
Proof. intros T HT moved p v Hp Hl. split; [exact (apply_moving_eq (fun _ => 0) moved p v Hp Hl)|exact (apply_inverse_moving_eq (fun _ => 0) moved p v)]. Qed.
Print Assumptions C83_moving_apply.

(** ** Vectors of 2^32 elements
    The size is cut to 32 bits, so the permutation of a vector of 2^32 elements is empty;
    and the check for sortedness does not end, because its counter never reaches the size. *)
Theorem C83_size_refuted : exists v : list nat,
  strict_weak Nat.ltb v /\ v <> [] /\
  compute_stable_sort_permutation_using_comparator Nat.ltb v = Some [] /\
  ~ (exists p, compute_stable_sort_permutation_using_comparator Nat.ltb v = Some p /\ stable_order_perm Nat.ltb v p) /\
  ordered Nat.ltb v /\ (forall fuel, is_sorted_using_comparator Nat.ltb v fuel = None).
Proof.
  assert (exists n, N.of_nat n = 4294967296%N) as [n Hn] by (exists (N.to_nat 4294967296); apply N2Nat.id).
  exists (replicate n 0).
  assert (compute_stable_sort_permutation_using_comparator Nat.ltb (replicate n 0) = Some []) as Hp
    by (apply large_permutation; rewrite replicate_length; exact Hn).
  assert (n <> 0) as Hn0 by (intros ->; discriminate Hn).
  split; [exact (key_weak (fun x => x) _)|].
  split; [intros H%(f_equal length); rewrite replicate_length in H; exact (Hn0 H)|].
  split; [exact Hp|]. split.
  { intros (p & E & Hs & _). rewrite Hp in E. injection E as <-.
    apply Permutation_length in Hs. rewrite seq_length, replicate_length in Hs. exact (Hn0 (eq_sym Hs)). }
  split.
  - intros i j x y _ Hx Hy. apply lookup_replicate in Hx as [-> _], Hy as [-> _]. done.
  - intros fuel. apply large_is_sorted; [done|exact Hn|done].
Qed.
Print Assumptions C83_size_refuted.

(** ** Example: words by length, with a stable and an unstable sort *)
(** A std::sort that puts equivalent elements in reverse order. *)
Definition ex_sort A (less : A -> A -> bool) (l : list A) : list A := std_stable_sort less (rev l).

Lemma ex_insert_ordered {A} (less : A -> A -> bool) (l : list A) :
  strict_weak less l -> ordered less (std_stable_sort less l).
Proof.
  intros H. destruct (stable_sort_correct less l H) as (p & [Hp Hs] & Hl & Hr).
  intros i j x y Hij Hx Hy. unfold stable_sort_using_comparator in *.
  destruct (lookup_lt_is_Some_2 p i) as [a Ha]; [apply lookup_lt_Some in Hx; lia|].
  destruct (lookup_lt_is_Some_2 p j) as [b Hb]; [apply lookup_lt_Some in Hy; lia|].
  apply (Hs i j a b x y Hij Ha Hb); [by rewrite <- (Hr i a Ha)|by rewrite <- (Hr j b Hb)].
Qed.

Example C83_ex :
  sorts ex_sort /\
  let v := [(30, 1); (7, 2); (30, 3); (2, 4)] in
  let less (x y : nat * nat) := fst x <? fst y in
  strict_weak less v /\
  compute_stable_sort_permutation_using_comparator less v = Some [3; 1; 0; 2] /\
  compute_sort_permutation_using_comparator ex_sort less v = Some [3; 1; 2; 0] /\
  compute_inverse_stable_sort_permutation_using_comparator less v = Some [2; 1; 3; 0] /\
  compute_inverse_sort_permutation_using_comparator ex_sort less v = Some [3; 1; 2; 0] /\
  stable_sort_using_comparator less v = [(2, 4); (7, 2); (30, 1); (30, 3)] /\
  sort_using_comparator ex_sort less v = [(2, 4); (7, 2); (30, 3); (30, 1)] /\
  is_sorted_using_comparator less v 5 = Some false /\
  use_bucket_sort v 31 = true /\ use_bucket_sort v 90 = false /\
  sort_using_key ex_sort fst v 31 = Some [(2, 4); (7, 2); (30, 1); (30, 3)] /\
  sort_using_key ex_sort fst v 90 = Some [(2, 4); (7, 2); (30, 3); (30, 1)] /\
  sort_using_key_moving ex_sort fst (fun _ => (0, 0)) false v 31 = Some [(2, 4); (7, 2); (30, 1); (30, 3)] /\
  compute_inverse_sort_permutation_using_key ex_sort fst v 31 = Some [2; 1; 3; 0] /\
  perm [3; 1; 0; 2] /\ apply_permutation_moving (fun _ => (0, 0)) [3; 1; 0; 2] v = Some [(2, 4); (7, 2); (30, 1); (30, 3)].
Proof.
  split.
  { intros A less l H. unfold ex_sort. assert (rev l ≡ₚ l) as Hp by (symmetry; apply Permutation_rev).
    split; [etrans; [apply SortProofs.std_stable_sort_perm|done]|].
    apply ex_insert_ordered. eapply strict_weak_sub; [done|]. intros x. by rewrite Hp. }
  intros v less. split; [exact (key_weak fst v)|].
  repeat (split; [vm_compute; reflexivity|]).
  split; [|reflexivity]. apply NoDup_bounded_perm; [by apply (bool_decide_unpack _); vm_compute|]. set_solver by lia.
Qed.
