(** C04 and C05: bit vectors are lists of booleans. *)
From Verif Require Import Base BitVectorModel BitVectorSpec BitVectorProofs BitVectorBulkProofs.

(** * C04 *)
(** A new vector has the wanted size and value. *)
Theorem C04_new : forall n b, exists v, bv_new n b = Some v /\ bv_rep v (replicate n b).
Proof. intros n b. destruct (new_spec n b) as (v & E & Hv & _). eauto. Qed.
Print Assumptions C04_new.

(** Any sequence of single-bit operations with indices in range is defined and has the effect
    of the same sequence on the list. *)
Theorem C04_operations : forall v l os, bv_rep v l -> Forall (fun o => op_index o < length l) os ->
  exists v', foldl (fun m o => v ← m; op_call o v) (Some v) os = Some v' /\ bv_rep v' (foldl op_list l os).
Proof.
  intros v l os. revert v l. induction os as [|o os IH]; intros v l H Hos; [by exists v|]. apply Forall_cons in Hos as [Ho Hos].
  destruct (op_spec v l o H Ho) as (v1 & E & H1). cbn [foldl]. rewrite bind_S, E. apply (IH v1); [done|].
  eapply Forall_impl; [exact Hos|]. intros o' Ho'. unfold op_list. by rewrite insert_length.
Qed.
Print Assumptions C04_operations.

(** Reading a bit gives the element of the list. *)
Theorem C04_is_set : forall v l x, bv_rep v l -> x < length l -> bv_is_set v x = Some (nth x l false).
Proof. intros v l x H Hx. rewrite (is_set_spec v l x H Hx). by apply nth_lk. Qed.
Print Assumptions C04_is_set.

(** Construction from a predicate gives the predicate, whatever the memory contained. *)
Theorem C04_make_bit_vector : forall garbage n f,
  length garbage = u64_count n -> Forall (fun w => (w < 2 ^ 64)%N) garbage ->
  exists v, make_bit_vector garbage n f = Some v /\ bv_rep v (f <$> seq 0 n).
Proof. intros. by apply make_spec. Qed.
Print Assumptions C04_make_bit_vector.

(** No bit behind the end is visible: vectors with the same list have the same words. *)
Theorem C04_no_other_bits : forall v o l, bv_rep v l -> bv_rep o l -> bv_size v = bv_size o /\ bv_data v = bv_data o.
Proof. intros v o l H H'. by apply (rep_data v l o l). Qed.
Print Assumptions C04_no_other_bits.

Example C04_ex :
  (v ← make_bit_vector (replicate 16 12345678901234567%N) 700 (fun x => bool_decide (x mod 3 = 0));
   v ← foldl (fun m o => v ← m; op_call o v) (Some v) [OSet 64; OReset 63; OToggle 699; OToggle 511; OSetIf 512 true; OSetIf 513 false; OSetTo 0 false; OSetTo 1 true];
   bs ← mapM (bv_is_set v) [0; 1; 2; 3; 63; 64; 65; 511; 512; 513; 698; 699]; Some (bs, bv_popcount v))
  = Some ([false; true; false; true; false; true; false; true; true; true; false; false], Some 235).
Proof. vm_compute. reflexivity. Qed.

(** * C05 *)
Theorem C05_whole_vector : forall v l, bv_rep v l ->
  (exists v', bv_set_all v = Some v' /\ bv_rep v' (replicate (length l) true)) /\
  (exists v', bv_reset_all v = Some v' /\ bv_rep v' (replicate (length l) false)) /\
  (forall b, exists v', bv_set_all_to v b = Some v' /\ bv_rep v' (replicate (length l) b)) /\
  (exists v', bv_not v = Some v' /\ bv_rep v' (negb <$> l)).
Proof.
  intros v l H. split; [by apply set_all_spec|]. split; [by apply reset_all_spec|]. split; [intros b; by apply set_all_to_spec|by apply not_spec].
Qed.
Print Assumptions C05_whole_vector.

Theorem C05_combine : forall v l o k, bv_rep v l -> bv_rep o k -> length l = length k ->
  (exists v', bv_or v o = Some v' /\ bv_rep v' (zip_with orb l k)) /\
  (exists v', bv_and v o = Some v' /\ bv_rep v' (zip_with andb l k)) /\
  (exists v', bv_xor v o = Some v' /\ bv_rep v' (zip_with xorb l k)).
Proof. intros v l o k H H' E. split; [by apply or_spec|]. split; [by apply and_spec|by apply xor_spec]. Qed.
Print Assumptions C05_combine.

Theorem C05_population_count : forall v l, bv_rep v l -> bv_popcount v = Some (count_true l).
Proof. exact popcount_spec. Qed.
Print Assumptions C05_population_count.

Theorem C05_is_any_set : forall v l, bv_rep v l -> exists r, bv_is_any_set v = Some r /\ (r = true <-> true ∈ l).
Proof. exact is_any_spec. Qed.
Print Assumptions C05_is_any_set.

(** [are_all_set] is right unless the size is a positive multiple of 512 … *)
Theorem C05_are_all_set : forall v l, bv_rep v l -> length l = 0 \/ length l mod 512 <> 0 ->
  exists r, bv_are_all_set v = Some r /\ (r = true <-> Forall (fun b => b = true) l).
Proof. exact are_all_spec. Qed.
Print Assumptions C05_are_all_set.
(** … and wrong there: the mask of the last block is then empty. A vector of 512 zeros is
    "all set". *)
Theorem C05_are_all_set_refuted : exists v l, bv_rep v l /\ bv_are_all_set v = Some true /\ Forall (fun b => b = false) l /\ length l = 512.
Proof.
  destruct (new_spec 512 false) as (v & E & Hv & _). exists v, (replicate 512 false). split; [done|].
  split; [|split; [by apply Forall_replicate|apply replicate_length]].
  assert ((v ← bv_new 512 false; bv_are_all_set v) = Some true) as R by (vm_compute; reflexivity). by rewrite E in R.
Qed.
Print Assumptions C05_are_all_set_refuted.

Theorem C05_equal : forall v l o k, bv_rep v l -> bv_rep o k -> bv_eq v o = Some (bool_decide (l = k)).
Proof. exact eq_spec. Qed.
Print Assumptions C05_equal.

(** [operator<] decides a strict total order. *)
Theorem C05_less : forall v l o k, bv_rep v l -> bv_rep o k -> exists b, bv_less v o = Some b /\ (b = true <-> bits_less l k).
Proof. exact less_bits_spec. Qed.
Print Assumptions C05_less.
Theorem C05_less_is_strict_total_order :
  (forall l, ~ bits_less l l) /\ (forall a b c, bits_less a b -> bits_less b c -> bits_less a c) /\ (forall a b, a = b \/ bits_less a b \/ bits_less b a).
Proof. split; [exact bits_less_irrefl|]. split; [exact bits_less_trans|exact bits_less_total]. Qed.
Print Assumptions C05_less_is_strict_total_order.

(** Copying; [alloc0] tells whether an allocation of size zero returns a non-null pointer. *)
Theorem C05_copy : forall alloc0 v l, bv_rep v l -> alloc0 = true \/ l <> [] -> exists v', bv_copy alloc0 v = Some v' /\ bv_rep v' l.
Proof. intros a v l H Ha. destruct (copy_spec a v l H Ha) as (v' & E & Hv & _). eauto. Qed.
Print Assumptions C05_copy.

(** Resizing without a value keeps the common prefix. A vector that was never allocated gets
    arbitrary contents. *)
Theorem C05_resize_uninitialized : forall garbage v l n, bv_rep v l ->
  (bv_null v = false -> exists v', bv_resize_uninit garbage v n = Some v' /\ bv_rep v' (resized l n false)) /\
  (bv_null v = true -> length garbage = u64_count n -> Forall (fun w => (w < 2 ^ 64)%N) garbage ->
     exists v' l', bv_resize_uninit garbage v n = Some v' /\ bv_rep v' l' /\ length l' = n).
Proof. intros g v l n H. split; [by apply resize_uninit_spec|]. intros. by eapply resize_uninit_null. Qed.
Print Assumptions C05_resize_uninitialized.

Theorem C05_resize_false : forall v l n, bv_rep v l -> exists v', bv_resize v n false = Some v' /\ bv_rep v' (resized l n false).
Proof. intros v l n H. apply resize_spec; [done|]. right. right. by left. Qed.
Print Assumptions C05_resize_false.

(** Resizing with value true is right when nothing is allocated yet, when the vector shrinks,
    and when neither size is a multiple of 512 … *)
Theorem C05_resize_true : forall v l n, bv_rep v l ->
  bv_null v = true \/ n < length l \/ (length l mod 512 <> 0 /\ n mod 512 <> 0) ->
  exists v', bv_resize v n true = Some v' /\ bv_rep v' (resized l n true).
Proof. intros v l n H Hc. apply resize_spec; [done|]. unfold resize_ok. rewrite (rep_size _ _ H). tauto. Qed.
Print Assumptions C05_resize_true.
(** … and wrong in the other cases: old bits are overwritten when the old size is a multiple
    of 512, new bits stay unset when the new size is one, and the call accesses memory outside
    of the vector when the sizes are equal or the vector is an empty copy. *)
Theorem C05_resize_true_overwrites_refuted : exists v l v', bv_rep v l /\ bv_resize v 520 true = Some v' /\ nth 7 l false = false /\ bv_is_set v' 7 = Some true.
Proof.
  destruct (new_spec 512 false) as (v & E & Hv & _).
  assert ((v ← bv_new 512 false; v' ← bv_resize v 520 true; bv_is_set v' 7) = Some true) as R by (vm_compute; reflexivity).
  rewrite E in R. rewrite bind_S in R. apply bind_Some in R as (v' & E' & R). exists v, (replicate 512 false), v'. split; [done|]. split; [done|]. split; done.
Qed.
Print Assumptions C05_resize_true_overwrites_refuted.
Theorem C05_resize_true_unset_refuted : exists v l v', bv_rep v l /\ bv_resize v 512 true = Some v' /\ length l = 500 /\ bv_is_set v' 505 = Some false.
Proof.
  destruct (new_spec 500 true) as (v & E & Hv & _).
  assert ((v ← bv_new 500 true; v' ← bv_resize v 512 true; bv_is_set v' 505) = Some false) as R by (vm_compute; reflexivity).
  rewrite E in R. rewrite bind_S in R. apply bind_Some in R as (v' & E' & R). exists v, (replicate 500 true), v'. split; [done|]. split; [done|]. split; [apply replicate_length|done].
Qed.
Print Assumptions C05_resize_true_unset_refuted.
(** the whole last block is cleared when a block is added *)
Theorem C05_resize_true_cleared_refuted : exists v l v', bv_rep v l /\ bv_resize v 1024 true = Some v' /\ length l = 500 /\ bv_is_set v' 1000 = Some false.
Proof.
  destruct (new_spec 500 true) as (v & E & Hv & _).
  assert ((v ← bv_new 500 true; v' ← bv_resize v 1024 true; bv_is_set v' 1000) = Some false) as R by (vm_compute; reflexivity).
  rewrite E in R. rewrite bind_S in R. apply bind_Some in R as (v' & E' & R). exists v, (replicate 500 true), v'. split; [done|]. split; [done|]. split; [apply replicate_length|done].
Qed.
Print Assumptions C05_resize_true_cleared_refuted.
Theorem C05_resize_true_undefined_refuted : exists v l, bv_rep v l /\ length l = 512 /\ bv_resize v 512 true = None.
Proof.
  destruct (new_spec 512 true) as (v & E & Hv & _). exists v, (replicate 512 true). split; [done|]. split; [apply replicate_length|].
  assert ((v ← bv_new 512 true; bv_resize v 512 true) = None) as R by (vm_compute; reflexivity). by rewrite E in R.
Qed.
Print Assumptions C05_resize_true_undefined_refuted.
Theorem C05_resize_true_empty_copy_refuted : exists v, bv_copy true bv_empty = Some v /\ bv_rep v [] /\ bv_resize v 5 true = None.
Proof.
  destruct (copy_spec true bv_empty [] rep_empty (or_introl eq_refl)) as (v & E & Hv & _). exists v. split; [done|]. split; [done|].
  assert ((v ← bv_copy true bv_empty; bv_resize v 5 true) = None) as R by (vm_compute; reflexivity). by rewrite E in R.
Qed.
Print Assumptions C05_resize_true_empty_copy_refuted.

(** make_large_enough_for: afterwards [x] is an index; the new size is the least power of two
    above [x]. With value true this inherits the errors of resize. *)
Theorem C05_make_large_enough : forall v l x b, bv_rep v l -> exists k, x < 2 ^ k /\ (k = 0 \/ 2 ^ (k - 1) <= x) /\
  (b = false \/ bv_null v = true \/ x < length l \/ (length l mod 512 <> 0 /\ 2 ^ k mod 512 <> 0) ->
   exists v', bv_large_enough v x b = Some v' /\ bv_rep v' (if decide (length l <= x) then resized l (2 ^ k) b else l)).
Proof.
  intros v l x b H. destruct (large_enough_spec v l x b H) as (k & H1 & H2 & H3). exists k. split; [done|]. split; [done|]. intros Hc. apply H3.
  unfold resize_ok. rewrite (rep_size _ _ H). tauto.
Qed.
Print Assumptions C05_make_large_enough.
Theorem C05_make_large_enough_refuted : exists v l v', bv_rep v l /\ bv_large_enough v 600 true = Some v' /\ length l = 10 /\ bv_is_set v' 600 = Some false.
Proof.
  destruct (new_spec 10 true) as (v & E & Hv & _).
  assert ((v ← bv_new 10 true; v' ← bv_large_enough v 600 true; bv_is_set v' 600) = Some false) as R by (vm_compute; reflexivity).
  rewrite E in R. rewrite bind_S in R. apply bind_Some in R as (v' & E' & R). exists v, (replicate 10 true), v'. split; [done|]. split; [done|]. split; done.
Qed.
Print Assumptions C05_make_large_enough_refuted.

Definition C05_vec (n m : nat) : option bitvec := make_bit_vector (replicate (u64_count n) 77%N) n (fun x => bool_decide (x mod m = 0)).
Example C05_ex :
  (a ← C05_vec 1100 3; b ← C05_vec 1100 5; c ← bv_or a b; d ← bv_and a b; e ← bv_xor c d; f ← bv_not e;
   p ← mapM bv_popcount [a; b; c; d; e; f]; q ← bv_eq a b; r ← bv_eq a a; s ← bv_less a b; t ← bv_less b a;
   g ← bv_resize f 1300 true; h ← bv_resize g 600 false; u ← mapM bv_popcount [g; h];
   i ← bv_set_all h; j ← bv_are_all_set i; k ← bv_are_all_set h; n ← bv_reset_all i; o ← bv_is_any_set n; z ← bv_is_any_set h;
   w ← bv_large_enough h 1200 false; Some (p, (q, r, s, t), u, (j, k, o, z), bv_size w, bv_popcount w))
  = Some ([367; 220; 513; 74; 439; 661], (false, true, false, true), [861; 360], (true, false, false, true), 2048, Some 360).
Proof. vm_compute. reflexivity. Qed.
