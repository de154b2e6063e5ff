(** Specification vocabulary for the utility headers, independent of the model. *)
From Verif Require Import Base.

(** [p] is a permutation of [0 .. length p - 1]. *)
Definition perm (p : list nat) : Prop := p ≡ₚ seq 0 (length p).

(** [p] lists the positions of [v] sorted by key, equal keys in input order. *)
Definition stable_sort_perm {T} (key : T -> nat) (v : list T) (p : list nat) : Prop :=
  p ≡ₚ seq 0 (length v) /\
  forall i j a b x y, i < j -> p !! i = Some a -> p !! j = Some b ->
    v !! a = Some x -> v !! b = Some y ->
    key x < key y \/ (key x = key y /\ a < b).

(** Same, without a statement about equal keys. *)
Definition sort_perm {T} (key : T -> nat) (v : list T) (p : list nat) : Prop :=
  p ≡ₚ seq 0 (length v) /\
  forall i j a b x y, i < j -> p !! i = Some a -> p !! j = Some b ->
    v !! a = Some x -> v !! b = Some y -> key x <= key y.

(** [q] is the inverse of [p] (both directions). *)
Definition inverse_of (p q : list nat) : Prop :=
  length q = length p /\
  (forall i x, p !! i = Some x <-> q !! x = Some i).

Lemma perm_lookup_lt p i x : perm p -> p !! i = Some x -> x < length p.
Proof.
  unfold perm. intros Hp Hi. apply elem_of_list_lookup_2 in Hi. rewrite Hp in Hi.
  apply elem_of_seq in Hi. lia.
Qed.
Lemma perm_NoDup p : perm p -> NoDup p.
Proof. unfold perm. intros ->. apply NoDup_seq. Qed.
Lemma perm_inj p i j x : perm p -> p !! i = Some x -> p !! j = Some x -> i = j.
Proof. intros Hp Hi Hj. eapply NoDup_lookup; eauto using perm_NoDup. Qed.
Lemma perm_surj p x : perm p -> x < length p -> exists i, p !! i = Some x.
Proof.
  unfold perm. intros Hp Hx. apply elem_of_list_lookup_1. rewrite Hp. apply elem_of_seq. lia.
Qed.
Lemma NoDup_bounded_perm p : NoDup p -> (forall x, x ∈ p -> x < length p) -> perm p.
Proof.
  intros Hnd Hb. unfold perm.
  apply submseteq_Permutation_length_le; [rewrite seq_length; lia|].
  apply NoDup_submseteq; [done|]. intros x Hx. apply elem_of_seq. specialize (Hb x Hx). lia.
Qed.
Lemma perm_seq n : perm (seq 0 n).
Proof. unfold perm. rewrite seq_length. done. Qed.
Lemma inverse_of_sym p q : inverse_of p q -> inverse_of q p.
Proof. intros [Hl H]. split; [lia|]. intros; by rewrite H. Qed.
Lemma inverse_of_perm p q : perm p -> inverse_of p q -> perm q.
Proof.
  intros Hp [Hl H]. apply NoDup_bounded_perm.
  - apply NoDup_alt. intros i j x Hi Hj. apply H in Hi, Hj. naive_solver.
  - intros x [i Hi]%elem_of_list_lookup_1. apply H in Hi. apply lookup_lt_Some in Hi. lia.
Qed.
Lemma inverse_of_unique p q q' : inverse_of p q -> inverse_of p q' -> q = q'.
Proof.
  intros [Hl H] [Hl' H']. apply list_eq. intros i. apply option_eq. intros x.
  rewrite <- H, <- H'. done.
Qed.
(** [apply_permutation] semantics as a relation: [r[i] = v[p[i]]]. *)
Definition permuted_by {T} (p : list nat) (v r : list T) : Prop :=
  length r = length p /\ forall i x, p !! i = Some x -> r !! i = v !! x.

Lemma list_eq_by_lookup_lt {A} (l k : list A) :
  length l = length k -> (forall i, i < length l -> l !! i = k !! i) -> l = k.
Proof.
  intros Hl H. apply list_eq. intros i. destruct (decide (i < length l)); [auto|].
  rewrite !lookup_ge_None_2 by lia. done.
Qed.

(** Pointwise description of a fixed-size loop that writes every position once. *)
Lemma permuted_by_unique {T} p (v r r' : list T) :
  permuted_by p v r -> permuted_by p v r' -> r = r'.
Proof.
  intros [Hl H] [Hl' H']. apply list_eq_by_lookup_lt; [lia|]. intros i Hi.
  destruct (lookup_lt_is_Some_2 p i) as [x Hx]; [lia|].
  rewrite (H i x), (H' i x); done.
Qed.

Lemma permuted_by_Permutation {T} p (v r : list T) :
  perm p -> length p = length v -> permuted_by p v r -> r ≡ₚ v.
Proof.
  intros Hp Hl [Hlr Hr].
  assert (r = omap (fun i => v !! i) p) as ->.
  { assert (forall x, x ∈ p -> x < length v) as Hb.
    { intros x Hx. apply elem_of_list_lookup_1 in Hx as [i Hi]. apply perm_lookup_lt in Hi; [lia|done]. }
    clear Hp Hl. revert r Hlr Hr Hb. induction p as [|a p IH]; intros [|y r] Hlr Hr Hb; [done..|].
    cbn. pose proof (Hr 0 a eq_refl) as H0. cbn in H0. rewrite <- H0. f_equal.
    apply IH; [cbn in Hlr; lia| |].
    - intros i x Hi. exact (Hr (S i) x Hi).
    - intros; apply Hb; by right. }
  trans (omap (fun i => v !! i) (seq 0 (length p))).
  { apply omap_Permutation. done. }
  rewrite Hl. clear. apply reflexive_eq.
  cut (forall k, omap (fun i => v !! (i - k)) (seq k (length v)) = v).
  { intros H. etrans; [|exact (H 0)]. apply list_omap_ext, Forall_Forall2_diag, Forall_forall.
    intros; f_equal; lia. }
  induction v as [|a v IH]; intros k; [done|]. cbn. rewrite Nat.sub_diag. cbn. f_equal.
  etrans; [|apply (IH (S k))]. apply list_omap_ext, Forall_Forall2_diag, Forall_forall.
  intros i Hi%elem_of_seq. replace (i - k) with (S (i - S k)) by lia. done.
Qed.

(** Adjacency index: starts with 0 and is non-decreasing. *)
Definition valid_index (idx : list nat) : Prop :=
  idx !! 0 = Some 0 /\ forall i lo hi, idx !! i = Some lo -> idx !! S i = Some hi -> lo <= hi.

(** The elements of [v] whose filter bit satisfies [sel], in input order. *)
Fixpoint select {T} (sel : bool -> bool) (keep : list bool) (v : list T) : list T :=
  match keep, v with
  | b :: keep, x :: v => if sel b then x :: select sel keep v else select sel keep v
  | _, _ => []
  end.

(** [r] lists the positions of the pairs (a[i], b[i]) in lexicographic order, equal
    pairs in input order. *)
Definition lex_sort_perm (a b : list nat) (r : list nat) : Prop :=
  r ≡ₚ seq 0 (length a) /\
  forall i j x y ax bx ay bY, i < j -> r !! i = Some x -> r !! j = Some y ->
    a !! x = Some ax -> a !! y = Some ay -> b !! x = Some bx -> b !! y = Some bY ->
    ax < ay \/ (ax = ay /\ (bx < bY \/ (bx = bY /\ x < y))).

