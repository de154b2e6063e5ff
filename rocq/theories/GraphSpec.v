(** Specification vocabulary for graphs in adjacency-array form. *)
From Verif Require Import Base.

(** [first_out]/[head] describe a graph with [n] nodes. *)
Record csr (n : nat) (first_out head : list nat) : Prop := {
  csr_len : length first_out = S n;
  csr_first : first_out !! 0 = Some 0;
  csr_mono : forall i lo hi, first_out !! i = Some lo -> first_out !! S i = Some hi -> lo <= hi;
  csr_last : first_out !! n = Some (length head);
  csr_head : forall x, x ∈ head -> x < n }.

(** Arc [e] leaves node [x]. *)
Definition out_arc (first_out : list nat) (x e : nat) : Prop :=
  exists lo hi, first_out !! x = Some lo /\ first_out !! S x = Some hi /\ lo <= e < hi.

(** Arc [e] leads from [x] to [y]. *)
Definition arc_from_to (first_out head : list nat) (x y e : nat) : Prop :=
  out_arc first_out x e /\ head !! e = Some y.

(** heads are sorted within every adjacency range *)
Definition heads_sorted (fo head : list nat) : Prop :=
  forall x e e' a b, out_arc fo x e -> out_arc fo x e' -> e <= e' ->
    head !! e = Some a -> head !! e' = Some b -> a <= b.

Lemma csr_mono_le n fo head i j a b :
  csr n fo head -> i <= j -> fo !! i = Some a -> fo !! j = Some b -> a <= b.
Proof.
  intros H Hij Ha. revert b. induction Hij as [|j Hij IH]; intros b Hb; [naive_solver|].
  destruct (lookup_lt_is_Some_2 fo j) as [c Hc]; [apply lookup_lt_Some in Hb; lia|].
  specialize (IH _ Hc). pose proof (csr_mono _ _ _ H _ _ _ Hc Hb). lia.
Qed.

Lemma csr_range n fo head x :
  csr n fo head -> x < n ->
  exists lo hi, fo !! x = Some lo /\ fo !! S x = Some hi /\ lo <= hi <= length head.
Proof.
  intros H Hx.
  destruct (lookup_lt_is_Some_2 fo x) as [lo Hlo]; [rewrite (csr_len _ _ _ H); lia|].
  destruct (lookup_lt_is_Some_2 fo (S x)) as [hi Hhi]; [rewrite (csr_len _ _ _ H); lia|].
  exists lo, hi. split; [done|]. split; [done|]. split.
  - by eapply csr_mono.
  - eapply csr_mono_le; [done| |exact Hhi|by eapply csr_last]. lia.
Qed.

Lemma out_arc_lt n fo head x e : csr n fo head -> out_arc fo x e -> x < n /\ e < length head.
Proof.
  intros H (lo & hi & Hlo & Hhi & He).
  assert (x < n) as Hx. { apply lookup_lt_Some in Hhi. rewrite (csr_len _ _ _ H) in Hhi. lia. }
  destruct (csr_range _ _ _ _ H Hx) as (lo' & hi' & ? & ? & ?). simplify_eq. lia.
Qed.

Lemma out_arc_unique n fo head x y e : csr n fo head -> out_arc fo x e -> out_arc fo y e -> x = y.
Proof.
  intros H (lo & hi & Hlo & Hhi & He) (lo' & hi' & Hlo' & Hhi' & He').
  destruct (lt_eq_lt_dec x y) as [[?| ->]|?]; [|done|].
  - pose proof (csr_mono_le _ _ _ (S x) y _ _ H ltac:(lia) Hhi Hlo'). lia.
  - pose proof (csr_mono_le _ _ _ (S y) x _ _ H ltac:(lia) Hhi' Hlo). lia.
Qed.

(** Every arc has a tail. *)
Lemma csr_tail_exists n fo head e : csr n fo head -> e < length head -> exists x, x < n /\ out_arc fo x e.
Proof.
  intros H He.
  assert (forall k, k <= n -> forall b, fo !! k = Some b -> e < b -> exists x, x < k /\ out_arc fo x e) as Hk.
  { induction k as [|k IH]; intros Hkn b Hb Heb.
    - rewrite (csr_first _ _ _ H) in Hb. simplify_eq. lia.
    - destruct (lookup_lt_is_Some_2 fo k) as [c Hc]; [rewrite (csr_len _ _ _ H); lia|].
      destruct (decide (e < c)).
      + destruct (IH ltac:(lia) c Hc ltac:(done)) as (x & ? & ?). exists x. split; [lia|done].
      + exists k. split; [lia|]. exists c, b. split; [done|]. split; [done|]. lia. }
  apply (Hk n (Nat.le_refl _) _ (csr_last _ _ _ H)). done.
Qed.
