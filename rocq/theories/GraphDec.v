(** Boolean checks of the graph predicates, used by the concrete examples. *)
From Verif Require Import Base GraphSpec PathSpec.

Definition monob (l : list nat) : bool :=
  forallb (fun i => Nat.leb (l !!! i) (l !!! S i)) (seq 0 (length l - 1)).
Definition csrb (n : nat) (fo hd : list nat) : bool :=
  Nat.eqb (length fo) (S n) && Nat.eqb (fo !!! 0) 0 && monob fo && Nat.eqb (fo !!! n) (length hd) &&
  forallb (fun x => Nat.ltb x n) hd.
Definition tailsb (fo tl hd : list nat) : bool :=
  Nat.eqb (length tl) (length hd) &&
  forallb (fun x => forallb (fun a => Nat.eqb (nth a tl (S (length fo))) x) (seq (fo !!! x) (fo !!! S x - fo !!! x)))
    (seq 0 (length fo - 1)).

Lemma lookup_total_eq (l : list nat) i x : l !! i = Some x -> l !!! i = x.
Proof. apply list_lookup_total_correct. Qed.

Lemma csrb_ok n fo hd : csrb n fo hd = true -> csr n fo hd.
Proof.
  unfold csrb. rewrite !andb_true_iff, !Nat.eqb_eq. intros ((((Hl & H0) & Hm) & Hn) & Hh).
  assert (forall i, i <= n -> fo !! i = Some (fo !!! i)) as Hlk.
  { intros i Hi. apply list_lookup_lookup_total_lt. lia. }
  split.
  - done.
  - rewrite Hlk by lia. by rewrite H0.
  - intros i lo hi Hlo Hhi. unfold monob in Hm. rewrite forallb_forall in Hm.
    apply lookup_lt_Some in Hhi as Hlt. specialize (Hm i). rewrite in_seq in Hm.
    specialize (Hm ltac:(lia)). apply Nat.leb_le in Hm.
    rewrite (lookup_total_eq _ _ _ Hlo), (lookup_total_eq _ _ _ Hhi) in Hm. done.
  - rewrite Hlk by lia. by rewrite Hn.
  - intros x Hx. rewrite forallb_forall in Hh. apply elem_of_list_In in Hx. apply Nat.ltb_lt. by apply Hh.
Qed.

Lemma tailsb_ok fo tl hd : tailsb fo tl hd = true -> tails_ok fo tl hd.
Proof.
  unfold tailsb. rewrite andb_true_iff, Nat.eqb_eq. intros [Hl H]. split; [done|].
  intros x a (lo & hi & Hlo & Hhi & Ha). rewrite forallb_forall in H.
  apply lookup_lt_Some in Hhi as Hlt. specialize (H x). rewrite in_seq in H. specialize (H ltac:(lia)).
  rewrite forallb_forall in H. specialize (H a). rewrite in_seq in H.
  rewrite (lookup_total_eq _ _ _ Hlo), (lookup_total_eq _ _ _ Hhi) in H.
  specialize (H ltac:(lia)). apply Nat.eqb_eq in H.
  destruct (decide (a < length tl)) as [Hlt'|Hge].
  - rewrite nth_lookup in H. destruct (lookup_lt_is_Some_2 tl a Hlt') as [y Hy]. rewrite Hy in H. cbn in H. by subst.
  - rewrite nth_overflow in H by lia. lia.
Qed.
