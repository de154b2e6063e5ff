(** Specification: both structures are finite sets of ids. *)
From Verif Require Import Base IdSetModel.
From stdpp Require Export gmap.

(** Flags: the set of ids set since the last reset_all and not reset since. *)
Definition f_spec (s : gset nat) (o : fop) : gset nat :=
  match o with
  | FSet id => {[ id ]} ∪ s
  | FResetOne id => s ∖ {[ id ]}
  | FResetAll => ∅
  end.
Definition f_legal (n : nat) (o : fop) : Prop :=
  match o with FSet id | FResetOne id => id < n | FResetAll => True end.

Definition set_min (s : gset nat) (x : nat) : Prop := x ∈ s /\ forall y, y ∈ s -> x <= y.

(** Min queue: preconditions and effects. The header documents that [pop] of an empty
    queue returns invalid_id; it does so only without assertions and for two or more ids. *)
Definition s_legal (asserts : bool) (n : nat) (s : gset nat) (o : sop) : Prop :=
  match o with
  | SPush id | SContains id => id < n
  | SPop => s <> ∅ \/ (asserts = false /\ 2 <= n)
  | SPeek | SEmpty | SClear => True
  end.
Definition s_spec (s : gset nat) (o : sop) (r : sout) (s' : gset nat) : Prop :=
  match o with
  | SPush id => r = TUnit /\ s' = {[ id ]} ∪ s
  | SPop => (s = ∅ /\ r = TId None /\ s' = ∅) \/
      exists x, r = TId (Some x) /\ set_min s x /\ s' = s ∖ {[ x ]}
  | SPeek => s' = s /\ ((s = ∅ /\ r = TId None) \/ exists x, r = TId (Some x) /\ set_min s x)
  | SContains id => r = TBool (bool_decide (id ∈ s)) /\ s' = s
  | SEmpty => r = TBool (bool_decide (s = ∅)) /\ s' = s
  | SClear => r = TUnit /\ s' = ∅
  end.
Inductive s_spec_run (asserts : bool) (n : nat) : gset nat -> list sop -> list sout -> gset nat -> Prop :=
  | s_spec_nil s : s_spec_run asserts n s [] [] s
  | s_spec_cons s o r s1 os rs s2 :
      s_legal asserts n s o -> s_spec s o r s1 -> s_spec_run asserts n s1 os rs s2 -> s_spec_run asserts n s (o :: os) (r :: rs) s2.
