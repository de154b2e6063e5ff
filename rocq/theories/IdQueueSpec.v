(** Specification of a priority queue of ids: a finite map from id to key. *)
From Verif Require Import Base IdQueueModel.
From stdpp Require Export gmap.

(** [(id,k)] has a minimal key in [m]. *)
Definition is_min (m : gmap nat N) (id : nat) (k : N) : Prop :=
  m !! id = Some k /\ forall id' k', m !! id' = Some k' -> (k <= k')%N.

(** Preconditions the header documents ("undefined if ..."). *)
Definition legal (n : nat) (m : gmap nat N) (o : qop) : Prop :=
  match o with
  | OPush id k => id < n /\ m !! id = None
  | OPop | OPeek => m <> ∅
  | ODecrease id k | OIncrease id k => is_Some (m !! id)
  | OGetKey id => is_Some (m !! id)
  | OContains id => id < n
  | OClear | OSize | OEmpty => True
  end.

(** Effect and result of every operation on the map. *)
Definition spec_step (m : gmap nat N) (o : qop) (r : qout) (m' : gmap nat N) : Prop :=
  match o with
  | OPush id k => r = RUnit /\ m' = <[id := k]> m
  | OPop => exists id k, r = RPair id k /\ is_min m id k /\ m' = delete id m
  | OPeek => exists id k, r = RPair id k /\ is_min m id k /\ m' = m
  | ODecrease id k => exists k0, m !! id = Some k0 /\
      if decide (k < k0)%N then r = RBool true /\ m' = <[id := k]> m else r = RBool false /\ m' = m
  | OIncrease id k => exists k0, m !! id = Some k0 /\
      if decide (k0 < k)%N then r = RBool true /\ m' = <[id := k]> m else r = RBool false /\ m' = m
  | OClear => r = RUnit /\ m' = ∅
  | OContains id => r = RBool (bool_decide (is_Some (m !! id))) /\ m' = m
  | OGetKey id => exists k, m !! id = Some k /\ r = RKey k /\ m' = m
  | OSize => r = RNat (size m) /\ m' = m
  | OEmpty => r = RBool (bool_decide (m = ∅)) /\ m' = m
  end.

(** A history that is legal throughout. *)
Inductive spec_run (n : nat) : gmap nat N -> list qop -> list qout -> gmap nat N -> Prop :=
  | spec_nil m : spec_run n m [] [] m
  | spec_cons m o r m1 os rs m2 :
      legal n m o -> spec_step m o r m1 -> spec_run n m1 os rs m2 -> spec_run n m (o :: os) (r :: rs) m2.
