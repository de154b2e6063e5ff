(** Objects are values: copies are independent, moving and swapping take the value along. *)
From Verif Require Import Base IdQueueModel IdQueueSpec IdSetModel IdSetSpec ObjectModel.

Section values.
  (** The values, which calls are allowed and what they do; the values of new objects and what moving leaves. *)
  Context {A Op Out : Type} (legal : A -> Op -> Prop) (spec : A -> Op -> Out -> A -> Prop) (fresh : nat -> A) (dflt : A) (moved : A -> A).
  Definition o_legal (st : gmap nat A) (c : ocmd Op) : Prop :=
    match c with
    | CDefault x | CNew x _ => True
    | CCopy x y | CMove x y => is_Some (st !! y)
    | CSwap x y => is_Some (st !! x) /\ is_Some (st !! y)
    | CCall x o => exists a, st !! x = Some a /\ legal a o
    end.
  Definition o_spec (st : gmap nat A) (c : ocmd Op) (r : option Out) (st' : gmap nat A) : Prop :=
    match c with
    | CDefault x => r = None /\ st' = <[x := dflt]> st
    | CNew x n => r = None /\ st' = <[x := fresh n]> st
    | CCopy x y => exists a, st !! y = Some a /\ r = None /\ st' = <[x := a]> st
    | CMove x y => exists a, st !! y = Some a /\ r = None /\ st' = <[y := moved a]> (<[x := a]> st)
    | CSwap x y => exists a b, st !! x = Some a /\ st !! y = Some b /\ r = None /\ st' = <[x := b]> (<[y := a]> st)
    | CCall x o => exists a r' a', st !! x = Some a /\ spec a o r' a' /\ r = Some r' /\ st' = <[x := a']> st
    end.
  Inductive o_spec_run : gmap nat A -> list (ocmd Op) -> list (option Out) -> gmap nat A -> Prop :=
    | o_spec_nil st : o_spec_run st [] [] st
    | o_spec_cons st c r st1 p rs st2 : o_legal st c -> o_spec st c r st1 -> o_spec_run st1 p rs st2 -> o_spec_run st (c :: p) (r :: rs) st2.
End values.

(** MinIDQueue: a number of ids and a map from ids to keys, or nothing that may be used ([None]). What is left by
    moving is a queue without ids if the queue was empty. *)
Definition queue_value : Type := option (nat * gmap nat N).
Definition qv_legal (a : queue_value) (o : qcall) : Prop :=
  match a, o with Some (n, m), QOp o => legal n m o | Some _, QCount => True | None, _ => False end.
Definition qv_spec (a : queue_value) (o : qcall) (r : qout) (a' : queue_value) : Prop :=
  match a, o with
  | Some (n, m), QOp o => exists m', spec_step m o r m' /\ a' = Some (n, m')
  | Some (n, m), QCount => r = RNat n /\ a' = a
  | None, _ => False
  end.
Definition qv_moved (a : queue_value) : queue_value := match a with Some (n, m) => if decide (m = ∅) then Some (0, ∅) else None | None => None end.
Definition queue_spec_run : gmap nat queue_value -> list (ocmd qcall) -> list (option qout) -> gmap nat queue_value -> Prop :=
  o_spec_run qv_legal qv_spec (fun n => Some (n, ∅)) (Some (0, ∅)) qv_moved.

(** TimestampFlags: a number of ids and a set of ids. Default construction and moving leave flags without ids. *)
Definition flags_value : Type := nat * gset nat.
Definition fv_legal (a : flags_value) (o : fcall) : Prop := match o with FOp o => f_legal (fst a) o | FIsSet id => id < fst a end.
Definition fv_spec (a : flags_value) (o : fcall) (r : option bool) (a' : flags_value) : Prop :=
  match o with
  | FOp o => r = None /\ a' = (fst a, f_spec (snd a) o)
  | FIsSet id => r = Some (bool_decide (id ∈ snd a)) /\ a' = a
  end.
Definition flags_spec_run : gmap nat flags_value -> list (ocmd fcall) -> list (option (option bool)) -> gmap nat flags_value -> Prop :=
  o_spec_run fv_legal fv_spec (fun n => (n, ∅)) (0, ∅) (fun _ => (0, ∅)).

(** IDSetMinQueue: a number of ids and a set of ids, or nothing that may be used: so are default objects and
    those moved from. *)
Definition idset_value : Type := option (nat * gset nat).
Definition sv_legal (asserts : bool) (a : idset_value) (o : scall) : Prop :=
  match a, o with Some (n, s), SOp o => s_legal asserts n s o | Some _, SCount => True | None, _ => False end.
Definition sv_spec (a : idset_value) (o : scall) (r : sout + nat) (a' : idset_value) : Prop :=
  match a, o with
  | Some (n, s), SOp o => exists r' s', s_spec s o r' s' /\ r = inl r' /\ a' = Some (n, s')
  | Some (n, s), SCount => r = inr n /\ a' = a
  | None, _ => False
  end.
Definition idset_spec_run (asserts : bool) : gmap nat idset_value -> list (ocmd scall) -> list (option (sout + nat)) -> gmap nat idset_value -> Prop :=
  o_spec_run (sv_legal asserts) sv_spec (fun n => Some (n, ∅)) None (fun _ => None).
