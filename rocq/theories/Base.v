(** Common vocabulary of the model: imports, array access with undefined
    behaviour as [None], counting loops, constants. *)
From Coq Require Export NArith ZArith Lia.
From Coq Require Import ZifyBool ZifyNat ZifyN.
From stdpp Require Export base tactics option sorting numbers sets list_numbers list.

Global Set Default Goal Selector "1".
Global Open Scope nat_scope.

(** include/routingkit/constants.h:8-9. [invalid_id] as the number the code
    stores; most of the model uses [None] of an [option nat] instead. *)
Definition invalid_id : N := 4294967295%N.
Definition inf_weight : N := 2147483647%N.

(** Array write. C++ [v[i] = x] on a std::vector: out of range is undefined
    behaviour, modelled as [None]. Array reads use std++'s [l !! i]. *)
Definition wr {A} (l : list A) (i : nat) (x : A) : option (list A) :=
  if decide (i < length l) then Some (<[i := x]> l) else None.

(** C++ [assert(b)]: a violated assertion (or the undefined behaviour that
    follows it in a release build) is [None]. *)
Definition chk (b : bool) : option unit := if b then Some tt else None.

(** [for(unsigned i = lo; i < lo+n; ++i) s = body(i,s)]. *)
Fixpoint for_n {S} (n i : nat) (body : nat -> S -> option S) (s : S) : option S :=
  match n with
  | O => Some s
  | Datatypes.S n' => s' ← body i s; for_n n' (Datatypes.S i) body s'
  end.

Definition for_range {S} (lo hi : nat) (body : nat -> S -> option S) (s : S) : option S :=
  for_n (hi - lo) lo body s.

(** Range-based for: [for(x : l) s = body(x,s)]. *)
Fixpoint for_each {A S} (l : list A) (body : A -> S -> option S) (s : S) : option S :=
  match l with
  | [] => Some s
  | x :: l' => s' ← body x s; for_each l' body s'
  end.

Lemma wr_Some {A} (l : list A) i x : i < length l -> wr l i x = Some (<[i:=x]> l).
Proof. intros; unfold wr. by rewrite decide_True. Qed.

Lemma wr_is_Some {A} (l l' : list A) i x :
  wr l i x = Some l' -> i < length l /\ l' = <[i:=x]> l.
Proof. unfold wr. case_decide; naive_solver. Qed.

Lemma for_n_inv {S} (P : nat -> S -> Prop) body n i s :
  P i s ->
  (forall j s, i <= j < i + n -> P j s -> exists s', body j s = Some s' /\ P (Datatypes.S j) s') ->
  exists s', for_n n i body s = Some s' /\ P (i + n) s'.
Proof.
  revert i s. induction n as [|n IH]; intros i s HP Hstep; cbn [for_n].
  - exists s. rewrite Nat.add_0_r. done.
  - destruct (Hstep i s) as (s1 & Hs1 & HP1); [lia|done|].
    destruct (IH (Datatypes.S i) s1) as (s2 & Hs2 & HP2); [done| |].
    + intros j s' Hj. apply Hstep; lia.
    + exists s2. rewrite Hs1. cbn. split; [done|]. replace (i + Datatypes.S n) with (Datatypes.S i + n) by lia. done.
Qed.

Lemma for_range_inv {S} (P : nat -> S -> Prop) body lo hi s :
  lo <= hi ->
  P lo s ->
  (forall j s, lo <= j < hi -> P j s -> exists s', body j s = Some s' /\ P (Datatypes.S j) s') ->
  exists s', for_range lo hi body s = Some s' /\ P hi s'.
Proof.
  intros Hle HP Hstep. unfold for_range.
  destruct (for_n_inv P body (hi - lo) lo s HP) as (s' & Hs & HP').
  - intros j s' Hj. apply Hstep; lia.
  - exists s'. replace (lo + (hi - lo)) with hi in HP' by lia. done.
Qed.

(** Partial-correctness variant: if the loop ran, the invariant holds. *)
Lemma for_n_inv' {S} (P : nat -> S -> Prop) body n i s s' :
  for_n n i body s = Some s' ->
  P i s ->
  (forall j s s', i <= j < i + n -> P j s -> body j s = Some s' -> P (Datatypes.S j) s') ->
  P (i + n) s'.
Proof.
  revert i s. induction n as [|n IH]; intros i s Hf HP Hstep; cbn [for_n] in Hf.
  - simplify_eq. rewrite Nat.add_0_r. done.
  - destruct (body i s) as [s1|] eqn:Hb; [|done]. cbn in Hf.
    replace (i + Datatypes.S n) with (Datatypes.S i + n) by lia.
    eapply IH; [done| |].
    + eapply Hstep; [|done|done]. lia.
    + intros j s2 s3 Hj. apply Hstep; lia.
Qed.

Lemma for_each_inv {A S} (P : list A -> S -> Prop) body (l : list A) s :
  P [] s ->
  (forall pre x post s, l = pre ++ x :: post -> P pre s -> exists s', body x s = Some s' /\ P (pre ++ [x]) s') ->
  exists s', for_each l body s = Some s' /\ P l s'.
Proof.
  intros HP Hstep.
  cut (forall post pre s, l = pre ++ post -> P pre s ->
        exists s', for_each post body s = Some s' /\ P l s').
  { intros H. apply (H l []); done. }
  induction post as [|x post IH]; intros pre s1 Hl HP1; cbn [for_each].
  - rewrite app_nil_r in Hl; subst. eauto.
  - destruct (Hstep pre x post s1 Hl HP1) as (s2 & Hs2 & HP2).
    rewrite Hs2. cbn. apply (IH (pre ++ [x])); [|done].
    rewrite <- app_assoc. done.
Qed.

Lemma for_each_inv' {A S} (P : list A -> S -> Prop) body (l : list A) s s' :
  for_each l body s = Some s' ->
  P [] s ->
  (forall pre x post s s', l = pre ++ x :: post -> P pre s -> body x s = Some s' -> P (pre ++ [x]) s') ->
  P l s'.
Proof.
  intros Hf HP Hstep.
  cut (forall post pre s, l = pre ++ post -> P pre s -> for_each post body s = Some s' -> P l s').
  { intros H. eapply (H l []); done. }
  clear Hf HP s. induction post as [|x post IH]; intros pre s1 Hl HP1 Hf; cbn [for_each] in Hf.
  - simplify_eq. rewrite app_nil_r. done.
  - destruct (body x s1) as [s2|] eqn:Hb; [|done]. cbn in Hf.
    eapply (IH (pre ++ [x])); [|by eapply Hstep|done].
    rewrite <- app_assoc. done.
Qed.

Lemma bind_S {A B} (a : A) (f : A -> option B) : Some a ≫= f = f a.
Proof. done. Qed.
