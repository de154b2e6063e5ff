(** Specification vocabulary: walks in a graph and their lengths. *)
From Verif Require Import Base GraphSpec.

(** [arcs] is a walk from [u] to [v]. *)
Fixpoint walk (fo head : list nat) (u : nat) (arcs : list nat) (v : nat) : Prop :=
  match arcs with
  | [] => u = v
  | a :: arcs => exists x, arc_from_to fo head u x a /\ walk fo head x arcs v
  end.

(** The nodes on a walk. *)
Fixpoint walk_nodes (head : list nat) (u : nat) (arcs : list nat) : list nat :=
  match arcs with
  | [] => [u]
  | a :: arcs => u :: walk_nodes head (head !!! a) arcs
  end.

(** Arrival time when the walk is started at time [t]; arcs whose weight is
    [inf_weight] or more cannot be used. *)
Fixpoint arrival (w : nat -> N -> option N) (t : N) (arcs : list nat) : option N :=
  match arcs with
  | [] => Some t
  | a :: arcs => wt ← w a t; if decide (wt < inf_weight)%N then arrival w (t + wt)%N arcs else None
  end.

(** Some walk from a source arrives at [v] at time [t]. *)
Definition reachable_at (fo head : list nat) (w : nat -> N -> option N) (ss : list (nat * N)) (v : nat) (t : N) : Prop :=
  exists s t0 arcs, (s, t0) ∈ ss /\ walk fo head s arcs v /\ arrival w t0 arcs = Some t.

(** Earliest arrival; for constant weights the shortest distance. *)
Definition earliest fo head w ss (v : nat) (t : N) : Prop :=
  reachable_at fo head w ss v t /\ forall t', reachable_at fo head w ss v t' -> (t <= t')%N.

(** Entering an arc later never makes one arrive earlier. *)
Definition fifo (w : nat -> N -> option N) : Prop :=
  forall a t1 t2 w2, (t1 <= t2)%N -> w a t2 = Some w2 -> (w2 < inf_weight)%N ->
    exists w1, w a t1 = Some w1 /\ (w1 < inf_weight)%N /\ (t1 + w1 <= t2 + w2)%N.

(** The tail array agrees with the adjacency array. *)
Definition tails_ok (fo tail head : list nat) : Prop :=
  length tail = length head /\ forall x a, out_arc fo x a -> tail !! a = Some x.

Lemma walk_app fo head u p q v : walk fo head u (p ++ q) v <-> exists x, walk fo head u p x /\ walk fo head x q v.
Proof.
  revert u. induction p as [|a p IH]; intros u; cbn.
  - split; [eauto|]. by intros (x & -> & H).
  - split.
    + intros (y & Ha & H). apply IH in H as (x & Hp & Hq). eauto 10.
    + intros (x & (y & Ha & Hp) & Hq). exists y. split; [done|]. apply IH. eauto.
Qed.
Lemma arrival_app w t p q : arrival w t (p ++ q) = t1 ← arrival w t p; arrival w t1 q.
Proof.
  revert t. induction p as [|a p IH]; intros t; [done|]. cbn [arrival app].
  destruct (w a t) as [wt|]; [|done]. rewrite !bind_S. case_decide; [apply IH|done].
Qed.
Lemma arrival_le w t p t' : arrival w t p = Some t' -> (t <= t')%N.
Proof.
  revert t. induction p as [|a p IH]; intros t; cbn.
  - intros [=->]. lia.
  - destruct (w a t) as [wt|]; cbn; [|done]. case_decide; [|done]. intros H'%IH. lia.
Qed.
Lemma scalar_fifo (ws : list N) : fifo (fun a _ => ws !! a).
Proof. intros a t1 t2 w2 Ht Hw Hlt. exists w2. split; [done|]. split; [done|lia]. Qed.
