(** What a finished contraction hierarchy has to look like, independent of how it is built.
    Nodes inside the hierarchy are numbered by rank. *)
From Verif Require Import Base UtilSpec GraphSpec WalkSpec ChCleanSpec ChBuildModel.

(** [e] is an arc of one direction from [x] to [y] of weight [w]. *)
Definition sarc (sd : chside) (e x y : nat) (w : N) : Prop :=
  out_arc (cs_first_out sd) x e /\ cs_head sd !! e = Some y /\ cs_weight sd !! e = Some w.
Definition swarcs (sd : chside) : warcs := fun x y w => exists e, sarc sd e x y w.

(** An adjacency array all arcs of which go up. *)
Record side_ok (n : nat) (sd : chside) : Prop := {
  so_csr : csr n (cs_first_out sd) (cs_head sd);
  so_weight : length (cs_weight sd) = length (cs_head sd);
  so_orig : length (cs_orig sd) = length (cs_head sd);
  so_first : length (cs_first sd) = length (cs_head sd);
  so_second : length (cs_second sd) = length (cs_head sd);
  so_up : forall e x y w, sarc sd e x y w -> x < y }.

(** The unpacking information [orig], [a], [b] of an arc of the hierarchy that stands for
    going from [s] to [t] at cost [x]: input arc [a] with head [b], or first arc [a] of the backward
    direction and then arc [b] of the forward direction, both at a common lower node. *)
Definition entry_ok (tail head : list nat) (w : list N) (order : list nat) (fwd bwd : chside) (s t : nat) (x : N) (orig : bool) (a b : nat) : Prop :=
  if orig then exists u v, order !! s = Some u /\ order !! t = Some v /\ is_arc tail head w a u v x /\ b = v
  else exists z x1 x2, sarc bwd a z s x1 /\ sarc fwd b z t x2 /\ x = (x1 + x2)%N.
Definition side_entry (sd : chside) (e : nat) (orig : bool) (a b : nat) : Prop :=
  cs_orig sd !! e = Some orig /\ cs_first sd !! e = Some a /\ cs_second sd !! e = Some b.

(** A hierarchy of the graph with [n] nodes given by [tail], [head], [w], in which every walk the
    length of which satisfies [bound] can be replaced by one that goes up and then down. *)
Record ch_upto {bound : N -> Prop} (n : nat) (tail head : list nat) (w : list N) (c : ch) : Prop := {
  co_len : length (ch_order c) = n;
  co_perm : perm (ch_order c);
  co_rank : inverse_of (ch_order c) (ch_rank c);
  co_fwd : side_ok n (ch_fwd c);
  co_bwd : side_ok n (ch_bwd c);
  co_fwd_entry : forall e x y v, sarc (ch_fwd c) e x y v -> exists o a b, side_entry (ch_fwd c) e o a b /\
    entry_ok tail head w (ch_order c) (ch_fwd c) (ch_bwd c) x y v o a b;
  co_bwd_entry : forall e x y v, sarc (ch_bwd c) e x y v -> exists o a b, side_entry (ch_bwd c) e o a b /\
    entry_ok tail head w (ch_order c) (ch_fwd c) (ch_bwd c) y x v o a b;
  co_complete : forall s t L x y, bound L -> dist_walk (arcs_of tail head w) s t L -> ch_rank c !! s = Some x -> ch_rank c !! t = Some y ->
    exists z L1 L2, (L1 + L2 <= L)%N /\ upstar (swarcs (ch_fwd c)) x z L1 /\ upstar (swarcs (ch_bwd c)) y z L2 }.
(** Complete for all walks. *)
Definition ch_full := @ch_upto (fun _ => True).
(** Complete for walks that are shorter than inf_weight, which is all that queries need. *)
Definition ch_ok := @ch_upto (fun L => (L < inf_weight)%N).
Lemma ch_full_ok n tail head w c : ch_full n tail head w c -> ch_ok n tail head w c.
Proof. intros []. split; try done. intros. eauto. Qed.
