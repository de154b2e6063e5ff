(** Proofs about ChWrapModel: constructions in which all numbers fit into 32 bits. *)
From Verif Require Import Base PermutationModel GraphUtilModel IdQueueModel IdSetModel ChCleanModel ChGraphModel ChBuildModel ChWrapModel.

(** [y] is defined where [x] is, with the same result. *)
Definition le {A} (x y : option A) : Prop := forall r, x = Some r -> y = Some r.
Lemma le_refl {A} (x : option A) : le x x.
Proof. by intros r. Qed.
Lemma le_bind {A B} (x y : option A) (f g : A -> option B) : le x y -> (forall a, le (f a) (g a)) -> le (x ≫= f) (y ≫= g).
Proof. intros H Hf r. destruct x as [a|]; [|done]. rewrite (H a eq_refl). apply Hf. Qed.
Lemma le_each {A S} (f g : A -> S -> option S) l : (forall a s, le (f a s) (g a s)) -> forall s, le (for_each l f s) (for_each l g s).
Proof. intros H. induction l as [|a l IH]; intros s; [apply le_refl|]. cbn. apply le_bind; [apply H|apply IH]. Qed.
Lemma le_n {S} (f g : nat -> S -> option S) k : (forall i s, le (f i s) (g i s)) -> forall i s, le (for_n k i f s) (for_n k i g s).
Proof. intros H. induction k as [|k IH]; intros i s; [apply le_refl|]. cbn. apply le_bind; [apply H|apply IH]. Qed.
Lemma le_range {S} (f g : nat -> S -> option S) lo hi s : (forall i s, le (f i s) (g i s)) -> le (for_range lo hi f s) (for_range lo hi g s).
Proof. intros H. by apply le_n. Qed.
Ltac mono := repeat (intros; cbv beta iota zeta; first [apply le_refl | assumption | match goal with
  | H : forall _, _ |- le _ _ => apply H
  | p : (_ * _)%type |- _ => destruct p
  | |- le (_ ≫= _) (_ ≫= _) => apply le_bind
  | |- le (for_each _ _ _) (for_each _ _ _) => apply le_each
  | |- le (for_range _ _ _ _) (for_range _ _ _ _) => apply le_range
  | |- le (if ?b then _ else _) _ => destruct b
  end]).

Section mono.
Context (r1 r2 : N -> option N) (Hr : forall x, le (r1 x) (r2 x)).
Lemma is_witness_mono o x d l : le (is_witness_u r1 o x d l) (is_witness_u r2 o x d l).
Proof using Hr. unfold is_witness_u. mono. Qed.
Lemma relax_mono o b l k a st : le (relax_witness_u r1 o b l k a st) (relax_witness_u r2 o b l k a st).
Proof using Hr. unfold relax_witness_u. pose proof is_witness_mono. mono. Qed.
Lemma settle_mono adj o b l s : le (witness_settle_u r1 adj o b l s) (witness_settle_u r2 adj o b l s).
Proof using Hr. unfold witness_settle_u. pose proof is_witness_mono. pose proof relax_mono. mono. Qed.
Lemma loop_mono g y l k : forall f b, le (witness_loop_u r1 g y l k f b) (witness_loop_u r2 g y l k f b).
Proof using Hr. pose proof settle_mono. induction k as [|k IH]; cbn [witness_loop_u]; mono. Qed.
Lemma shorter_mono g mp t y l : le (shorter_path_u r1 g mp t y l) (shorter_path_u r2 g mp t y l).
Proof using Hr. unfold shorter_path_u. pose proof loop_mono. mono. Qed.
Lemma hops_mono l s : le (sum_hops r1 l s) (sum_hops r2 l s).
Proof using Hr. unfold sum_hops. mono. Qed.
Lemma estimate_mono mp g t x : le (estimate_u r1 mp g t x) (estimate_u r2 mp g t x).
Proof using Hr. unfold estimate_u. pose proof shorter_mono. pose proof hops_mono. mono. Qed.
Lemma contract_mono mp g t x : le (contract_u r1 mp g t x) (contract_u r2 mp g t x).
Proof using Hr. unfold contract_u. pose proof shorter_mono. mono. Qed.
Lemma given_rank_mono mp g rank : le (given_rank_u r1 mp g rank) (given_rank_u r2 mp g rank).
Proof using Hr. unfold given_rank_u. pose proof contract_mono. mono. Qed.
Lemma update_mono mp l x st : le (update_neighbor_u r1 mp l x st) (update_neighbor_u r2 mp l x st).
Proof using Hr. unfold update_neighbor_u. pose proof estimate_mono. mono. Qed.
Lemma next_mono mp i s : le (contract_next_u r1 mp i s) (contract_next_u r2 mp i s).
Proof using Hr. unfold contract_next_u. pose proof contract_mono. pose proof update_mono. mono. Qed.
Lemma all_mono mp fuel : forall i s, le (contract_all_u r1 mp fuel i s) (contract_all_u r2 mp fuel i s).
Proof using Hr. pose proof next_mono. induction fuel as [|fuel IH]; cbn [contract_all_u]; mono. Qed.
Lemma order_mono mp g : le (build_order_u r1 mp g) (build_order_u r2 mp g).
Proof using Hr. unfold build_order_u. pose proof estimate_mono. pose proof all_mono. mono. Qed.
Lemma build_mono a mp n tl hd w : le (ch_build_u r1 a mp n tl hd w) (ch_build_u r2 a mp n tl hd w).
Proof using Hr. unfold ch_build_u. pose proof order_mono. mono. Qed.
Lemma build_rank_mono a mp rank tl hd w : le (ch_build_given_rank_u r1 a mp rank tl hd w) (ch_build_given_rank_u r2 a mp rank tl hd w).
Proof using Hr. unfold ch_build_given_rank_u. pose proof given_rank_mono. mono. Qed.
Lemma build_given_order_mono a mp order tl hd w : le (ch_build_given_order_u r1 a mp order tl hd w) (ch_build_given_order_u r2 a mp order tl hd w).
Proof using Hr. unfold ch_build_given_order_u. pose proof build_rank_mono. mono. Qed.
End mono.

Lemma checked_wrap x : le (checked32 x) (wrap32 x).
Proof. intros r. unfold checked32, wrap32. destruct (decide (x < 2 ^ 32)%N) as [H|]; [|done]. intros [= <-]. f_equal. by apply N.mod_small. Qed.
Lemma checked_exact x : le (checked32 x) (exact x).
Proof. intros r. unfold checked32, exact. by destruct (decide (x < 2 ^ 32)%N). Qed.

(** With [exact] the functions are those of ChGraphModel and ChBuildModel. *)
Lemma shorter_exact g mp t y l : shorter_path_u exact g mp t y l = does_shorter_or_equal_path_to_target_exist g mp t y l.
Proof. reflexivity. Qed.
Lemma contract_exact mp g t x : contract_u exact mp g t x = contract_node mp g t x.
Proof. reflexivity. Qed.
Lemma given_rank_exact mp g rank : given_rank_u exact mp g rank = build_ch_given_rank mp g rank.
Proof. reflexivity. Qed.
Lemma hops_exact l s : sum_hops exact l s = Some (foldl (fun s a => s + ga_hop a)%N s l).
Proof. unfold sum_hops. revert s. induction l as [|a l IH]; intros s; [done|]. cbn. apply IH. Qed.
Lemma exact_bind {A} x (f : N -> option A) : exact x ≫= f = f x.
Proof. reflexivity. Qed.
Lemma le_chk {A} b (f : unit -> option A) x : le (f tt) x -> le (chk b ≫= f) x.
Proof. intros H r. destruct b; [apply H|done]. Qed.
Lemma estimate_exact mp g t x : le (estimate_u exact mp g t x) (estimate_node_importance mp g t x).
Proof.
  unfold estimate_u, estimate_node_importance. apply le_bind; [apply le_refl|]. intros level. apply le_bind; [apply le_refl|]. intros ins. apply le_bind; [apply le_refl|]. intros outs.
  apply le_bind; [exact (le_refl _)|]. intros [[arcs hops] t']. cbv beta iota. rewrite 2!exact_bind. rewrite hops_exact. rewrite bind_S. rewrite hops_exact. rewrite bind_S.
  apply le_chk, le_chk. rewrite !exact_bind. apply le_refl.
Qed.
Local Opaque estimate_u estimate_node_importance.
Lemma update_exact mp l x st : le (update_neighbor_u exact mp l x st) (update_neighbor mp l x st).
Proof. unfold update_neighbor_u, update_neighbor. pose proof estimate_exact. mono. Qed.
Local Opaque update_neighbor_u update_neighbor.
Lemma next_exact mp i s : le (contract_next_u exact mp i s) (contract_next mp i s).
Proof.
  unfold contract_next_u, contract_next. pose proof update_exact.
  apply le_bind; [apply le_refl|]. intros [[x k] q]. apply le_bind; [apply le_refl|]. intros rank. apply le_bind; [apply le_refl|]. intros order. cbv zeta.
  apply le_bind; [apply le_refl|]. intros ins. apply le_bind; [apply le_refl|]. intros outs. apply le_bind; [apply le_refl|]. intros [ns is]. apply le_bind; [apply le_refl|]. intros [ns' is'].
  apply le_bind; [apply le_refl|]. intros level. rewrite exact_bind. rewrite contract_exact. mono.
Qed.
Local Opaque contract_next_u contract_next.
Lemma all_exact mp fuel : forall i s, le (contract_all_u exact mp fuel i s) (contract_all mp fuel i s).
Proof.
  induction fuel as [|fuel IH]; intros i s; cbn [contract_all_u contract_all]; [intros r H; discriminate H|].
  destruct (q_empty (b_queue s)); [by intros r|]. apply le_bind; [apply next_exact|]. intros s1. apply IH.
Qed.
Local Opaque contract_all_u contract_all.
Lemma order_exact mp g : le (build_order_u exact mp g) (build_ch_and_order mp g).
Proof.
  unfold build_order_u, build_ch_and_order. apply le_bind.
  - apply le_range. intros i [t q]. apply le_bind; [apply estimate_exact|]. intros [k t']. by intros r.
  - intros [t q]. apply le_bind; [apply all_exact|]. intros s. by intros r.
Qed.
Local Opaque build_order_u build_ch_and_order.
Lemma build_exact a mp n tl hd w : le (ch_build_u exact a mp n tl hd w) (ch_build a mp n tl hd w).
Proof.
  unfold ch_build_u, ch_build. apply le_bind; [by intros r|]. intros x. apply le_bind; [by intros r|]. intros g. apply le_bind; [apply order_exact|].
  intros [[[rank order] f] b]. by intros r.
Qed.
Lemma build_rank_exact a mp rank tl hd w : ch_build_given_rank_u exact a mp rank tl hd w = ch_build_given_rank a mp rank tl hd w.
Proof. reflexivity. Qed.
Lemma build_given_order_exact a mp order tl hd w : ch_build_given_order_u exact a mp order tl hd w = ch_build_given_order a mp order tl hd w.
Proof. reflexivity. Qed.
