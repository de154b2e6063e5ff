(** * C18: strongly connected components *)
From stdpp Require Import relations.
From Verif Require Import Base GraphSpec SccModel SccSpec SccInv SccProofs.

(** The computation succeeds (no access out of bounds, the assertion on the empty
    stack holds, every loop ends) and meets the specification. *)
Theorem C18_components n fo head :
  csr n fo head ->
  exists co cc, compute_scc fo head = Some (co, cc) /\ scc_spec n fo head co cc.
Proof. apply scc_correct. Qed.
Print Assumptions C18_components.

(** ** The largest component *)

(** The nodes with component number [c]. *)
Definition members (co : list nat) (c : nat) : list nat :=
  filter (fun x => co !! x = Some c) (seq 0 (length co)).

Lemma members_elem co c x : x ∈ members co c <-> co !! x = Some c.
Proof.
  unfold members. rewrite elem_of_list_filter, elem_of_seq. split; [tauto|].
  intros H. split; [done|]. apply lookup_lt_Some in H. lia.
Qed.

Lemma members_NoDup co c : NoDup (members co c).
Proof. apply NoDup_filter, NoDup_seq. Qed.

(** How often [c] occurs among the first [k] entries. *)
Definition occ (co : list nat) (k c : nat) : nat :=
  length (filter (fun x => co !! x = Some c) (seq 0 k)).

Lemma occ_S co k c d : co !! k = Some d ->
  occ co (S k) c = occ co k c + if decide (c = d) then 1 else 0.
Proof.
  intros H. unfold occ. rewrite seq_S, filter_app, app_length. f_equal.
  rewrite Nat.add_0_l, filter_cons. rewrite H.
  repeat case_decide; naive_solver.
Qed.

Lemma largest_ok n fo head : csr n fo head ->
  exists res, compute_largest_scc fo head = Some res /\ largest_spec n fo head res.
Proof.
  intros Hcsr. unfold compute_largest_scc. rewrite (csr_len _ _ _ Hcsr). cbn [Nat.sub]. rewrite Nat.sub_0_r.
  case_decide as Hn.
  2:{ exists (replicate n false). split; [done|]. split; [by rewrite replicate_length|lia]. }
  destruct (scc_correct n fo head Hcsr) as (co & cc & -> & Sp). rewrite bind_S. cbv beta iota.
  pose proof (sc_len _ _ _ _ _ Sp) as Hlen.
  assert (Hlk : forall x, x < n -> exists c, co !! x = Some c /\ c < cc).
  { intros x Hx. destruct (lookup_lt_is_Some_2 co x) as [c Hc]; [lia|]. exists c. split; [done|].
    apply (sc_range _ _ _ _ _ Sp). by exists x. }
  (* sizes *)
  destruct (for_range_inv (fun k size => length size = cc /\
      forall c, c < cc -> size !! c = Some (occ co k c))
    (fun x size => c ← co !! x; k ← size !! c; wr size c (S k)) 0 n (replicate cc 0))
    as (size & -> & Hsl & Hsz).
  { lia. }
  { split; [apply replicate_length|]. intros c Hc. by apply lookup_replicate_2. }
  { intros k size Hk (Hl & Hs). destruct (Hlk k ltac:(lia)) as (c & Hc & Hcc).
    rewrite Hc, bind_S, (Hs c Hcc), bind_S, wr_Some by lia.
    eexists; split; [done|]. rewrite insert_length. split; [done|]. intros d Hd.
    rewrite (occ_S co k d c Hc). case_decide as E.
    - subst. rewrite list_lookup_insert by lia. f_equal. lia.
    - rewrite list_lookup_insert_ne by done. rewrite (Hs d Hd). f_equal. lia. }
  rewrite bind_S.
  assert (Hcc : 0 < cc).
  { destruct (Hlk 0 Hn) as (c & _ & ?). lia. }
  assert (Hocc : forall c, occ co n c = length (members co c)).
  { intros c. unfold occ, members. by rewrite Hlen. }
  (* maximum *)
  destruct (for_range_inv (fun i l => l < cc /\ forall c, c < i -> occ co n c <= occ co n l)
    (fun i largest => a ← size !! largest; b ← size !! i;
        Some (if decide (a < b) then i else largest)) 1 cc 0) as (l & -> & Hl & Hmax).
  { lia. }
  { split; [done|]. intros c Hc. by replace c with 0 by lia. }
  { intros i l Hi (Hl & Hm). rewrite (Hsz l Hl), bind_S, (Hsz i) by lia. rewrite bind_S.
    eexists; split; [done|]. case_decide as E.
    - split; [lia|]. intros c Hc. destruct (decide (c = i)) as [->|]; [done|].
      specialize (Hm c ltac:(lia)). lia.
    - split; [done|]. intros c Hc. destruct (decide (c = i)) as [->|]; [lia|].
      apply Hm. lia. }
  rewrite bind_S.
  (* marking *)
  destruct (for_range_inv (fun k res => length res = n /\
      forall x, x < n -> res !! x = Some (if decide (x < k) then bool_decide (co !! x = Some l) else false))
    (fun x res => c ← co !! x; wr res x (bool_decide (c = l))) 0 n (replicate n false))
    as (res & -> & Hrl & Hres).
  { lia. }
  { split; [apply replicate_length|]. intros x Hx. rewrite decide_False by lia.
    by apply lookup_replicate_2. }
  { intros k res Hk (Hrl & Hr). destruct (Hlk k ltac:(lia)) as (c & Hc & _).
    rewrite Hc, bind_S, wr_Some by lia. eexists; split; [done|]. rewrite insert_length. split; [done|].
    intros x Hx. destruct (decide (x = k)) as [->|Hne].
    - rewrite list_lookup_insert by lia. rewrite decide_True by lia. f_equal.
      apply bool_decide_ext. rewrite Hc. split; congruence.
    - rewrite list_lookup_insert_ne by done. rewrite Hr by done. f_equal.
      destruct (decide (x < k)), (decide (x < S k)); lia || done. }
  exists res. split; [done|]. split; [done|]. intros _.
  destruct (proj2 (sc_range _ _ _ _ _ Sp l) Hl) as (x & Hx).
  assert (Hxn : x < n) by (rewrite <- Hlen; by eapply lookup_lt_Some).
  assert (Hcomp : forall z c, co !! z = Some c -> is_component n fo head z (members co c)).
  { intros z c Hz. split; [apply members_NoDup|]. intros y. rewrite members_elem. split.
    - intros Hy. split; [rewrite <- Hlen; by eapply lookup_lt_Some|].
      by apply (sc_same _ _ _ _ _ Sp z y c c).
    - intros (Hy & Hr). destruct (Hlk y Hy) as (d & Hd & _).
      assert (c = d) as -> by (by apply (sc_same _ _ _ _ _ Sp z y c d)). done. }
  exists x, (members co l). split; [done|]. split; [by apply Hcomp|]. split.
  - intros y. rewrite members_elem. split.
    + intros Hy. assert (Hyn : y < n) by (rewrite <- Hrl; by eapply lookup_lt_Some).
      rewrite Hres, decide_True in Hy by done. injection Hy as Hy. by apply bool_decide_eq_true in Hy.
    + intros Hy. assert (Hyn : y < n) by (rewrite <- Hlen; by eapply lookup_lt_Some).
      rewrite Hres, decide_True by done. by rewrite bool_decide_true.
  - intros z D Hz (Hnd & HD). destruct (Hlk z Hz) as (c & Hc & Hcc').
    destruct (Hcomp z c Hc) as (_ & Hm).
    assert (length D = length (members co c)) as ->.
    { apply Permutation_length, NoDup_Permutation; [done|apply members_NoDup|].
      intros y. by rewrite HD, Hm. }
    rewrite <- !Hocc. by apply Hmax.
Qed.

Theorem C18_largest n fo head :
  csr n fo head ->
  exists res, compute_largest_scc fo head = Some res /\ largest_spec n fo head res.
Proof. apply largest_ok. Qed.
Print Assumptions C18_largest.

(** ** Examples *)

(** Eight nodes, components {0,1,2,3}, {4,5}, {6}, {7}: 0->1->2->0, 1->3->2,
    2->4, 4->5->4, 5->6, 7->0, 7->6, 6->6 (a loop) and a parallel arc 0->1. *)
Definition scc_fo : list nat := [0; 2; 4; 6; 7; 8; 10; 11; 13].
Definition scc_head : list nat := [1; 1; 2; 3; 0; 4; 2; 5; 4; 6; 6; 0; 6].

Example C18_example_csr : csr 8 scc_fo scc_head.
Proof.
  split; [done|done| |done|].
  - assert (H : forall i, i < 8 -> exists lo hi, scc_fo !! i = Some lo /\ scc_fo !! S i = Some hi /\ lo <= hi).
    { intros i Hi. do 8 (destruct i as [|i]; [eexists _, _; cbn; split; [done|split; [done|lia]]|]). lia. }
    intros i lo hi H1 H2. assert (i < 8) by (apply lookup_lt_Some in H2; cbn in H2; lia).
    destruct (H i) as (a & b & E1 & E2 & ?); [done|]. congruence.
  - assert (H : Forall (fun x => x < 8) scc_head) by (apply (bool_decide_unpack _); by vm_compute).
    by apply Forall_forall.
Qed.

Example C18_components_example :
  compute_scc scc_fo scc_head = Some ([2; 2; 2; 2; 1; 1; 0; 3], 4).
Proof. by vm_compute. Qed.

Example C18_largest_example :
  compute_largest_scc scc_fo scc_head
  = Some [true; true; true; true; false; false; false; false].
Proof. by vm_compute. Qed.

(** The empty graph. *)
Example C18_empty : compute_scc [0] [] = Some ([], 0) /\ compute_largest_scc [0] [] = Some [].
Proof. by vm_compute. Qed.
