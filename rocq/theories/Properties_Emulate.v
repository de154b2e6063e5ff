(** Theorems about src/emulate_gcc_builtin.h. *)
From stdpp Require Import relations.
From Verif Require Import Base UtilSpec GraphSpec BitVectorModel IdMapperModel CchModel CchSpec CchBuildModel CchBuildProofs CchApiSpec CchApiProofs CchParallelModel CchParallelProofs EmulateModel EmulateProofs Properties_Cch Properties_CchParallel.

(** * C79 *)
(** Words of 64 bits: the first function counts the bits that are set, the last one finds the lowest; they agree with what the models of the bit vector and
    of the id mapper use. *)
Theorem C79_popcount : forall x, (x < 2 ^ 64)%N -> exists l : list nat, NoDup l /\ (forall b, b ∈ l <-> N.testbit x (N.of_nat b) = true) /\
  emulated_popcountll x = Some (length l) /\ popcount x = length l /\ ((x < 2 ^ 32)%N -> emulated_popcount x = Some (length l)).
Proof.
  intros x Hx. exists (filter (fun b => N.testbit x (N.of_nat b) = true) (seq 0 64)).
  assert (emulated_popcountll x = Some (length (filter (fun b => N.testbit x (N.of_nat b) = true) (seq 0 64)))) as H.
  { exact (popcount_loop_spec x 64 0 0 eq_refl (Nat.lt_0_succ 63)). }
  split; [apply NoDup_filter, NoDup_seq|]. split; [|split; [exact H|split; [reflexivity|intros _; exact H]]].
  intros b. rewrite elem_of_list_filter, elem_of_seq. split; [by intros [? _]|]. intros Hb. split; [exact Hb|]. pose proof (bit_lt _ _ Hx Hb) as Hl. clear - Hl. lia.
Qed.
Theorem C79_ffs : forall x, (x < 2 ^ 64)%N ->
  emulated_ffsll x = Some (ffs x) /\ (x = 0%N -> ffs x = 0) /\
  (x <> 0%N -> exists b, ffs x = S b /\ N.testbit x (N.of_nat b) = true /\ forall b', b' < b -> N.testbit x (N.of_nat b') = false).
Proof.
  intros x Hx. assert (emulated_ffsll x = Some (ffs x)) as H.
  { transitivity (Some (match list_find (fun b => N.testbit x (N.of_nat b) = true) (seq 0 64) with Some (_, b) => S b | None => 0 end)).
    - exact (ffs_loop_spec x 64 0 eq_refl (Nat.lt_0_succ 63)).
    - unfold ffs. destruct (list_find _ _) as [[i b]|] eqn:E; [|done]. apply list_find_Some in E as (E1 & _). apply lookup_seq in E1 as [-> _]. done. }
  split; [done|]. split; [intros ->; vm_compute; reflexivity|]. intros Hne. unfold ffs. destruct (list_find _ _) as [[i b]|] eqn:E.
  - apply list_find_Some in E as (E1 & E2 & E3). apply lookup_seq in E1 as [-> E1]. exists i. split; [done|]. split; [done|].
    intros b' Hb. destruct (N.testbit x (N.of_nat b')) eqn:Eb; [|done]. exfalso. eapply (E3 b' b'); [|lia|done]. apply lookup_seq. lia.
  - exfalso. apply list_find_None in E. apply Hne, N.bits_inj. intros k. rewrite N.bits_0. destruct (N.testbit x k) eqn:Ek; [|done]. exfalso.
    pose proof (bit_lt _ _ Hx Ek) as Hk. clear Hx.
    rewrite Forall_forall in E. apply (E (N.to_nat k)); [apply elem_of_seq; lia|]. by rewrite N2Nat.id.
Qed.
(** The parallel customization with the compare-and-swap that is emulated with a mutex: as C26, and no two threads are between lock and unlock at the same time. *)
Theorem C79_parallel : forall order tail head c w m0,
  cch_of order tail head c -> weights_for tail w -> length (m_fwd m0) = length (up_head c) -> length (m_bwd m0) = length (up_head c) ->
  exists lv m, build_levels c = Some lv /\ customize c w m0 = Some m /\
    forall threads, 0 < threads -> exists s, lstart c lv w threads m0 = Some s /\
      (forall s', rtc lstep s s' -> (lfinal s' /\ l_mem s' = m) \/ (~ lfinal s' /\ exists s'', lstep s' s'')) /\
      (forall s' i j t u k k', rtc lstep s s' -> l_ths s' !! i = Some (t, k) -> l_ths s' !! j = Some (u, k') -> k <> COut -> k' <> COut -> i = j) /\
      Acc (fun s'' s' => lstep s' s'') s.
Proof.
  intros order tail head c w m0 HC Hw H1 H2. destruct (C26_parallel_customization _ _ _ _ _ _ HC Hw H1 H2) as (lv & m & E1 & E2 & H). exists lv, m. split; [done|]. split; [done|].
  intros threads Ht. destruct (H threads Ht) as (s & Hs & Hr & HA). destruct (lstart_inv _ _ _ _ _ _ Hs) as (ls & Hls & <- & HI). exists ls. split; [done|]. split; [|split].
  - intros s' Hs'. destruct (lsteps_sim _ _ HI Hs') as [HI' Hab]. destruct (Hr _ Hab) as [[Hf Hm]|[Hf Hp]].
    + destruct (l_lock s') eqn:El.
      * right. destruct (lstep_progress s' HI') as [s'' Hs'']; [right; by rewrite El|]. split; [|by exists s'']. intros Hlf. by eapply lfinal_stuck.
      * left. split; [|done]. by apply final_lfinal.
    + right. split; [intros Hlf; by apply Hf, lfinal_abs|]. apply lstep_progress; [done|by left].
  - intros s' i j t u k k' Hs' Hi Hj Hk Hk'. destruct (lsteps_sim _ _ HI Hs') as [HI' _]. destruct (decide (i = j)) as [|Hne]; [done|]. exfalso. apply Hk'. by eapply (only_one _ i t k HI' Hi Hk j).
  - by apply lstep_acc.
Qed.
Print Assumptions C79_popcount.
Print Assumptions C79_ffs.
Print Assumptions C79_parallel.

Definition ex_calling : lthr := (mkThr [MRelax true 0 1 6] (P3 5 9), COut).
Example C79_ex : emulated_popcountll 0xF0F0000000000001 = Some 9 /\ emulated_ffsll 0x8000000000000000 = Some 64 /\ emulated_ffsll 0 = Some 0 /\ emulated_popcount 0xFFFFFFFF = Some 32 /\
  cch_of ex_order ex_tail ex_head ex_cch /\ weights_for ex_tail ex_w /\
  (exists s, lstart ex_cch ex_levels ex_w 3 (new_metric ex_cch) = Some s /\ l_lock s = None /\ length (l_ths s) = 3) /\
  (* one thread is in the function, the other one has to wait *)
  locked_step 0 None ex_metric ex_calling = Some (Some 0, ex_metric, (fst ex_calling, CIn)) /\ locked_step 1 (Some 0) ex_metric ex_calling = None.
Proof.
  split; [vm_compute; reflexivity|]. split; [vm_compute; reflexivity|]. split; [vm_compute; reflexivity|]. split; [vm_compute; reflexivity|].
  split; [apply ex_cch_of|]. split; [apply ex_weights|]. split; [|split; vm_compute; reflexivity].
  destruct (lstart ex_cch ex_levels ex_w 3 (new_metric ex_cch)) as [s|] eqn:E; [|by vm_compute in E]. exists s. split; [done|]. unfold lstart in E. destruct (start _ _ _ _ _) as [cf|] eqn:Es; [|done]. rewrite bind_S in E. injection E as <-. cbn. split; [done|].
  unfold start in Es. destruct (mapM (extract_ops _ _) _); [|done]. rewrite bind_S in Es. destruct (mapM (level_jobs _ _) _); [|done]. rewrite bind_S in Es. injection Es as <-. reflexivity.
Qed.
