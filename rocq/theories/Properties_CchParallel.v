(** Theorems about the parallel customization. *)
From stdpp Require Import relations.
From Verif Require Import Base UtilSpec GraphSpec CchModel CchSpec CchBuildModel CchBuildProofs CchApiSpec CchApiProofs CchTransferProofs CchResetProofs CchFilterProofs CchAssembleProofs CchParallelModel CchParallelProofs Properties_Cch.

(** * C26 *)
(** For every graph and every number of threads: the constructor succeeds; no execution runs
    into an error or a dead end, whatever the interleaving; none goes on forever; and every
    execution ends with exactly the metric customize() computes. *)
Theorem C26_parallel_customization : forall order tail head c w m0,
  cch_of order tail head c -> weights_for tail w -> length (m_fwd m0) = length (up_head c) -> length (m_bwd m0) = length (up_head c) ->
  exists lv m, build_levels c = Some lv /\ customize c w m0 = Some m /\
    forall threads, 0 < threads -> exists s, start c lv w threads m0 = Some s /\
      (forall s', rtc step s s' -> (final s' /\ mem s' = m) \/ (~ final s' /\ exists s'', step s' s'')) /\
      Acc (fun s'' s' => step s' s'') s.
Proof.
  intros order tail head c w m0 HC [Hw Hi] H1 H2. destruct (cch_of_built _ _ _ _ HC) as (rt & rh & B).
  assert (forall e x, w !! e = Some x -> (x <= inf_weight)%N) as Hwi by (intros e x Hx; by eapply Forall_lookup_1 in Hi; [|exact Hx]).
  destruct (parallel_spec _ rt rh c w m0 (bu_wf _ _ _ _ _ _ B) ltac:(by rewrite (built_len _ _ _ _ _ _ B)) Hwi H1 H2) as (lv & m & E1 & E2 & H).
  exists lv, m. split; [done|]. split; [done|]. intros threads Ht. destruct (H threads Ht) as (s & Hs & Hr).
  exists s. split; [done|]. split; [|apply no_infinite]. intros s' Hs'. destruct (Hr s' Hs') as [Hf Hp].
  destruct Hp as [Hp|Hp]; [left; eauto|]. right. split; [|done]. intros (F1 & F2 & F3). destruct Hp as [s'' Hst]. inversion Hst; subst.
  - rewrite Forall_forall in F2. match goal with H : ths s' !! _ = Some _ |- _ => apply elem_of_list_lookup_2, F2 in H as [F4 F5] end.
    match goal with H : thread_step _ _ = Some _ |- _ => unfold thread_step in H; by rewrite F4 in H end.
  - destruct before, chunk; cbn in *; congruence.
  - congruence.
Qed.
Print Assumptions C26_parallel_customization.

Definition ex_levels : levels := Eval vm_compute in default (mkLevels [] []) (build_levels ex_cch).
Example C26_ex : cch_of ex_order ex_tail ex_head ex_cch /\ weights_for ex_tail ex_w /\ build_levels ex_cch = Some ex_levels /\
  ex_levels = mkLevels [0; 5; 7; 8; 8] [0; 1; 2; 3; 4; 5; 6; 7] /\
  customize ex_cch ex_w (new_metric ex_cch) = Some ex_metric /\
  exists s, start ex_cch ex_levels ex_w 3 (new_metric ex_cch) = Some s /\
    stages s !! 0 = Some [[MRelax true 0 1 6; MRelax false 0 1 6]; [];
      [MRelax true 2 3 5; MRelax false 2 3 5; MRelax true 2 4 6; MRelax false 2 4 6]; [MRelax true 3 4 7; MRelax false 3 4 7]; []].
Proof.
  split; [apply ex_cch_of|]. split; [apply ex_weights|]. split; [vm_compute; reflexivity|]. split; [vm_compute; reflexivity|].
  split; [vm_compute; reflexivity|]. eexists. split; vm_compute; reflexivity.
Qed.
