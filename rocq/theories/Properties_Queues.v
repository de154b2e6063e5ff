(** C01-C03: the id-based containers behave like finite maps and sets. *)
From Verif Require Import Base IdQueueModel IdQueueSpec IdQueueProofs IdSetModel IdSetSpec IdSetProofs.

(** * C01 *)
(** Every history of calls on a new queue either runs to its end with exactly the
    results the map specification allows, or the results agree up to the first call
    that violates a documented precondition. *)
Theorem C01_min_id_queue : forall n os,
  (exists rs q m, q_run (new_queue n) os = Some (rs, q) /\ spec_run n ∅ os rs m) \/
  (exists os1 o os2 rs q m, os = os1 ++ o :: os2 /\ q_run (new_queue n) os1 = Some (rs, q) /\
     spec_run n ∅ os1 rs m /\ ~ legal n m o).
Proof.
  intros n os. destruct (q_run_refines n os _ _ (qref_new n)) as [(rs & q & m & ? & ? & _)|(os1 & o & os2 & rs & q & m & ? & ? & ? & _ & ?)].
  - left. eauto 10.
  - right. exists os1, o, os2, rs, q, m. auto.
Qed.
Print Assumptions C01_min_id_queue.

(** In particular a history that the specification allows is never undefined and ends
    in the empty map exactly when the queue reports empty. *)
Theorem C01_size_and_empty : forall n os rs q,
  q_run (new_queue n) os = Some (rs, q) ->
  (exists m, spec_run n ∅ os rs m /\ q_size q = size m /\ q_empty q = bool_decide (m = ∅)) \/
  (exists os1 o os2 rs1 m, os = os1 ++ o :: os2 /\ spec_run n ∅ os1 rs1 m /\ ~ legal n m o).
Proof.
  intros n os rs q Hr. destruct (q_run_refines n os _ _ (qref_new n)) as [(rs' & q' & m & E & Hs & Hq)|(os1 & o & os2 & rs' & q' & m & ? & ? & ? & _ & ?)].
  - left. rewrite Hr in E. injection E as -> ->. exists m. split; [done|].
    split; [symmetry; by apply (qref_size n)|by apply (q_empty_spec n)].
  - right. exists os1, o, os2, rs', m. auto.
Qed.
Print Assumptions C01_size_and_empty.

Definition C01_history : list qop :=
  [OPush 3 7; OPush 0 9; OPush 4 5; OPush 1 8; OPeek; ODecrease 0 2; OIncrease 4 20; OPop; OPop; OSize;
   OContains 0; OGetKey 4; OPush 0 30; OPop; OPop; OPop; OEmpty].
Example C01_ex : exists q, q_run (new_queue 5) C01_history =
  Some ([RUnit; RUnit; RUnit; RUnit; RPair 4 5; RBool true; RBool true; RPair 0 2; RPair 3 7; RNat 2;
         RBool false; RKey 20; RUnit; RPair 1 8; RPair 4 20; RPair 0 30; RBool true], q).
Proof. eexists. vm_compute. reflexivity. Qed.

(** * C02 *)
(** After any history of calls with ids in range, including histories with more than
    2^16 resets, [is_set] answers membership in the set of ids set since. *)
Theorem C02_timestamp_flags : forall n os,
  Forall (f_legal n) os ->
  exists f, f_run (new_flags n) os = Some f /\
    forall i, i < n -> is_set f i = Some (bool_decide (i ∈ foldl f_spec ∅ os)).
Proof.
  intros n os Hos. destruct (f_run_refines n _ _ os (fref_new n) Hos) as (f & E & Hf).
  exists f. split; [done|]. intros i Hi. by apply (is_set_spec n).
Qed.
Print Assumptions C02_timestamp_flags.
(** 65536 resets: the counter wraps, flag 1 set at the start is not resurrected. *)
Example C02_ex : 
  (f ← f_run (new_flags 3) (FSet 1 :: replicate 65535 FResetAll ++ [FSet 2; FSet 0; FResetOne 0]);
   a ← is_set f 0; b ← is_set f 1; c ← is_set f 2; Some (a, b, c, current_timestamp f))
  = Some (false, false, true, 1%N).
Proof. vm_compute. reflexivity. Qed.

(** * C03 *)
(** For both ways of compiling the code: every history runs to its end with the results
    the set specification allows, up to the first call outside of its precondition. *)
Theorem C03_id_set_queue : forall asserts n os,
  (exists rs q s, s_run asserts (new_idset n) os = Some (rs, q) /\ s_spec_run asserts n ∅ os rs s) \/
  (exists os1 o os2 rs q s, os = os1 ++ o :: os2 /\ s_run asserts (new_idset n) os1 = Some (rs, q) /\
     s_spec_run asserts n ∅ os1 rs s /\ ~ s_legal asserts n s o).
Proof.
  intros a n os. destruct (s_run_refines a n os _ _ (sref_new n)) as [(rs & q & s & ? & ? & _)|(os1 & o & os2 & rs & q & s & ? & ? & ? & _ & ?)].
  - left. eauto 10.
  - right. exists os1, o, os2, rs, q, s. auto.
Qed.
Print Assumptions C03_id_set_queue.
Example C03_ex : exists q,
  s_run true (new_idset 5) [SPush 3; SPush 1; SPush 4; SPush 1; SPop; SPeek; SPop; SPush 0; SPop; SPop; SEmpty; SPush 2; SClear; SPeek] =
  Some ([TUnit; TUnit; TUnit; TUnit; TId (Some 1); TId (Some 3); TId (Some 3); TUnit; TId (Some 0);
         TId (Some 4); TBool true; TUnit; TUnit; TId None], q).
Proof. eexists. vm_compute. reflexivity. Qed.
Example C03_ex_release : exists q,
  s_run false (new_idset 3) [SPush 2; SPop; SPop; SPush 1; SPeek] =
  Some ([TUnit; TId (Some 2); TId None; TUnit; TId (Some 1)], q).
Proof. eexists. vm_compute. reflexivity. Qed.

(** The header (id_set_queue.h:169-170) documents that [pop] on an empty queue returns
    invalid_id. With assertions it never does; without them it fails for a single id,
    where the climb from node 0 never reaches the root. *)
Theorem C03_pop_of_empty_refuted : 
  (forall n, idset_pop true (new_idset n) = None) /\
  (forall fuel, pop_up false fuel (data (new_idset 1)) (offset (new_idset 1) - 1) = None).
Proof. split; [done|]. exact pop_empty_one_diverges. Qed.
Print Assumptions C03_pop_of_empty_refuted.
Example C03_pop_of_empty_ex : idset_empty (new_idset 1) = true /\ idset_peek (new_idset 1) = None.
Proof. done. Qed.
