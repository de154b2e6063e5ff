(** C80: the memory of bit vectors: programs with BitVector objects, exceptions included, never touch memory that is not theirs, and free all of it. *)
From stdpp Require Import gmap.
From Verif Require Import Base BitVectorModel BitVectorSpec BitMemoryModel BitMemorySpec BitMemoryProofs.

(** All programs, all executions: after a program has run, with or without exceptions, each variable has its value and each block belongs to exactly one
    object; and every operation that is allowed next is defined: it has the result it means, or an allocation failed, it throws and changed nothing.
    Missing: resizing with the value true to or from a multiple of 512, and without a value from an empty vector, see below. A vector that was moved from is
    empty. *)
Theorem C80_programs_partial : forall alloc garbage n os threw s A,
  allocator alloc -> words_of_memory garbage ->
  executes alloc garbage (mkBmem ∅ (replicate n None)) os threw s -> mean os threw (replicate n None) = Some A ->
  holds s A /\
  forall o A', means o A = Some A' ->
    (exists s', exec alloc garbage o s = Some (Done s') /\ holds s' A') \/
    (exec alloc garbage o s = Some (Thrown s) /\ exists k, alloc k (heap s) = None).
Proof.
  intros alloc garbage n os threw s A Ha Hg He Hm.
  assert (holds s A) as H by (eapply executes_spec; [done|done|apply holds_start|done|done]). split; [done|].
  intros o A' Ho. destruct (exec_spec _ _ Ha Hg _ _ _ _ H Ho) as ([s'|s'] & E & Hr); cbn in Hr; [left; by exists s'|right]. destruct Hr as [-> Hr]. done.
Qed.
Print Assumptions C80_programs_partial.

(** No leaks: when no variable is alive no memory is allocated. *)
Theorem C80_no_leak_partial : forall alloc garbage n os threw s A,
  allocator alloc -> words_of_memory garbage ->
  executes alloc garbage (mkBmem ∅ (replicate n None)) os threw s -> mean os threw (replicate n None) = Some A ->
  Forall (fun x => x = None) A -> heap s = ∅.
Proof.
  intros alloc garbage n os threw s A Ha Hg He Hm Hd.
  assert (holds s A) as H by (eapply executes_spec; [done|done|apply holds_start|done|done]).
  apply map_empty. intros p. destruct (heap s !! p) eqn:E; [|done]. exfalso. destruct (holds_all _ _ H p) as (i & k & Hi); [by rewrite E|].
  assert (i < length A) as L. { rewrite <- (holds_length _ _ H). apply lookup_lt_Some in Hi. done. }
  apply lookup_lt_is_Some in L as [x Hx]. pose proof (proj1 (Forall_lookup _ _) Hd _ _ Hx) as Hn. cbn in Hn. subst x. apply (holds_dead _ _ H) in Hx. congruence.
Qed.
Print Assumptions C80_no_leak_partial.

(** aligned_alloc that returns the first address that is free, and that fails for more than 200 bytes *)
Definition ex_alloc (k : nat) (h : gmap nat (list N)) : option nat := if decide (k <= 200) then Some (fresh (dom h)) else None.
Definition ex_garbage (k : nat) : list N := replicate k 12345%N.
Lemma ex_alloc_ok : allocator ex_alloc.
Proof. intros k h p H. unfold ex_alloc in H. destruct (decide (k <= 200)); [|done]. injection H as <-. apply not_elem_of_dom. apply is_fresh. Qed.
Lemma ex_garbage_ok : words_of_memory ex_garbage.
Proof. intros k. split; [apply replicate_length|]. apply Forall_replicate. vm_compute. done. Qed.
Definition ex_program : list vop :=
  [VNew 0 3 true; VMake 1 3 (fun i => i =? 1); VBinary BXor 2 0 1; VMove 3 2; VAssign 3 3; VAssignMove 0 3; VResize 1 600 false; VResize 1 4000 false; VInplace 1 (IBit (OSet 2)); VSwap 0 1;
   VCopy 4 2; VNew 5 5000 false; VBinaryMove BOr 5 1 1].
(** The destructors *)
Definition ex_end : list vop := VDestroy <$> seq 0 6.
(** The two operations of [ex_program] that throw *)
Definition ex_threw : list bool := [false; false; false; false; false; false; false; true; false; false; false; true; false].
(** The memory at the end of an execution *)
Fixpoint run (alloc : nat -> gmap nat (list N) -> option nat) (garbage : nat -> list N) (os : list vop) (s : bmem) : option (list bool * bmem) :=
  match os with
  | [] => Some ([], s)
  | o :: os =>
      r ← exec alloc garbage o s;
      let '(t, s) := match r with Done s => (false, s) | Thrown s => (true, s) end in
      '(ts, s) ← run alloc garbage os s; Some (t :: ts, s)
  end.
Lemma run_executes alloc garbage os s ts s' : run alloc garbage os s = Some (ts, s') -> executes alloc garbage s os ts s'.
Proof.
  revert s ts. induction os as [|o os IH]; intros s ts H; cbn in H; [simplify_eq; constructor|].
  destruct (exec alloc garbage o s) as [[s1|s1]|] eqn:E; [| |done]; rewrite bind_S in H; destruct (run alloc garbage os s1) as [[ts1 s2]|] eqn:E1; try done; rewrite bind_S in H;
    injection H as <- <-; [eapply executes_done|eapply executes_thrown]; eauto.
Qed.
Definition ex_state : bmem := match run ex_alloc ex_garbage ex_program (mkBmem ∅ (replicate 6 None)) with Some (_, s) => s | None => mkBmem ∅ [] end.
Example C80_ex : 
  executes ex_alloc ex_garbage (mkBmem ∅ (replicate 6 None)) ex_program ex_threw ex_state /\
  vars ex_state = [Some (Some 4, 600); Some (None, 0); Some (None, 0); Some (None, 0); Some (Some 5, 0); Some (Some 3, 3)] /\
  heap ex_state !! 3 = Some (5%N :: replicate 7 0%N) /\ heap ex_state !! 4 = Some (6%N :: replicate 15 0%N) /\ heap ex_state !! 5 = Some [] /\ size (heap ex_state) = 3 /\
  mean ex_program ex_threw (replicate 6 None) =
    Some [Some ([false; true; true] ++ replicate 597 false); Some []; Some []; Some []; Some []; Some [true; false; true]] /\
  (exists s', executes ex_alloc ex_garbage (mkBmem ∅ (replicate 6 None)) (ex_program ++ ex_end) (ex_threw ++ replicate 6 false) s' /\ heap s' = ∅) /\
  mean (ex_program ++ ex_end) (ex_threw ++ replicate 6 false) (replicate 6 None) = Some (replicate 6 None).
Proof.
  split; [apply run_executes; vm_compute; reflexivity|]. split; [vm_compute; reflexivity|]. split; [vm_compute; reflexivity|]. split; [vm_compute; reflexivity|].
  split; [vm_compute; reflexivity|]. split; [vm_compute; reflexivity|]. split; [vm_compute; reflexivity|].
  assert (mean (ex_program ++ ex_end) (ex_threw ++ replicate 6 false) (replicate 6 None) = Some (replicate 6 None)) as Hm by (vm_compute; reflexivity). split; [|exact Hm].
  destruct (run ex_alloc ex_garbage (ex_program ++ ex_end) (mkBmem ∅ (replicate 6 None))) as [[ts s]|] eqn:E; [|vm_compute in E; discriminate].
  assert (ts = ex_threw ++ replicate 6 false) as ->. { change ts with (fst (ts, s)). vm_compute in E. injection E as <- _. vm_compute. reflexivity. }
  exists s. pose proof (run_executes _ _ _ _ _ _ E) as He. split; [exact He|].
  eapply (C80_no_leak_partial ex_alloc ex_garbage 6); [apply ex_alloc_ok|apply ex_garbage_ok|exact He|exact Hm|]. by apply Forall_replicate.
Qed.

(** What [means] leaves out is not only missing: the copy of an empty vector cannot be resized with the value true (C05_resize_true_empty_copy_refuted): memory
    outside of the block is touched. *)
Theorem C80_resize_refuted : exists os s, executes ex_alloc ex_garbage (mkBmem ∅ (replicate 2 None)) os [false; false] s /\ mean os [false; false] (replicate 2 None) = Some [Some []; Some []] /\ exec ex_alloc ex_garbage (VResize 1 5 true) s = None.
Proof.
  exists [VDefault 0; VCopy 1 0].
  destruct (run ex_alloc ex_garbage [VDefault 0; VCopy 1 0] (mkBmem ∅ (replicate 2 None))) as [[ts s]|] eqn:E; [|vm_compute in E; discriminate].
  pose proof (run_executes _ _ _ _ _ _ E) as H. vm_compute in E. injection E as <- <-. eexists. split; [exact H|]. split; vm_compute; reflexivity.
Qed.
Print Assumptions C80_resize_refuted.
(** Copying an empty vector may throw, although nothing has to be stored: aligned_alloc(64, 0) may return a null pointer. *)
Theorem C80_copy_empty_refuted : exists alloc, allocator alloc /\ (forall k h, k <> 0 -> is_Some (alloc k h)) /\ exists s, executes alloc ex_garbage (mkBmem ∅ (replicate 2 None)) [VDefault 0; VCopy 1 0] [false; true] s.
Proof.
  exists (fun k h => if decide (k = 0) then None else Some (fresh (dom h))). split; [|split].
  - intros k h p H. cbn in H. destruct (decide (k = 0)); [done|]. injection H as <-. apply not_elem_of_dom. apply is_fresh.
  - intros k h Hk. destruct (decide (k = 0)); [done|]. by eexists.
  - eexists. apply run_executes. vm_compute. reflexivity.
Qed.
Print Assumptions C80_copy_empty_refuted.
