(** C87: constructing, copying, moving and swapping queues and flags.

    Full statement (false): the objects are values, and an object that was moved from is an empty one. *)
From Verif Require Import Base IdQueueModel IdQueueSpec IdSetModel IdSetSpec ObjectModel ObjectSpec ObjectProofs.
Ltac Zify.zify_post_hook ::= idtac.

(** Every program with any number of queues either gives exactly the results that independent values give, or does so
    up to the first command that is not allowed: a call against its precondition, the use of an undeclared
    variable, or a call of a queue whose elements were moved away. *)
Theorem C87_queue_partial : forall p,
  (exists rs st ast, queue_run ∅ p = Some (rs, st) /\ queue_spec_run ∅ p rs ast) \/
  (exists p1 c p2 rs st ast, p = p1 ++ c :: p2 /\ queue_run ∅ p1 = Some (rs, st) /\ queue_spec_run ∅ p1 rs ast /\ ~ o_legal qv_legal ast c).
Proof.
  intros p. destruct (o_run_refines _ _ _ _ _ _ _ _ _ _ p ∅ ∅ queue_ok (st_ref_empty _)) as [(rs & st & ast & H1 & H2 & _)|H]; [left|right; exact H].
  exists rs, st, ast. split; [exact H1|exact H2].
Qed.
Print Assumptions C87_queue_partial.
(** Flags: nothing is left out. Default constructed flags and those that were moved from have no ids, and no result
    depends on the uninitialised number [g]. *)
Theorem C87_flags : forall g p,
  (exists rs st ast, flags_run g ∅ p = Some (rs, st) /\ flags_spec_run ∅ p rs ast) \/
  (exists p1 c p2 rs st ast, p = p1 ++ c :: p2 /\ flags_run g ∅ p1 = Some (rs, st) /\ flags_spec_run ∅ p1 rs ast /\ ~ o_legal fv_legal ast c).
Proof.
  intros g p. destruct (o_run_refines _ _ _ _ _ _ _ _ _ _ p ∅ ∅ (flags_ok g) (st_ref_empty _)) as [(rs & st & ast & H1 & H2 & _)|H]; [left|right; exact H].
  exists rs, st, ast. split; [exact H1|exact H2].
Qed.
Print Assumptions C87_flags.
(** Sets of ids: default constructed objects and those that were moved from may only be assigned, copied, moved and swapped. *)
Theorem C87_idset_partial : forall asserts g p,
  (exists rs st ast, idset_run asserts g ∅ p = Some (rs, st) /\ idset_spec_run asserts ∅ p rs ast) \/
  (exists p1 c p2 rs st ast, p = p1 ++ c :: p2 /\ idset_run asserts g ∅ p1 = Some (rs, st) /\ idset_spec_run asserts ∅ p1 rs ast /\ ~ o_legal (sv_legal asserts) ast c).
Proof.
  intros asserts g p. destruct (o_run_refines _ _ _ _ _ _ _ _ _ _ p ∅ ∅ (idset_ok asserts g) (st_ref_empty _)) as [(rs & st & ast & H1 & H2 & _)|H]; [left|right; exact H].
  exists rs, st, ast. split; [exact H1|exact H2].
Qed.
Print Assumptions C87_idset_partial.

(** A queue that was moved from claims to have its elements, which are elsewhere now; and clear, which should make
    it usable, reads from an empty vector. *)
Theorem C87_moved_queue_refuted : exists p, fst <$> queue_run ∅ (p ++ [CCall 0 QCount; CCall 0 (QOp OSize); CCall 0 (QOp OEmpty)]) =
    Some [None; Some RUnit; None; Some (RNat 0); Some (RNat 1); Some (RBool false)] /\
  queue_run ∅ (p ++ [CCall 0 (QOp OClear)]) = None /\ queue_run ∅ (p ++ [CCall 0 (QOp OPeek)]) = None.
Proof. exists [CNew 0 5; CCall 0 (QOp (OPush 3 7)); CMove 1 0]. split_and!; vm_compute; reflexivity. Qed.
Print Assumptions C87_moved_queue_refuted.
(** An empty IDSetMinQueue that was moved from has still its number of ids, but nothing can be pushed; one with
    elements shows them. *)
Theorem C87_moved_idset_refuted : forall asserts g, exists p,
  fst <$> idset_run asserts g ∅ (p ++ [CCall 0 SCount; CCall 0 (SOp SEmpty); CCall 1 SCount; CCall 1 (SOp SPeek)]) =
    Some [None; None; Some (inl TUnit); None; None; Some (inr 5); Some (inl (TBool true)); Some (inr 4); Some (inl (TId (Some 3)))] /\
  idset_run asserts g ∅ (p ++ [CCall 0 (SOp (SPush 3))]) = None /\ idset_run asserts g ∅ (p ++ [CCall 1 (SOp SClear)]) = None.
Proof. intros asserts g. exists [CNew 0 5; CNew 1 4; CCall 1 (SOp (SPush 3)); CMove 2 0; CMove 3 1]. destruct asserts; split_and!; vm_compute; reflexivity. Qed.
Print Assumptions C87_moved_idset_refuted.
(** A default constructed IDSetMinQueue may or may not say that it is empty. *)
Theorem C87_default_idset_refuted : exists g g', fst <$> idset_run true g ∅ [CDefault 0; CCall 0 (SOp SEmpty)] <> fst <$> idset_run true g' ∅ [CDefault 0; CCall 0 (SOp SEmpty)].
Proof. exists (mkIdset 0 None 1 []), (mkIdset 0 (Some 4) 1 []). vm_compute. done. Qed.
Print Assumptions C87_default_idset_refuted.

(** Non-trivial programs: a copy is independent of its original, moving and swapping take the elements along, a queue that was
    moved from while empty is usable, and one that was not may be assigned. *)
Example C87_ex_queue : fst <$> queue_run ∅
  [CNew 0 5; CCall 0 (QOp (OPush 3 7)); CCopy 1 0; CCall 1 (QOp (OPush 2 1)); CCall 0 (QOp OPop); CCall 0 (QOp OEmpty); CCall 1 (QOp OPop); CMove 2 1;
   CNew 1 4; CSwap 1 2; CCall 1 (QOp (OGetKey 3)); CCall 2 QCount; CMove 3 0; CCall 0 QCount; CCall 0 (QOp OClear); CCall 3 QCount; CDefault 3; CCall 3 (QOp OEmpty)] =
  Some [None; Some RUnit; None; Some RUnit; Some (RPair 3 7); Some (RBool true); Some (RPair 2 1); None;
   None; None; Some (RKey 7); Some (RNat 4); None; Some (RNat 0); Some RUnit; Some (RNat 5); None; Some (RBool true)].
Proof. vm_compute. reflexivity. Qed.
Example C87_ex_flags : forall g, fst <$> flags_run g ∅
  [CDefault 0; CNew 1 3; CCall 1 (FOp (FSet 2)); CCopy 0 1; CCall 1 (FOp FResetAll); CCall 0 (FIsSet 2); CCall 1 (FIsSet 2); CMove 2 0; CCall 2 (FIsSet 2);
   CSwap 1 2; CCall 1 (FIsSet 2); CCall 2 (FIsSet 2)] =
  Some [None; None; Some None; None; Some None; Some (Some true); Some (Some false); None; Some (Some true); None; Some (Some true); Some (Some false)].
Proof. intros g. vm_compute. reflexivity. Qed.
Example C87_ex_idset : forall asserts g, fst <$> idset_run asserts g ∅
  [CDefault 0; CNew 1 5; CCall 1 (SOp (SPush 3)); CCall 1 (SOp (SPush 1)); CCopy 0 1; CCall 0 (SOp SPop); CCall 1 (SOp SPeek); CMove 2 0; CSwap 2 1;
   CCall 1 (SOp SPop); CCall 2 (SOp (SContains 1)); CNew 0 2; CCall 0 SCount] =
  Some [None; None; Some (inl TUnit); Some (inl TUnit); None; Some (inl (TId (Some 1))); Some (inl (TId (Some 1))); None; None;
   Some (inl (TId (Some 3))); Some (inl (TBool true)); None; Some (inr 2)].
Proof. intros asserts g. destruct asserts; vm_compute; reflexivity. Qed.
