(** * C85: how long a mapper of ids may be used *)
From stdpp Require Import gmap.
From Verif Require Import Base BitVectorModel BitVectorSpec BitMemoryModel BitMemorySpec BitMemoryProofs Properties_BitMemory BitVectorBulkProofs IdMapperModel IdMapperProofs MapperMemoryModel MapperMemorySpec MapperMemoryProofs Properties_IdMapper.
Ltac Zify.zify_post_hook ::= idtac.

(** A mapper is made for the vector in variable [i] at any point of a program. Whatever the program does next, with or without exceptions, as long as
    the bits are not changed and the vector is moved, swapped or left alone, the mapper answers what it should.
    Missing: the operations that C80 leaves out. *)
Theorem C85_survives_partial : forall alloc garbage n os threw s A i l,
  allocator alloc -> words_of_memory garbage ->
  executes alloc garbage (mkBmem ∅ (replicate n None)) os threw s -> mean os threw (replicate n None) = Some A -> val A i = Some l ->
  exists m, make_mapper s i = Some m /\
    forall os' threw' s' A' k, executes alloc garbage s os' threw' s' -> mean os' threw' A = Some A' -> follow_all os' threw' i = Some k ->
      val A' k = Some l /\ p_local_id_count m = count_true l /\ p_count m = length l /\
      (forall g, g < length l -> p_is_mapped (heap s') m g = Some (nth g l false)) /\
      (forall g, nth g l false = true -> p_to_local (heap s') m g = Some (count_true (take g l)) /\ p_to_global (heap s') m (count_true (take g l)) = Some g) /\
      (forall g d, p_to_local_or (heap s') m g d = Some (if nth g l false then Some (count_true (take g l)) else d)).
Proof.
  intros alloc garbage n os threw s A i l Ha Hg He Hm Hv.
  assert (holds s A) as H by (eapply executes_spec; [done|done|apply holds_start|done|done]).
  destruct (make_mapper_spec s A i l H Hv) as (o & v & m0 & Hi & Hw & Hr & Em & Ep & Hd).
  eexists. split; [exact Ep|]. intros os' threw' s' A' k He' Hm' Hf.
  destruct (executes_follow alloc garbage s os' threw' s' A A' i k o Ha Hg H He' Hm' Hf Hi) as [Hk Hh].
  assert (holds s' A') as H' by (eapply executes_spec; [done|done|exact H|done|done]).
  assert (view (heap s') o = Some v) as Hw' by (rewrite (view_same (heap s)); [done|exact Hh]).
  destruct (C06_id_mapper v l Hr) as (m1 & Em1 & C1 & C2 & C3 & C4 & _ & C5). rewrite Em in Em1. injection Em1 as <-.
  unfold p_is_mapped, p_to_local, p_to_global, p_to_local_or. rewrite (Hd _ Hh).
  split; [|done].
  assert (k < length A') as L. { rewrite <- (holds_length _ _ H'). by apply lookup_lt_Some in Hk. }
  apply lookup_lt_is_Some in L as [[l'|] Hl'].
  - destruct (holds_value _ _ H' k o l' Hk Hl') as (v' & Ev & Hr'). rewrite Hw' in Ev. injection Ev as <-. apply val_Some. by rewrite (rep_inj _ _ _ Hr Hr').
  - apply (holds_dead _ _ H') in Hl'. congruence.
Qed.
Print Assumptions C85_survives_partial.

(** ** Example *)
(** Every third of 600 bits *)
Definition start_program : list vop := [VMake 0 600 (fun x => x mod 3 =? 1); VNew 1 40 true].
(** The vector is copied, moved, swapped, and is assigned to itself by moving. *)
Definition careful_program : list vop := [VCopy 2 0; VMove 3 0; VSwap 3 1; VResize 3 100 false; VDestroy 2; VNew 2 4000 false; VAssignMove 1 1; VAssignMove 0 1].
(** The memory after a program *)
Definition after (os : list vop) : bmem := match run ex_alloc ex_garbage os (mkBmem ∅ (replicate 4 None)) with Some (_, s) => s | None => mkBmem ∅ [] end.
Definition start_mapper : pmapper := match make_mapper (after start_program) 0 with Some m => m | None => mkPmapper None 0 [] [] end.
Example C85_ex :
  executes ex_alloc ex_garbage (mkBmem ∅ (replicate 4 None)) start_program [false; false] (after start_program) /\
  (exists A, mean start_program [false; false] (replicate 4 None) = Some A /\ val A 0 = Some ((fun x => x mod 3 =? 1) <$> seq 0 600)) /\
  make_mapper (after start_program) 0 = Some start_mapper /\
  executes ex_alloc ex_garbage (after start_program) careful_program [false; false; false; false; false; true; false; false] (after (start_program ++ careful_program)) /\
  is_Some (mean (start_program ++ careful_program) [false; false; false; false; false; false; false; true; false; false] (replicate 4 None)) /\
  follow_all careful_program [false; false; false; false; false; true; false; false] 0 = Some 0 /\
  p_to_local (heap (after (start_program ++ careful_program))) start_mapper 520 = Some 173 /\
  p_to_global (heap (after (start_program ++ careful_program))) start_mapper 173 = Some 520.
Proof.
  split; [apply run_executes; vm_compute; reflexivity|]. split; [eexists; split; vm_compute; reflexivity|]. split; [vm_compute; reflexivity|].
  split; [apply run_executes; vm_compute; reflexivity|]. split; [by eexists; vm_compute|]. split; [reflexivity|]. split; vm_compute; reflexivity.
Qed.

(** ** What a mapper does not survive *)
(** A bit is set: two bits of the vector have the same number. *)
Theorem C85_change_refuted : exists m s A l g g',
  make_mapper (after start_program) 0 = Some m /\
  executes ex_alloc ex_garbage (mkBmem ∅ (replicate 4 None)) (start_program ++ [VInplace 0 (IBit (OSet 0))]) [false; false; false] s /\
  mean (start_program ++ [VInplace 0 (IBit (OSet 0))]) [false; false; false] (replicate 4 None) = Some A /\ val A 0 = Some l /\
  nth g l false = true /\ nth g' l false = true /\ g <> g' /\ p_to_local (heap s) m g = Some 171 /\ p_to_local (heap s) m g' = Some 171.
Proof.
  exists start_mapper, (after (start_program ++ [VInplace 0 (IBit (OSet 0))])).
  exists [Some (<[0 := true]> ((fun x => x mod 3 =? 1) <$> seq 0 600)); Some (replicate 40 true); None; None], (<[0 := true]> ((fun x => x mod 3 =? 1) <$> seq 0 600)), 511, 514.
  split; [vm_compute; reflexivity|]. split; [apply run_executes; vm_compute; reflexivity|]. split; [vm_compute; reflexivity|]. split; [reflexivity|].
  split; [vm_compute; reflexivity|]. split; [vm_compute; reflexivity|]. split; [done|]. split; vm_compute; reflexivity.
Qed.
Print Assumptions C85_change_refuted.
(** Operations after which the mapper reads memory that was freed. The first one, an assignment of the vector to itself, leaves its value as it was. *)
Theorem C85_dangling_refuted : exists m, make_mapper (after start_program) 0 = Some m /\ 5 < p_count m /\
  Forall (fun o => exists s A,
    executes ex_alloc ex_garbage (mkBmem ∅ (replicate 4 None)) (start_program ++ [o]) [false; false; false] s /\
    mean (start_program ++ [o]) [false; false; false] (replicate 4 None) = Some A /\ p_is_mapped (heap s) m 5 = None)
    [VAssign 0 0; VResize 0 1500 false; VDestroy 0].
Proof.
  exists start_mapper. split; [vm_compute; reflexivity|]. split; [apply Nat.ltb_lt; vm_compute; reflexivity|].
  apply Forall_forall. intros o Ho.
  assert (exists A, mean (start_program ++ [o]) [false; false; false] (replicate 4 None) = Some A) as [A HA].
  { rewrite !elem_of_cons, elem_of_nil in Ho. destruct Ho as [-> |[-> |[-> |[]]]]; eexists; vm_compute; reflexivity. }
  exists (after (start_program ++ [o])), A. split; [|split; [exact HA|]].
  - clear HA. rewrite !elem_of_cons, elem_of_nil in Ho. destruct Ho as [-> |[-> |[-> |[]]]]; apply run_executes; vm_compute; reflexivity.
  - clear HA. rewrite !elem_of_cons, elem_of_nil in Ho. destruct Ho as [-> |[-> |[-> |[]]]]; vm_compute; reflexivity.
Qed.
Print Assumptions C85_dangling_refuted.
