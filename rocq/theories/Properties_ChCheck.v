(** Theorems about the construction of contraction hierarchies and check_contraction_hierarchy_for_errors. *)
From Verif Require Import Base UtilSpec GraphSpec PathSpec PermutationModel PermutationProofs ChCleanSpec ChBuildModel ChSpec ChBuildProofs ChCheckModel ChCheckSpec ChCheckProofs ChQueryModel ChApiSpec ChApiProofs
  CchModel Properties_ChQuery Properties_CchPerfect WalkSpec.
Ltac Zify.zify_post_hook ::= idtac.

(** * C45 *)
(** If the order is a permutation the check reads and writes no array out of bounds and accepts
    exactly the hierarchies that satisfy the conditions of [ch_valid]. *)
Theorem C45_check : forall c, perm (ch_order c) -> exists ok, check_ch c = Some ok /\ (ok = true <-> ch_valid c).
Proof. apply check_ch_spec. Qed.
Print Assumptions C45_check.

(** Hierarchies made by the library pass. *)
Theorem C45_constructed : forall n tail head w c, ch_of n tail head w c -> (N.of_nat (length tail) <= last_id)%N -> check_ch c = Some true.
Proof.
  intros n tail head w c HC Hid. destruct HC as (Ha & Hc & W1 & W2). pose proof (constructed_ok _ _ _ _ _ Ha Hc) as Hok.
  assert (perm (ch_order c)) as Hp by apply Hok. destruct (check_ch_spec c Hp) as (ok & -> & H). f_equal. apply H.
  assert (forall l, Forall (fun x => (x <= inf_weight)%N) l -> Forall (fun x => (x < 4294967296)%N) l) as Hword.
  { intros l Hf. eapply Forall_impl; [exact Hf|]. unfold inf_weight. cbn. intros. lia. }
  eapply ok_valid; [exact Hok|by apply Hword|by apply Hword|done].
Qed.
Print Assumptions C45_constructed.

(** Without the condition it is wrong: that the order is a permutation is only asserted, in a function that
    inverts it. This hierarchy of two nodes without arcs passes although node 1 is not in the order, and an
    order with an id that is too large leads to a write past the end of an array. *)
Definition lone_side : chside := mkChside [0;0;0] [] [] [] [] [].
Theorem C45_order_refuted : exists c c', ~ perm (ch_order c) /\ ~ ch_valid c /\ check_ch c = Some true /\ check_ch c' = None.
Proof.
  exists (mkCh [1;0] [0;0] lone_side lone_side), (mkCh [0;1] [0;2] lone_side lone_side). split; [|split; [|split; vm_compute; reflexivity]].
  - intros Hp. pose proof (perm_inj _ 0 1 0 Hp eq_refl eq_refl). done.
  - intros [[_ H] _ _ _]. cbn in H. specialize (H 0 0). cbn in H. destruct H as [H _]. specialize (H eq_refl). done.
Qed.
Print Assumptions C45_order_refuted.

(** The hierarchies of C29 and C28 pass; a weight that is off by one, a downward arc and a shortcut to a later arc do not. *)
Definition with_fwd (c : ch) (f : chside) : ch := mkCh (ch_rank c) (ch_order c) f (ch_bwd c).
Example C45_ex : check_ch ex_ch = Some true /\ check_ch pe_ch = Some true /\ ch_of 6 ex_ch_tail ex_ch_head ex_ch_w ex_ch /\
  check_ch (with_fwd pe_ch (mkChside [0;1;2;4;5;5] [4;3;3;4;4] [1;4;6;9;10]%N [true;true;true;false;false] [3;0;8;0;2] [4;1;1;0;3])) = Some false /\
  check_ch (with_fwd pe_ch (mkChside [0;1;2;4;5;5] [4;3;2;4;4] [1;4;6;8;10]%N [true;true;true;false;false] [3;0;8;0;2] [4;1;1;0;3])) = Some false /\
  check_ch (with_fwd pe_ch (mkChside [0;1;2;4;5;5] [4;3;3;4;4] [1;4;6;8;10]%N [true;true;true;false;false] [3;0;8;0;2] [4;1;1;0;4])) = Some false.
Proof. split; [vm_compute; reflexivity|]. split; [vm_compute; reflexivity|]. split; [apply ex_ch_of|]. split; [|split]; vm_compute; reflexivity. Qed.

(** * C46 *)
(** Every order in which nodes can be contracted gives a hierarchy in which every walk of the graph, however
    long, can be replaced by one that goes up and then down and is not longer, and every arc of which stands for an input arc or two
    arcs at a lower node. No assertion fails on the way. *)
Theorem C46_build : forall asserts max_pop n tail head w, arc_list n tail head w ->
  exists c, ch_build asserts max_pop n tail head w = Some c /\ ch_full n tail head w c.
Proof. apply ch_build_ok. Qed.
Print Assumptions C46_build.
Theorem C46_build_given_rank : forall asserts max_pop rank tail head w, perm rank -> arc_list (length rank) tail head w ->
  exists c, ch_build_given_rank asserts max_pop rank tail head w = Some c /\ ch_rank c = rank /\ ch_full (length rank) tail head w c.
Proof. apply ch_build_given_rank_ok. Qed.
Print Assumptions C46_build_given_rank.
Theorem C46_build_given_order : forall asserts max_pop order tail head w, perm order -> arc_list (length order) tail head w ->
  exists c, ch_build_given_order asserts max_pop order tail head w = Some c /\ inverse_of order (ch_rank c) /\ ch_full (length order) tail head w c.
Proof. apply ch_build_given_order_ok. Qed.
Print Assumptions C46_build_given_order.
Example C46_ex : arc_list 6 ex_ch_tail ex_ch_head ex_ch_w /\ ch_build_given_order true 10 [3;0;2;1;4;5] ex_ch_tail ex_ch_head ex_ch_w = Some ex_ch /\
  exists c, ch_build true 10 6 ex_ch_tail ex_ch_head ex_ch_w = Some c /\ ch_order c <> ch_order ex_ch.
Proof.
  split; [apply ex_ch_of|]. split; [vm_compute; reflexivity|]. eexists. split; [vm_compute; reflexivity|]. vm_compute. discriminate.
Qed.
