(** C41: saturated addition. *)
From Verif Require Import Base SaturatedModel.
Open Scope Z_scope.
Ltac Zify.zify_post_hook ::= Z.div_mod_to_equations.

(** Unsigned weights up to inf_weight (2147483647): the smaller of sum and inf_weight. *)
Theorem C41_unsigned (asserts : bool) (l r : Z) : 0 <= l <= 2147483647 -> 0 <= r <= 2147483647 ->
  sat_unsigned asserts l r = Some (Z.min (l + r) 2147483647).
Proof.
  intros Hl Hr. unfold sat_unsigned, uadd, usub, uint_max, int_max. rewrite !(bool_decide_true (_ <= 2147483647)) by lia. cbn [andb negb]. rewrite andb_false_r.
  rewrite Z.mod_small by lia. case_bool_decide; [f_equal; lia|]. rewrite Z.mod_small by lia. f_equal. lia.
Qed.
Print Assumptions C41_unsigned.
(** Larger unsigned values abort with assertions. Without, the function does not saturate. *)
Theorem C41_large_refuted : exists l r, 0 <= l <= 4294967295 /\ 0 <= r <= 4294967295 /\
  sat_unsigned true l r = None /\ exists s, sat_unsigned false l r = Some s /\ s <> Z.min (l + r) 2147483647.
Proof. exists 5, 3000000000. split; [lia|]. split; [lia|]. split; [reflexivity|]. eexists. split; [vm_compute; reflexivity|]. lia. Qed.
Print Assumptions C41_large_refuted.

(** Signed integers: the exact sum clamped to the range; no overflow in between. *)
Theorem C41_signed (l r : Z) : -2147483648 <= l <= 2147483647 -> -2147483648 <= r <= 2147483647 ->
  sat_signed l r = Some (Z.max (-2147483648) (Z.min (l + r) 2147483647)).
Proof.
  intros Hl Hr. unfold sat_signed, sint, int_min, int_max. case_bool_decide.
  - rewrite (bool_decide_true (_ <= 2147483647 - l <= _)) by lia. cbn [mbind option_bind]. case_bool_decide; [f_equal; lia|]. rewrite bool_decide_true by lia. f_equal. lia.
  - rewrite (bool_decide_true (_ <= -2147483648 - l <= _)) by lia. cbn [mbind option_bind]. case_bool_decide; [f_equal; lia|]. rewrite bool_decide_true by lia. f_equal. lia.
Qed.
Print Assumptions C41_signed.

(** Algebra of the unsigned variant. *)
Definition weight (l : Z) : Prop := 0 <= l <= 2147483647.
Theorem C41_closed a l r : weight l -> weight r -> exists s, sat_unsigned a l r = Some s /\ weight s.
Proof. unfold weight. intros Hl Hr. rewrite C41_unsigned by lia. eexists. split; [done|]. lia. Qed.
Print Assumptions C41_closed.
Theorem C41_comm a l r : weight l -> weight r -> sat_unsigned a l r = sat_unsigned a r l.
Proof. unfold weight. intros Hl Hr. rewrite !C41_unsigned by lia. f_equal. lia. Qed.
Print Assumptions C41_comm.
Theorem C41_assoc a x y z : weight x -> weight y -> weight z ->
  (s ← sat_unsigned a x y; sat_unsigned a s z) = (s ← sat_unsigned a y z; sat_unsigned a x s).
Proof. unfold weight. intros Hx Hy Hz. rewrite !C41_unsigned by lia. cbn [mbind option_bind]. rewrite !C41_unsigned by lia. f_equal. lia. Qed.
Print Assumptions C41_assoc.
Theorem C41_monotone a x x' y y' s s' : weight x -> weight x' -> weight y -> weight y' -> x <= x' -> y <= y' ->
  sat_unsigned a x y = Some s -> sat_unsigned a x' y' = Some s' -> s <= s'.
Proof. unfold weight. intros ????? ?. rewrite !C41_unsigned by lia. intros [= <-] [= <-]. lia. Qed.
Print Assumptions C41_monotone.
(** The signed variant is commutative but, with mixed signs, not associative. *)
Theorem C41_signed_assoc_refuted : exists x y z, (s ← sat_signed x y; sat_signed s z) <> (s ← sat_signed y z; sat_signed x s).
Proof. exists 2147483647, 1, (-1). vm_compute. congruence. Qed.
Print Assumptions C41_signed_assoc_refuted.
Theorem C41_signed_comm l r : -2147483648 <= l <= 2147483647 -> -2147483648 <= r <= 2147483647 -> sat_signed l r = sat_signed r l.
Proof. intros Hl Hr. rewrite !C41_signed by lia. f_equal. lia. Qed.
Print Assumptions C41_signed_comm.

Example C41_ex : weight 2000000000 /\ sat_unsigned true 2000000000 2000000000 = Some 2147483647 /\ sat_unsigned true 20 22 = Some 42 /\
  sat_signed (-2147483648) (-1) = Some (-2147483648) /\ sat_signed (-2147483648) 2147483647 = Some (-1) /\ sat_signed 2147483647 1 = Some 2147483647.
Proof. unfold weight. repeat split; try lia; vm_compute; reflexivity. Qed.
