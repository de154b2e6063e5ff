(** C39: cuts found by BlockingFlow are minimum cuts. *)
From Verif Require Import Base UtilSpec GraphSpec FlowModel FlowSpec FlowArray FlowNetProofs FlowCutProofs FlowSearchProofs.

Ltac Zify.zify_post_hook ::= idtac.

Section C39.
  Context (g : fragment) (source target garbage : list bool) (asserts : bool).
  Context (Hok : fragment_ok g) (Hst : flow_start g source target) (Hg : length garbage = fr_arcs g).

  Lemma advances_ok k f : fl_ok g source target f ->
    exists f', advances g asserts k f = Some f' /\ fl_ok g source target f' /\ (f_finished f' = true \/ f_finished f' = false /\ f_intensity f + k <= f_intensity f').
  Proof.
    revert f. induction k as [|k IH]; intros f H; cbn [advances].
    - exists f. split; [done|]. split; [done|]. destruct (f_finished f); [auto|]. right. split; [done|lia].
    - destruct (advance_spec g Hok source target Hst asserts f H) as (f1 & Hf1 & H1 & Hor & _). rewrite Hf1, bind_S.
      destruct (IH f1 H1) as (f2 & Hf2 & H2 & Hor2). exists f2. split; [done|]. split; [done|].
      destruct Hor2 as [?|[E2 Hle]]; [auto|]. right. split; [done|]. destruct Hor as [E1|[_ Hlt]]; [|lia]. exfalso.
      clear - E1 Hf2 E2. revert f1 E1 Hf2. induction k as [|k IHk]; intros f1 E1 Hf2; cbn [advances] in Hf2; [congruence|].
      unfold advance in Hf2. rewrite E1, bind_S in Hf2. by eapply IHk.
  Qed.

  (** Every sequence of calls of advance is defined, also with assertions. The flow never exceeds a cut. After arc_count + 1 calls it is finished. *)
  Theorem C39_advance k :
    exists f, advances g asserts k (make_flow g source target garbage) = Some f /\
      (forall S, separates g S source target -> f_intensity f <= cut_arcs g S) /\
      (fr_arcs g < k -> f_finished f = true).
  Proof.
    destruct (advances_ok k _ (make_flow_ok g source target garbage Hg)) as (f & Hf & H & Hor). exists f. split; [done|]. split.
    - intros S HS. by eapply intensity_le.
    - intros Hk. destruct Hor as [?|[_ Hle]]; [done|]. pose proof (intensity_le_m g source target Hst f H). cbn in Hle. lia.
  Qed.

  Lemma reached k f : advances g asserts k (make_flow g source target garbage) = Some f -> fl_ok g source target f.
  Proof. intros Hf. destruct (advances_ok k _ (make_flow_ok g source target garbage Hg)) as (f' & Hf' & H & _). congruence. Qed.

  Theorem C39_source_cut k f : advances g asserts k (make_flow g source target garbage) = Some f -> f_finished f = true ->
    exists c, get_source_cut g asserts f = Some c /\ minimum_cut g source target c.
  Proof. intros Hf Hfin. eapply source_cut_spec; [exact Hok|exact Hst|by eapply reached|done]. Qed.

  Theorem C39_target_cut k f : advances g asserts k (make_flow g source target garbage) = Some f -> f_finished f = true ->
    exists c, get_target_cut g asserts f = Some c /\ minimum_cut g target source c.
  Proof. intros Hf Hfin. eapply target_cut_spec; [exact Hok|exact Hst|by eapply reached|done]. Qed.

  (** The balanced cut is either the side of the sources or that of the targets. *)
  Theorem C39_balanced_cut k f : advances g asserts k (make_flow g source target garbage) = Some f -> f_finished f = true ->
    exists c, get_balanced_cut g asserts f = Some c /\ (minimum_cut g source target c \/ minimum_cut g target source c).
  Proof. intros Hf Hfin. eapply balanced_cut_spec; [exact Hok|exact Hst|by eapply reached|done]. Qed.
End C39.

Lemma minimum_cut_sym g A B c : fragment_ok g -> length A = fr_nodes g -> length B = fr_nodes g -> minimum_cut g A B c ->
  minimum_cut g B A (mkCut (length (c_side c) - c_count c) (c_size c) (negb <$> c_side c)).
Proof.
  intros Hok HA HB (H1 & H2 & H3 & H4). pose proof H1 as (Hl & _ & _). split; cbn [c_side c_size c_count].
  - by apply separates_negb.
  - split; [by rewrite cut_arcs_negb|]. split.
    + intros S HS. pose proof HS as (HSl & _ & _). rewrite <- (cut_arcs_negb g Hok S HSl). by apply H3, separates_negb.
    + rewrite H4, Hl. clear - Hl.
      assert (forall k, k <= fr_nodes g -> length (filter (fun x => node_in (c_side c) x = true) (seq 0 k)) + length (filter (fun x => node_in (negb <$> c_side c) x = true) (seq 0 k)) = k) as H.
      { intros k. induction k as [|k IH]; intros Hk; [done|]. rewrite <- Nat.add_1_r. rewrite !seq_app, !filter_app, !app_length.
        change (seq (0 + k) 1) with [k]. rewrite !filter_cons, !filter_nil. rewrite (node_in_negb _ k) by lia.
        specialize (IH ltac:(lia)). destruct (node_in (c_side c) k); cbn [negb].
        - rewrite (decide_True (P := true = true)) by done. rewrite (decide_False (P := false = true)) by done. cbn [length]. lia.
        - rewrite (decide_True (P := true = true)) by done. rewrite (decide_False (P := false = true)) by done. cbn [length]. lia. }
      specialize (H (fr_nodes g) ltac:(lia)). lia.
Qed.

(** pick_smaller_side keeps the cut and gives at most half of the nodes. *)
Theorem C39_smaller_side g A B c : fragment_ok g -> length A = fr_nodes g -> length B = fr_nodes g -> minimum_cut g A B c ->
  (minimum_cut g A B (pick_smaller_side c) \/ minimum_cut g B A (pick_smaller_side c)) /\ 2 * c_count (pick_smaller_side c) <= fr_nodes g.
Proof.
  intros Hok HA HB H. pose proof H as ((Hl & _) & _). unfold pick_smaller_side. cbv zeta. rewrite Hl.
  pose proof (Nat.div_mod_eq (fr_nodes g + 1) 2). pose proof (Nat.mod_upper_bound (fr_nodes g + 1) 2 ltac:(lia)).
  destruct ((fr_nodes g + 1) / 2 <=? c_count c) eqn:E.
  - apply Nat.leb_le in E. split; [right; rewrite <- Hl; by apply minimum_cut_sym|]. cbn [c_count]. lia.
  - apply Nat.leb_gt in E. split; [by left|]. lia.
Qed.

(** Two triangles 0 1 2 and 3 4 5 and the edges 2-3 and 1-4. *)
Definition flow_example : fragment := mkFragment [0; 1; 2; 3; 4; 5] [0; 2; 5; 8; 11; 14; 16]
  [0; 0; 1; 1; 1; 2; 2; 2; 3; 3; 3; 4; 4; 4; 5; 5] [1; 2; 0; 2; 4; 0; 1; 3; 2; 4; 5; 1; 3; 5; 3; 4] [2; 5; 0; 6; 11; 1; 3; 8; 7; 12; 14; 4; 9; 15; 10; 13].
Definition flow_example_s : list bool := [true; false; false; false; false; false].
Definition flow_example_t : list bool := [false; false; false; false; false; true].

Example flow_example_start : flow_start flow_example flow_example_s flow_example_t.
Proof.
  split; [done|]. split; [done|]. intros x Hx. destruct x as [|x]; [done|]. exfalso.
  do 5 (destruct x as [|x]; [by vm_compute in Hx|]). by vm_compute in Hx.
Qed.
Example flow_example_cut :
  (f ← advances flow_example true 17 (make_flow flow_example flow_example_s flow_example_t (replicate 16 true)); get_balanced_cut flow_example true f)
  = Some (mkCut 3 2 [true; true; true; false; false; false]).
Proof. by vm_compute. Qed.
Example flow_example_source_cut :
  (f ← advances flow_example true 17 (make_flow flow_example flow_example_s flow_example_t (replicate 16 true)); get_source_cut flow_example true f)
  = Some (mkCut 1 2 flow_example_s).
Proof. by vm_compute. Qed.
Example flow_example_ok : fragment_ok flow_example.
Proof.
  split.
  - split; try done.
    + intros i lo hi. do 7 (destruct i as [|i]; [intros [= <-] [= <-]; lia|]). done.
    + intros x Hx. assert (Forall (fun x => x < 6) (fr_head flow_example)) as H by (repeat constructor; lia). rewrite Forall_forall in H. by apply H.
  - done.
  - intros x a. split.
    + do 16 (destruct a as [|a]; [intros [= <-]; eexists _, _; split; [done|]; split; [done|]; lia|]). done.
    + intros (lo & hi & Hlo & Hhi & Hr). do 6 (destruct x as [|x]; [injection Hlo as <-; injection Hhi as <-; do 16 (destruct a as [|a]; [done || (exfalso; lia)|]); exfalso; lia|]). destruct x; done.
  - done.
  - intros a b. do 16 (destruct a as [|a]; [by intros [= <-]|]). done.
  - intros a b. do 16 (destruct a as [|a]; [by intros [= <-]|]). done.
Qed.

Print Assumptions C39_advance.
Print Assumptions C39_source_cut.
Print Assumptions C39_target_cut.
Print Assumptions C39_balanced_cut.
Print Assumptions C39_smaller_side.
