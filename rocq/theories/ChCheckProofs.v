(** The check accepts exactly the hierarchies that satisfy [ch_valid]. *)
From Verif Require Import Base UtilSpec GraphSpec PermutationModel PermutationProofs CchModel ChBuildModel ChCleanSpec ChSpec ChCheckModel ChCheckSpec.
Ltac Zify.zify_post_hook ::= idtac.

Lemma is_sorted_spec v : is_sorted v = true <-> forall i x y, v !! i = Some x -> v !! S i = Some y -> x <= y.
Proof.
  induction v as [|x v IH]; cbn [is_sorted]; [split; [|done]; intros _ i a b Ha; done|]. destruct v as [|y r]; [split; [|done]; intros _ [|i] a b; done|].
  rewrite andb_true_iff, bool_decide_eq_true, IH. split.
  - intros [Hxy H] [|i] a b; cbn; [intros [= <-] [= <-]; done|]. apply (H i).
  - intros H. split; [by apply (H 0)|]. intros i a b. apply (H (S i)).
Qed.

Lemma check_arrays_spec n sd : check_arrays n sd = true <->
  csr n (cs_first_out sd) (cs_head sd) /\ length (cs_weight sd) = length (cs_head sd) /\ length (cs_orig sd) = length (cs_head sd) /\
  length (cs_first sd) = length (cs_head sd) /\ length (cs_second sd) = length (cs_head sd).
Proof.
  unfold check_arrays. rewrite !andb_true_iff, !bool_decide_eq_true, is_sorted_spec, forallb_forall. split.
  - intros ((((((((H1 & H2) & H3) & H4) & H5) & H6) & H7) & H8) & H9). split; [|done]. split; try done.
    intros x Hx. apply elem_of_list_In in Hx. by apply H9, bool_decide_eq_true in Hx.
  - intros ([] & ? & ? & ? & ?). repeat split; try done. intros x Hx. apply bool_decide_eq_true. apply elem_of_list_In in Hx. auto.
Qed.

(** A conjunction over a range. *)
Lemma for_all_range (P : nat -> Prop) (f : nat -> bool) body lo hi :
  lo <= hi -> (forall i ok, lo <= i < hi -> body i ok = Some (ok && f i)) -> (forall i, lo <= i < hi -> f i = true <-> P i) ->
  forall ok, exists ok', for_range lo hi body ok = Some ok' /\ (ok' = true <-> ok = true /\ forall i, lo <= i < hi -> P i).
Proof.
  intros Hlo Hb Hf ok.
  destruct (for_range_inv (fun i ok' => (ok' = true <-> ok = true /\ forall j, lo <= j < i -> P j)) body lo hi ok Hlo) as (ok' & -> & H).
  - split; [|tauto]. intros ->. split; [done|]. lia.
  - intros i o Hi Ho. rewrite (Hb i o Hi). eexists. split; [done|]. rewrite andb_true_iff, Ho, Hf by done. split.
    + intros [[-> H] H']. split; [done|]. intros j Hj. destruct (decide (j = i)) as [->|]; [done|]. apply H. lia.
    + intros [-> H]. split; [|apply H; lia]. split; [done|]. intros j Hj. apply H. lia.
  - eauto.
Qed.

Lemma check_upward_spec n sd : csr n (cs_first_out sd) (cs_head sd) -> length (cs_weight sd) = length (cs_head sd) ->
  exists ok, check_upward n sd = Some ok /\ (ok = true <-> forall e x y w, sarc sd e x y w -> x < y).
Proof.
  intros Hc Hw. unfold check_upward.
  destruct (for_range_inv (fun i ok => ok = true <-> forall e x y w, x < i -> sarc sd e x y w -> x < y)
    (fun x ok => lo ← cs_first_out sd !! x; hi ← cs_first_out sd !! S x;
       for_range lo hi (fun xy ok => y ← cs_head sd !! xy; Some (ok && bool_decide (x < y))) ok) 0 n true) as (ok & -> & H); [lia| | |].
  - split; [|done]. intros _ e x y w Hx. lia.
  - intros x ok Hx Hok. destruct (csr_range _ _ _ x Hc) as (lo & hi & Hlo & Hhi & Hle); [lia|]. rewrite Hlo, bind_S, Hhi, bind_S.
    destruct (for_all_range (fun e => forall y, cs_head sd !! e = Some y -> x < y)
      (fun e => match cs_head sd !! e with Some y => bool_decide (x < y) | None => false end)
      (fun xy ok => y ← cs_head sd !! xy; Some (ok && bool_decide (x < y))) lo hi) with (ok := ok) as (ok' & -> & H); [lia| | |].
    + intros e o He. destruct (lookup_lt_is_Some_2 (cs_head sd) e) as [y ->]; [lia|]. done.
    + intros e He. destruct (lookup_lt_is_Some_2 (cs_head sd) e) as [y Hy]; [lia|]. rewrite Hy, bool_decide_eq_true. split; [by intros ? ? [= <-]|auto].
    + eexists. split; [done|]. rewrite H, Hok. split.
      * intros [H1 H2] e x' y w Hx' Ha. destruct (decide (x' = x)) as [->|]; [|eapply H1; [|done]; lia].
        destruct Ha as ((lo' & hi' & E1 & E2 & He) & Hy & _). rewrite Hlo in E1. rewrite Hhi in E2. injection E1 as <-. injection E2 as <-. by eapply H2.
      * intros H1. split; [intros e x' y w Hx'; apply H1; lia|]. intros e He y Hy. destruct (lookup_lt_is_Some_2 (cs_weight sd) e) as [w Hwe]; [apply lookup_lt_Some in Hy; lia|].
        apply (H1 e x y w); [lia|]. split; [|done]. by exists lo, hi.
  - eexists. split; [done|]. rewrite H. split; [|eauto]. intros H1 e x y w Ha. apply (H1 e x y w); [|done].
    destruct Ha as [Ha _]. by destruct (out_arc_lt _ _ _ _ _ Hc Ha).
Qed.

Lemma check_entry_spec n f b (d : bool) e : side_ok n f -> side_ok n b -> e < length (cs_head (if d then f else b)) ->
  exists ok, check_entry n f b d e = Some ok /\ (ok = true <-> entry_valid n f b d e).
Proof.
  intros Hf Hb He. assert (side_ok n (if d then f else b)) as Hs by (by destruct d). unfold check_entry, entry_valid, side_entry. cbv zeta.
  destruct (lookup_lt_is_Some_2 (cs_orig (if d then f else b)) e) as [o Ho]; [by rewrite (so_orig _ _ Hs)|].
  destruct (lookup_lt_is_Some_2 (cs_first (if d then f else b)) e) as [p Hp]; [by rewrite (so_first _ _ Hs)|].
  destruct (lookup_lt_is_Some_2 (cs_second (if d then f else b)) e) as [q Hq]; [by rewrite (so_second _ _ Hs)|].
  destruct (lookup_lt_is_Some_2 (cs_weight (if d then f else b)) e) as [v Hv]; [by rewrite (so_weight _ _ Hs)|].
  rewrite Ho, Hp, Hq, !bind_S. destruct o.
  - eexists. split; [done|]. rewrite andb_true_iff, negb_true_iff, N.eqb_neq, bool_decide_eq_true. split.
    + intros H. exists true, p, q. done.
    + intros (o & p' & q' & ([= <-] & [= <-] & [= <-]) & HH). done.
  - case_bool_decide as Hc; cbn [negb].
    + destruct Hc as (H1 & H2 & H3). rewrite Hv, bind_S.
      destruct (lookup_lt_is_Some_2 (cs_weight b) p) as [w1 Hw1]; [by rewrite (so_weight _ _ Hb)|].
      destruct (lookup_lt_is_Some_2 (cs_weight f) q) as [w2 Hw2]; [by rewrite (so_weight _ _ Hf)|].
      rewrite Hw1, Hw2, !bind_S. eexists. split; [done|]. rewrite N.eqb_eq. split.
      * intros ->. exists false, p, q. split; [done|]. split; [done|]. eauto 10.
      * intros (o & p' & q' & ([= <-] & [= <-] & [= <-]) & _ & v' & w1' & w2' & E1 & E2 & E3 & ->).
        rewrite Hw1 in E2. injection E2 as <-. rewrite Hw2 in E3. injection E3 as <-. injection E1 as ->. done.
    + exists false. split; [done|]. split; [done|]. intros (o & p' & q' & ([= <-] & [= <-] & [= <-]) & H3 & v' & w1 & w2 & _ & E1 & E2 & _). destruct Hc.
      apply lookup_lt_Some in E1, E2. rewrite (so_weight _ _ Hb) in E1. rewrite (so_weight _ _ Hf) in E2. done.
Qed.
Lemma check_entries_spec n f b (d : bool) : side_ok n f -> side_ok n b ->
  exists ok, check_entries n f b d = Some ok /\ (ok = true <-> forall e, e < length (cs_head (if d then f else b)) -> entry_valid n f b d e).
Proof.
  intros Hf Hb. unfold check_entries.
  destruct (for_range_inv (fun i ok => ok = true <-> forall e, e < i -> entry_valid n f b d e)
    (fun xy ok => if negb ok then Some false else check_entry n f b d xy) 0 (length (cs_head (if d then f else b))) true) as (ok & -> & H); [lia| | |eauto].
  - split; [|done]. intros _ e He. lia.
  - intros e ok He Hok. destruct ok; cbn [negb].
    + destruct (check_entry_spec n f b d e Hf Hb) as (ok & -> & H); [lia|]. eexists. split; [done|]. rewrite H. split.
      * intros He' e' Hlt. destruct (decide (e' = e)) as [->|]; [done|]. apply Hok; [done|lia].
      * intros H'. apply H'. lia.
    + eexists. split; [done|]. rewrite Hok. split; [|intros H e' He'; apply H; lia]. intros H. assert (false = true) by (by apply Hok). done.
Qed.

Theorem check_ch_spec c : perm (ch_order c) -> exists ok, check_ch c = Some ok /\ (ok = true <-> ch_valid c).
Proof.
  intros Hp. unfold check_ch. destruct (invert_permutation_correct _ Hp) as (q & -> & Hq & _). rewrite bind_S. cbv zeta.
  assert (inverse_of (ch_order c) (ch_rank c) <-> ch_rank c = q) as Hr.
  { split; [|by intros ->]. intros H. by eapply inverse_of_unique. }
  case_bool_decide as Er.
  2:{ cbn [andb negb]. exists false. split; [done|]. split; [done|]. intros []. tauto. }
  cbn [andb].
  destruct (check_arrays (length (ch_rank c)) (ch_fwd c)) eqn:E1.
  2:{ cbn [andb negb]. exists false. split; [done|]. split; [done|]. intros [_ [] _ _]. rewrite <- E1. by apply check_arrays_spec. }
  destruct (check_arrays (length (ch_rank c)) (ch_bwd c)) eqn:E2.
  2:{ cbn [andb negb]. exists false. split; [done|]. split; [done|]. intros [_ _ [] _]. rewrite <- E2. by apply check_arrays_spec. }
  cbn [andb negb]. apply check_arrays_spec in E1 as (C1 & W1 & O1 & F1 & S1), E2 as (C2 & W2 & O2 & F2 & S2).
  destruct (check_upward_spec _ _ C1 W1) as (u1 & -> & U1), (check_upward_spec _ _ C2 W2) as (u2 & -> & U2). rewrite !bind_S.
  destruct u1; [|exists false; split; [done|]; split; [done|]; intros [_ [] _ _]; by apply U1].
  destruct u2; [|exists false; split; [done|]; split; [done|]; intros [_ _ [] _]; by apply U2].
  cbn [andb negb].
  assert (side_ok (length (ch_rank c)) (ch_fwd c)) as Hf by (split; try done; by apply U1).
  assert (side_ok (length (ch_rank c)) (ch_bwd c)) as Hb by (split; try done; by apply U2).
  destruct (check_entries_spec _ _ _ true Hf Hb) as (e1 & -> & V1), (check_entries_spec _ _ _ false Hf Hb) as (e2 & -> & V2). rewrite bind_S.
  destruct e1; cbn [negb].
  - exists e2. split; [done|]. split.
    + intros ->. split; try done; [by apply Hr|]. intros [] e He; [by apply V1|by apply V2].
    + intros [_ _ _ H]. apply V2. intros e He. by apply H.
  - exists false. split; [done|]. split; [done|]. intros [_ _ _ H]. apply V1. intros e He. by apply H.
Qed.

(** Every correct hierarchy the ids and weights of which fit into 32 bits is accepted. *)
Lemma out_arc_mono n fo h x y e e' : csr n fo h -> out_arc fo x e -> out_arc fo y e' -> x < y -> e < e'.
Proof.
  intros Hc (lo & hi & H1 & H2 & H3) (lo' & hi' & H1' & _ & H3') Hlt. assert (hi <= lo'); [|lia].
  by eapply (csr_mono_le _ _ _ (S x) y _ _ Hc).
Qed.
Lemma side_arc n sd e : side_ok n sd -> e < length (cs_head sd) -> exists x y w, sarc sd e x y w.
Proof.
  intros H He. destruct (csr_tail_exists _ _ _ _ (so_csr _ _ H) He) as (x & _ & Hx).
  destruct (lookup_lt_is_Some_2 (cs_head sd) e He) as [y Hy]. destruct (lookup_lt_is_Some_2 (cs_weight sd) e) as [w Hw]; [by rewrite (so_weight _ _ H)|].
  by exists x, y, w.
Qed.
Definition words (sd : chside) : Prop := Forall (fun x => (x < 4294967296)%N) (cs_weight sd).
Lemma ok_valid bound n tail head w c : @ch_upto bound n tail head w c -> words (ch_fwd c) -> words (ch_bwd c) -> (N.of_nat (length tail) <= last_id)%N -> ch_valid c.
Proof.
  intros H Wf Wb Ht. assert (length (ch_rank c) = n) as Hn. { destruct (co_rank _ _ _ _ _ H) as [-> _]. by destruct H. }
  assert (forall sd e v, words sd -> cs_weight sd !! e = Some v -> (v < 4294967296)%N) as Hv. { intros sd e v Hs He. by eapply (Forall_lookup_1 _ _ _ _ Hs). }
  assert (forall p u v x, is_arc tail head w p u v x -> N.of_nat p <> last_id) as Hp.
  { intros p u v x (Hp & _). apply lookup_lt_Some in Hp. lia. }
  assert (forall t v, ch_order c !! t = Some v -> v < n) as Ho.
  { intros t v Hv'. apply (perm_lookup_lt _ _ _ (co_perm _ _ _ _ _ H)) in Hv'. by rewrite (co_len _ _ _ _ _ H) in Hv'. }
  split; rewrite ?Hn; [by destruct H..|]. intros d e He. unfold entry_valid.
  assert (side_ok n (if d then ch_fwd c else ch_bwd c)) as Hs by (destruct d, H; done).
  destruct (side_arc _ _ _ Hs He) as (x & y & v & Ha).
  destruct d.
  - destruct (co_fwd_entry _ _ _ _ _ H _ _ _ _ Ha) as (o & p & q & Hen & Hok). exists o, p, q. split; [done|]. destruct o; cbn [entry_ok] in Hok.
    + destruct Hok as (u & u' & _ & Hu' & Harc & ->). split; [by eapply Hp|by eapply Ho].
    + destruct Hok as (z & x1 & x2 & A1 & A2 & ->). split.
      * eapply (out_arc_mono _ _ _ z x _ _ (so_csr _ _ Hs)); [apply A2|apply Ha|]. by eapply (so_up _ _ (co_bwd _ _ _ _ _ H)).
      * exists (x1 + x2)%N, x1, x2. split; [apply Ha|]. split; [apply A1|]. split; [apply A2|]. symmetry. apply N.mod_small. eapply (Hv (ch_fwd c)); [done|apply Ha].
  - destruct (co_bwd_entry _ _ _ _ _ H _ _ _ _ Ha) as (o & p & q & Hen & Hok). exists o, p, q. split; [done|]. destruct o; cbn [entry_ok] in Hok.
    + destruct Hok as (u & u' & _ & Hu' & Harc & ->). split; [by eapply Hp|by eapply Ho].
    + destruct Hok as (z & x1 & x2 & A1 & A2 & ->). split.
      * eapply (out_arc_mono _ _ _ z x _ _ (so_csr _ _ Hs)); [apply A1|apply Ha|]. by eapply (so_up _ _ (co_fwd _ _ _ _ _ H)).
      * exists (x1 + x2)%N, x1, x2. split; [apply Ha|]. split; [apply A1|]. split; [apply A2|]. symmetry. apply N.mod_small. eapply (Hv (ch_bwd c)); [done|apply Ha].
Qed.
