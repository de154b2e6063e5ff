(** Refinement proofs for TimestampFlags and IDSetMinQueue. *)
From Verif Require Import Base UtilSpec PermutationProofs IdSetModel IdSetSpec.
Ltac Zify.zify_post_hook ::= idtac.


(** * TimestampFlags *)
Definition fref (n : nat) (f : flags) (s : gset nat) : Prop :=
  length (last_seen f) = n /\
  (1 <= current_timestamp f < short_mod)%N /\
  (forall i t, last_seen f !! i = Some t ->
     (t <= current_timestamp f)%N /\ (t = current_timestamp f <-> i ∈ s)) /\
  (forall i, i ∈ s -> i < n).

Lemma fref_new n : fref n (new_flags n) ∅.
Proof.
  split_and!; cbn.
  - apply replicate_length.
  - unfold short_mod; lia.
  - unfold short_mod; lia.
  - intros i t (-> & _)%lookup_replicate. split; [lia|]. split; [lia|set_solver].
  - set_solver.
Qed.

Lemma f_step_refines n f s o :
  fref n f s -> f_legal n o -> exists f', f_step f o = Some f' /\ fref n f' (f_spec s o).
Proof.
  intros (Hl & Hc & Hs & Hn) Ho. unfold short_mod in Hc. destruct o as [id|id|]; cbn in Ho |- *.
  - unfold set_flag. rewrite wr_Some, bind_S by lia. eexists; split; [done|].
    split_and!; cbn; [len; done|unfold short_mod; lia..| |].
    + intros i t H. destruct (decide (i = id)) as [->|Hne].
      * rewrite list_lookup_insert in H by lia. injection H as <-. split; [lia|set_solver].
      * rewrite list_lookup_insert_ne in H by done. destruct (Hs _ _ H) as [? Hi]. split; [done|].
        rewrite Hi. set_solver.
    + intros i [->%elem_of_singleton|?]%elem_of_union; auto.
  - unfold reset_one. rewrite wr_Some, bind_S by lia. eexists; split; [done|].
    assert (((current_timestamp f + (short_mod - 1)) mod short_mod)%N = (current_timestamp f - 1)%N) as Hm.
    { unfold short_mod. replace (current_timestamp f + (65536 - 1))%N with ((current_timestamp f - 1) + 1 * 65536)%N by lia.
      rewrite N.mod_add by lia. apply N.mod_small. lia. }
    rewrite Hm. split_and!; cbn; [len; done|unfold short_mod; lia..| |].
    + intros i t H. destruct (decide (i = id)) as [->|Hne].
      * rewrite list_lookup_insert in H by lia. injection H as <-. split; [lia|].
        split; [lia|set_solver].
      * rewrite list_lookup_insert_ne in H by done. destruct (Hs _ _ H) as [? Hi]. split; [done|].
        rewrite Hi. set_solver.
    + intros i [? _]%elem_of_difference; auto.
  - eexists; split; [done|]. unfold reset_all, short_mod.
    destruct (N.eqb_spec ((current_timestamp f + 1) mod 65536) 0) as [E|E].
    + split_and!; cbn; [len; done|unfold short_mod; lia..| |set_solver].
      intros i t H. rewrite list_lookup_fmap in H. destruct (last_seen f !! i); cbn in H; simplify_eq.
      split; [lia|]. split; [lia|set_solver].
    + assert ((current_timestamp f + 1)%N <> 65536%N) by (intros e; rewrite e in E; done).
      rewrite N.mod_small by lia.
      split_and!; cbn; [done|unfold short_mod; lia..| |set_solver].
      intros i t Hit. destruct (Hs _ _ Hit). split; [lia|]. split; [lia|set_solver].
Qed.

Lemma f_run_refines n f s os :
  fref n f s -> Forall (f_legal n) os ->
  exists f', f_run f os = Some f' /\ fref n f' (foldl f_spec s os).
Proof.
  revert f s. induction os as [|o os IH]; intros f s Hf Ho; [eauto|].
  apply Forall_cons in Ho as [Ho Hos]. destruct (f_step_refines n f s o Hf Ho) as (f' & E & Hf').
  cbn. rewrite E, bind_S. by apply IH.
Qed.

Lemma is_set_spec n f s i : fref n f s -> i < n -> is_set f i = Some (bool_decide (i ∈ s)).
Proof.
  intros (Hl & Hc & Hs & Hn) Hi. unfold is_set.
  destruct (lookup_lt_is_Some_2 (last_seen f) i) as [t Ht]; [lia|]. rewrite Ht, bind_S. f_equal.
  destruct (Hs _ _ Ht) as [_ H]. destruct (N.eqb_spec t (current_timestamp f)); symmetry.
  - apply bool_decide_eq_true. tauto.
  - apply bool_decide_eq_false. tauto.
Qed.

(** * IDSetMinQueue *)
Definition D (d : list bool) (x : nat) : bool := default false (d !! x).

Definition local (d : list bool) (x : nat) : Prop := D d x = D d (2 * x) || D d (2 * x + 1).

Lemma D_insert_eq d x b : x < length d -> D (<[x:=b]> d) x = b.
Proof. intros. unfold D. by rewrite list_lookup_insert. Qed.
Lemma D_insert_ne d x y b : x <> y -> D (<[x:=b]> d) y = D d y.
Proof. intros. unfold D. by rewrite list_lookup_insert_ne. Qed.
Lemma D_lookup d x : x < length d -> d !! x = Some (D d x).
Proof. intros H. unfold D. destruct (lookup_lt_is_Some_2 d x H) as [b Hb]. by rewrite Hb. Qed.
Lemma D_true_lt d x : D d x = true -> x < length d.
Proof. unfold D. destruct (d !! x) eqn:E; [|done]. intros _. by apply lookup_lt_Some in E. Qed.

Lemma other_child_even x : Nat.even x = true -> other_child x = x + 1 /\ x = 2 * (x / 2).
Proof.
  intros H. unfold other_child. rewrite H. split; [done|].
  apply Nat.even_spec in H as [k ->]. rewrite Nat.mul_comm, Nat.div_mul by lia. lia.
Qed.
Lemma other_child_odd x : Nat.even x = false -> other_child x = x - 1 /\ x = 2 * (x / 2) + 1.
Proof.
  intros H. unfold other_child. rewrite H. split; [done|].
  assert (Nat.odd x = true) as Ho by (unfold Nat.odd; by rewrite H).
  apply Nat.odd_spec in Ho as [k ->]. 
  replace (2 * k + 1) with (1 + k * 2) by lia. rewrite Nat.div_add by lia.
  change (1 / 2) with 0. lia.
Qed.

(** x is at height h above the leaves of a tree of height K. *)
Definition level (K h x : nat) : Prop := h <= K /\ 2 ^ (K - h) <= x < 2 * 2 ^ (K - h).

Lemma level_parent K h x : level K h x -> x <> 1 -> level K (S h) (x / 2) /\ 1 <= x / 2.
Proof.
  intros [Hh Hx] Hne. destruct (decide (h = K)) as [->|].
  { rewrite Nat.sub_diag in Hx. cbn in Hx. lia. }
  assert (2 ^ (K - h) = 2 * 2 ^ (K - S h)) as E.
  { replace (K - h) with (S (K - S h)) by lia. apply Nat.pow_succ_r'. }
  assert (0 < 2 ^ (K - S h)) by (apply Nat.neq_0_lt_0, Nat.pow_nonzero; lia).
  assert (x = 2 * (x / 2) + x mod 2) by (apply Nat.div_mod; lia).
  assert (x mod 2 < 2) by (apply Nat.mod_upper_bound; lia).
  unfold level. lia.
Qed.

Lemma level_child K h x c : level K h x -> x < 2 ^ K -> c < 2 -> exists h', h = S h' /\ level K h' (2 * x + c).
Proof.
  intros [Hh Hx] Hlt Hc. destruct h as [|h].
  { rewrite Nat.sub_0_r in Hx. lia. }
  exists h. split; [done|]. unfold level.
  assert (2 ^ (K - h) = 2 * 2 ^ (K - S h)) as E.
  { replace (K - h) with (S (K - S h)) by lia. apply Nat.pow_succ_r'. }
  lia.
Qed.

Lemma div_pow_S l h : l / 2 ^ S h = l / 2 ^ h / 2.
Proof.
  rewrite Nat.div_div by (try apply Nat.pow_nonzero; lia). f_equal. rewrite Nat.pow_succ_r'. lia.
Qed.

Lemma level_leaf K l h : 2 ^ K <= l < 2 * 2 ^ K -> h <= K -> level K h (l / 2 ^ h).
Proof.
  intros Hl. induction h as [|h IH]; intros Hh.
  - rewrite Nat.pow_0_r, Nat.div_1_r. split; [lia|]. by rewrite Nat.sub_0_r.
  - rewrite div_pow_S. apply level_parent; [apply IH; lia|].
    destruct (IH ltac:(lia)) as [_ H]. intros e. rewrite e in H.
    assert (2 ^ 1 <= 2 ^ (K - h)) by (apply Nat.pow_le_mono_r; lia). cbn in *. lia.
Qed.

Lemma level_interior K h x : level K h x -> 0 < h -> x < 2 ^ K.
Proof.
  intros [Hh Hx] H0. assert (2 ^ S (K - h) <= 2 ^ K) by (apply Nat.pow_le_mono_r; lia).
  rewrite Nat.pow_succ_r' in H. lia.
Qed.

(** A set leaf is visible at each of its ancestors at or after [z]. *)
Lemma up_true K d z l h :
  (forall y, z <= y -> 1 <= y < 2 ^ K -> local d y) ->
  2 ^ K <= l < 2 * 2 ^ K -> D d l = true -> h <= K -> z <= l / 2 ^ h -> D d (l / 2 ^ h) = true.
Proof.
  intros Hloc Hl Hd. induction h as [|h IH]; intros Hh Hz.
  - by rewrite Nat.pow_0_r, Nat.div_1_r.
  - pose proof (level_leaf K l (S h) Hl Hh) as Hlev.
    pose proof (level_interior _ _ _ Hlev ltac:(lia)) as Hint.
    rewrite div_pow_S in *. set (y := l / 2 ^ h) in *.
    assert (y = 2 * (y / 2) + y mod 2) as Ey by (apply Nat.div_mod; lia).
    assert (y mod 2 < 2) as Hm by (apply Nat.mod_upper_bound; lia).
    assert (0 < 2 ^ (K - S h)) by (apply Nat.neq_0_lt_0, Nat.pow_nonzero; lia).
    destruct Hlev as [_ Hlev].
    assert (D d y = true) as Hy by (apply IH; lia).
    rewrite (Hloc (y / 2)) by lia.
    destruct (decide (y mod 2 = 0)) as [e|e].
    + replace (2 * (y / 2)) with y by lia. by rewrite Hy.
    + replace (2 * (y / 2) + 1) with y by lia. rewrite Hy. apply orb_true_r.
Qed.

(** A set node has a set leaf below it. *)
Lemma down_true K d h x :
  (forall y, x <= y -> 1 <= y < 2 ^ K -> local d y) -> level K h x -> D d x = true ->
  exists l, 2 ^ K <= l < 2 * 2 ^ K /\ l / 2 ^ h = x /\ D d l = true.
Proof.
  revert x. induction h as [|h IH]; intros x Hloc Hlev Hd.
  - exists x. rewrite Nat.pow_0_r, Nat.div_1_r. destruct Hlev as [_ Hx]. rewrite Nat.sub_0_r in Hx. done.
  - pose proof (level_interior _ _ _ Hlev ltac:(lia)) as Hint.
    assert (1 <= x).
    { destruct Hlev as [_ Hx]. assert (0 < 2 ^ (K - S h)) by (apply Nat.neq_0_lt_0, Nat.pow_nonzero; lia). lia. }
    assert (exists c, c < 2 /\ D d (2 * x + c) = true) as (c & Hc & Hdc).
    { rewrite (Hloc x) in Hd by lia. apply orb_true_iff in Hd as [?|?].
      - exists 0. rewrite Nat.add_0_r. split; [lia|done].
      - exists 1. split; [lia|done]. }
    destruct (level_child K (S h) x c Hlev Hint Hc) as (h' & e & Hlc). injection e as <-.
    destruct (IH (2 * x + c)) as (l & Hl & E & Hdl); [|done|done|].
    + intros y Hy. apply Hloc. lia.
    + exists l. split; [done|]. split; [|done]. rewrite div_pow_S, E.
      rewrite (Nat.mul_comm 2), (Nat.add_comm _ c), Nat.div_add, (Nat.div_small c 2) by lia. lia.
Qed.

(** Invariant of the queue. *)
Definition sref (n : nat) (q : idset) (s : gset nat) : Prop :=
  exists K,
  max_number_of_ids q = n /\ offset q = 2 ^ K /\ n <= 2 ^ K /\
  length (data q) = n + 2 ^ K + n mod 2 /\
  (forall y, 1 <= y < 2 ^ K -> local (data q) y) /\
  (forall l, 2 ^ K <= l < 2 * 2 ^ K -> D (data q) l = true <-> l - 2 ^ K ∈ s) /\
  (forall i, i ∈ s -> i < n) /\
  match min_id q with None => s = ∅ | Some m => set_min s m end.

Lemma two_power_loop_spec fuel x y k :
  y = 2 ^ k -> x <= y + fuel -> exists K, two_power_loop fuel x y = 2 ^ K /\ x <= 2 ^ K.
Proof.
  revert y k. induction fuel as [|fuel IH]; intros y k Hy Hx; cbn.
  - exists k. split; [done|]. lia.
  - destruct (decide (y < x)) as [H|H].
    + apply (IH _ (S k)).
      * rewrite Nat.pow_succ_r', Hy. lia.
      * assert (0 < 2 ^ k) by (apply Nat.neq_0_lt_0, Nat.pow_nonzero; lia). lia.
    + exists k. split; [done|lia].
Qed.

Lemma D_replicate_false n x : D (replicate n false) x = false.
Proof.
  unfold D. destruct (replicate n false !! x) eqn:E; [|done]. by apply lookup_replicate in E as [-> _].
Qed.

Lemma sref_new n : sref n (new_idset n) ∅.
Proof.
  destruct (two_power_loop_spec n n 1 0) as (K & E & H); [done|lia|].
  exists K. cbn [new_idset max_number_of_ids offset data min_id]. unfold new_idset, smallest_two_power_no_smaller_than. 
  cbn [max_number_of_ids offset data min_id]. rewrite E.
  split_and!; [done..| | | | |].
  - by rewrite replicate_length.
  - intros y Hy. unfold local. by rewrite !D_replicate_false.
  - intros l Hl. rewrite D_replicate_false. set_solver.
  - set_solver.
  - done.
Qed.

(** push *)
Lemma push_loop_spec K fuel d x h :
  2 ^ K <= length d -> level K h x -> x < length d -> x < fuel ->
  (forall y, 1 <= y < 2 ^ K -> y <> x -> local d y) ->
  D d x = false -> (x < 2 ^ K -> D d (2 * x) || D d (2 * x + 1) = true) ->
  exists d', push_loop fuel d x = Some d' /\ length d' = length d /\
    (forall y, 1 <= y < 2 ^ K -> local d' y) /\
    (forall l, 2 ^ K <= l -> l <> x -> D d' l = D d l) /\ (2 ^ K <= x -> D d' x = true).
Proof.
  revert d x h. induction fuel as [|fuel IH]; intros d x h Hlen Hlev Hx Hf Hloc Hd Hch; [lia|].
  cbn [push_loop]. rewrite (D_lookup d x) by done. rewrite bind_S, Hd. cbn [negb chk].
  rewrite bind_S, (wr_Some d), bind_S by done.
  assert (1 <= x) as Hx1.
  { destruct Hlev as [_ H]. assert (0 < 2 ^ (K - h)) by (apply Nat.neq_0_lt_0, Nat.pow_nonzero; lia). lia. }
  set (d1 := <[x:=true]> d).
  assert (length d1 = length d) as L1 by (unfold d1; by len).
  assert (forall y, 1 <= y < 2 ^ K -> (x <> 1 -> y <> x / 2) -> local d1 y) as Hl1.
  { intros y Hy Hp. destruct (decide (y = x)) as [->|Hne].
    - unfold local, d1. rewrite D_insert_eq, !D_insert_ne by lia. symmetry. apply Hch. lia.
    - unfold local, d1. rewrite (D_insert_ne d x y) by lia.
      assert (forall c, c < 2 -> x <> 2 * y + c) as Hc.
      { intros c Hc e. apply Hp; [lia|]. rewrite e, (Nat.mul_comm 2), (Nat.add_comm _ c), Nat.div_add, (Nat.div_small c 2) by lia. lia. }
      rewrite !D_insert_ne; [by apply Hloc| |]; [apply (Hc 1)|specialize (Hc 0)]; lia. }
  destruct (decide (x = 1)) as [->|Hne].
  { exists d1. split_and!; [done|done| | |].
    - intros y Hy. apply Hl1; lia.
    - intros l Hl Hlx. unfold d1. by rewrite D_insert_ne.
    - intros _. unfold d1. by apply D_insert_eq. }
  destruct (level_parent K h x Hlev Hne) as [Hlp Hp1].
  pose proof (level_interior _ _ _ Hlp ltac:(lia)) as Hpi.
  unfold parent. rewrite (D_lookup d1 (x / 2)) by lia. rewrite bind_S.
  assert (x = 2 * (x / 2) + x mod 2) as Ex by (apply Nat.div_mod; lia).
  assert (x mod 2 < 2) as Hm by (apply Nat.mod_upper_bound; lia).
  assert (D d1 (2 * (x / 2)) || D d1 (2 * (x / 2) + 1) = true) as Hor.
  { assert (D d1 x = true) as Hdx by (unfold d1; by apply D_insert_eq).
    apply orb_true_iff. destruct (decide (x mod 2 = 0)); [left|right].
    - by replace (2 * (x / 2)) with x by lia.
    - by replace (2 * (x / 2) + 1) with x by lia. }
  destruct (D d1 (x / 2)) eqn:Hdp.
  - exists d1. split_and!; [done|done| | |].
    + intros y Hy. destruct (decide (y = x / 2)) as [->|].
      * unfold local. by rewrite Hor.
      * apply Hl1; [lia|done].
    + intros l Hl Hlx. unfold d1. by rewrite D_insert_ne.
    + intros _. unfold d1. by apply D_insert_eq.
  - destruct (IH d1 (x / 2) (S h)) as (d' & E & L' & Hl' & Hlf & _); [lia|done|lia|lia| |done|done|].
    + intros y Hy Hyx. by apply Hl1.
    + exists d'. split_and!; [done|lia|done| |].
      * intros l Hl Hlx. rewrite Hlf by lia. unfold d1. by rewrite D_insert_ne.
      * intros Hkx. rewrite Hlf by lia. unfold d1. by apply D_insert_eq.
Qed.

Lemma level_leaf0 K x : 2 ^ K <= x < 2 * 2 ^ K -> level K 0 x.
Proof. intros. split; [lia|]. by rewrite Nat.sub_0_r. Qed.

Lemma idset_push_spec n q s id :
  sref n q s -> id < n -> exists q', idset_push q id = Some q' /\ sref n q' ({[ id ]} ∪ s).
Proof.
  intros (K & Hm & Ho & HnK & Hlen & Hloc & Hlf & Hb & Hmin) Hid.
  unfold idset_push. rewrite bool_decide_eq_true_2 by lia. cbn [chk]. rewrite bind_S.
  rewrite D_lookup by lia. rewrite bind_S.
  assert (set_min ({[ id ]} ∪ s) (match min_id q with None => id | Some m => m `min` id end)) as Hmin'.
  { destruct (min_id q) as [m|].
    - destruct Hmin as [Hms Hmm]. split.
      + destruct (Nat.min_spec m id) as [[_ ->]|[_ ->]]; set_solver.
      + intros y [->%elem_of_singleton|Hy]%elem_of_union; [lia|]. specialize (Hmm y Hy). lia.
    - subst s. split; [set_solver|]. intros y [->%elem_of_singleton|Hy]%elem_of_union; [lia|set_solver]. }
  assert (forall i, i ∈ ({[ id ]} ∪ s : gset nat) -> i < n) as Hb'.
  { intros i [->%elem_of_singleton|Hi]%elem_of_union; auto. }
  destruct (D (data q) (id + offset q)) eqn:Ed.
  - eexists; split; [done|]. exists K. cbn [max_number_of_ids offset data min_id].
    assert (id ∈ s) as Hin.
    { rewrite Ho in Ed. apply Hlf in Ed; [|lia]. by replace (id + 2 ^ K - 2 ^ K) with id in Ed by lia. }
    split_and!; [done..| |done|done].
    intros l Hl. rewrite Hlf by done. set_solver.
  - destruct (push_loop_spec K (S (id + offset q)) (data q) (id + offset q) 0)
      as (d' & E & L' & Hl' & Hlf' & Hx'); [lia|apply level_leaf0; lia|lia|lia|auto|done|lia|].
    rewrite E, bind_S. eexists; split; [done|]. exists K. cbn [max_number_of_ids offset data min_id].
    split_and!; [done..|lia|done| |done|done].
    intros l Hl. destruct (decide (l = id + offset q)) as [->|Hne].
    + rewrite Hx' by lia. rewrite Ho. replace (id + 2 ^ K - 2 ^ K) with id by lia. set_solver.
    + rewrite Hlf' by lia. rewrite Hlf by done.
      assert (l - 2 ^ K <> id) by lia. set_solver.
Qed.

(** pop: climbing. After the climb every set leaf lies strictly to the right of the node where it stopped. *)
Lemma pop_up_spec a K fuel d x h :
  1 <= K \/ x = 1 -> 2 ^ K <= length d -> length d mod 2 = 0 \/ x = 1 ->
  level K h x -> x < length d -> x < fuel ->
  (forall y, 1 <= y < 2 ^ K -> y <> x -> local d y) ->
  D d x = true -> (x < 2 ^ K -> D d (2 * x) || D d (2 * x + 1) = false) ->
  (forall l, 2 ^ K <= l < 2 * 2 ^ K -> D d l = true -> l = x \/ x < l / 2 ^ h) ->
  exists d' stop, pop_up a fuel d x = Some (d', stop) /\ length d' = length d /\
    (forall y, 1 <= y < 2 ^ K -> local d' y) /\
    (forall l, 2 ^ K <= l -> l <> x -> D d' l = D d l) /\ (2 ^ K <= x -> D d' x = false) /\
    match stop with
    | None => forall l, 2 ^ K <= l < 2 * 2 ^ K -> D d' l = false
    | Some z => Nat.even z = true /\ D d' (z + 1) = true /\ exists hz, level K hz (z + 1) /\
        forall l, 2 ^ K <= l < 2 * 2 ^ K -> D d' l = true -> z < l / 2 ^ hz
    end.
Proof.
  revert d x h. induction fuel as [|fuel IH]; intros d x h HK Hlen Hpar Hlev Hx Hf Hloc Hd Hch Hright; [lia|].
  cbn [pop_up]. rewrite (D_lookup d x) by done. rewrite bind_S, Hd, orb_true_r. cbn [chk].
  rewrite bind_S, (wr_Some d), bind_S by done.
  assert (1 <= x) as Hx1.
  { destruct Hlev as [_ H]. assert (0 < 2 ^ (K - h)) by (apply Nat.neq_0_lt_0, Nat.pow_nonzero; lia). lia. }
  set (d1 := <[x:=false]> d).
  assert (length d1 = length d) as L1 by (unfold d1; by len).
  assert (D d1 x = false) as Hdx by (unfold d1; by apply D_insert_eq).
  assert (forall y, y <> x -> D d1 y = D d y) as Hdy by (intros; unfold d1; by apply D_insert_ne).
  assert (forall y, 1 <= y < 2 ^ K -> (x <> 1 -> y <> x / 2) -> local d1 y) as Hl1.
  { intros y Hy Hp. destruct (decide (y = x)) as [->|Hne].
    - unfold local. rewrite Hdx, !Hdy by lia. symmetry. apply Hch. lia.
    - unfold local. rewrite (Hdy y) by lia.
      assert (forall c, c < 2 -> x <> 2 * y + c) as Hc.
      { intros c Hc e. apply Hp; [lia|]. rewrite e, (Nat.mul_comm 2), (Nat.add_comm _ c), Nat.div_add, (Nat.div_small c 2) by lia. lia. }
      rewrite !Hdy; [by apply Hloc| |]; [specialize (Hc 1)|specialize (Hc 0)]; lia. }
  assert (forall l, 2 ^ K <= l < 2 * 2 ^ K -> D d1 l = true -> x < l / 2 ^ h) as Hright1.
  { intros l Hl Hdl. destruct (decide (l = x)) as [->|]; [congruence|].
    rewrite Hdy in Hdl by done. by destruct (Hright l Hl Hdl). }
  assert (h <= K) as HhK by apply Hlev.
  destruct (decide (x = 1)) as [->|Hne].
  { exists d1, None. split_and!; [done|done| |auto|done|].
    - intros y Hy. apply Hl1; lia.
    - intros l Hl. destruct (D d1 l) eqn:E; [|done]. exfalso. apply (Hright1 l Hl) in E.
      assert (h = K) as ->.
      { destruct Hlev as [_ H]. destruct (decide (h = K)); [done|].
        assert (2 ^ 1 <= 2 ^ (K - h)) by (apply Nat.pow_le_mono_r; lia). cbn in *. lia. }
      assert (l / 2 ^ K < 2); [|lia]. apply Nat.div_lt_upper_bound; [apply Nat.pow_nonzero; lia|lia]. }
  destruct HK as [HK|]; [|done]. destruct Hpar as [Hpar|]; [|done].
  destruct (level_parent K h x Hlev Hne) as [Hlp Hp1].
  pose proof (level_interior _ _ _ Hlp ltac:(lia)) as Hpi.
  assert (x / 2 < x) by (apply Nat.div_lt; lia).
  assert (forall y, 1 <= y < 2 ^ K -> y <> x / 2 -> local d1 y) as Hl2 by (intros; by apply Hl1).
  assert (Hnext : forall b, D d1 (2 * (x / 2)) = false -> D d1 (2 * (x / 2) + 1) = false ->
    (forall l, 2 ^ K <= l < 2 * 2 ^ K -> D d1 l = true -> x / 2 < l / 2 ^ S h) ->
    D d1 (x / 2) = b ->
    exists d' stop, pop_up a fuel d1 (x / 2) = Some (d', stop) /\ length d' = length d /\
    (forall y, 1 <= y < 2 ^ K -> local d' y) /\
    (forall l, 2 ^ K <= l -> l <> x -> D d' l = D d l) /\ (2 ^ K <= x -> D d' x = false) /\
    match stop with
    | None => forall l, 2 ^ K <= l < 2 * 2 ^ K -> D d' l = false
    | Some z => Nat.even z = true /\ D d' (z + 1) = true /\ exists hz, level K hz (z + 1) /\
        forall l, 2 ^ K <= l < 2 * 2 ^ K -> D d' l = true -> z < l / 2 ^ hz
    end).
  { intros b H0 H1 Hr Hb.
    assert (D d1 (x / 2) = true) as Hpt.
    { rewrite Hdy by lia. rewrite (Hloc (x / 2)) by lia. apply orb_true_iff.
      destruct (Nat.even x) eqn:Ev.
      - left. apply other_child_even in Ev as [_ e]. by rewrite <- e.
      - right. apply other_child_odd in Ev as [_ e]. by rewrite <- e. }
    destruct (IH d1 (x / 2) (S h)) as (d' & stop & E & L' & Hl' & Hlf & _ & Hst).
    - by left.
    - lia.
    - left. by rewrite L1.
    - done.
    - lia.
    - lia.
    - done.
    - done.
    - intros _. by rewrite H0, H1.
    - intros l Hl Hdl. right. by apply Hr.
    - exists d', stop. split_and!; [done|lia|done| | |done].
      + intros l Hl Hlx. rewrite Hlf by lia. by apply Hdy.
      + intros Hkx. rewrite Hlf by lia. done. }
  unfold is_smaller_child, parent.
  destruct (Nat.even x) eqn:Ev.
  - destruct (other_child_even x Ev) as [-> Ex].
    assert (x + 1 < length d1).
    { rewrite L1. destruct (decide (x + 1 = length d)) as [e|]; [|lia]. exfalso.
      rewrite <- e, Ex in Hpar. rewrite (Nat.mul_comm 2), (Nat.add_comm _ 1), Nat.mod_add in Hpar by lia. done. }
    rewrite (D_lookup d1 (x + 1)) by done. rewrite bind_S.
    assert (level K h (x + 1)) as Hls.
    { destruct (level_child K (S h) (x / 2) 1 Hlp Hpi) as (h' & e & Hc); [lia|]. injection e as <-.
      by rewrite <- Ex in Hc. }
    destruct (D d1 (x + 1)) eqn:Es.
    + exists d1, (Some x). split_and!; [done|done| |auto|done|done|done|].
      * intros y Hy. destruct (decide (y = x / 2)) as [->|]; [|by apply Hl2].
        unfold local. rewrite <- Ex, Es, orb_true_r. rewrite Hdy by lia.
        rewrite (Hloc (x / 2)) by lia. by rewrite <- Ex, Hd.
      * exists h. split; [done|]. auto.
    + eapply Hnext; [by rewrite <- Ex| by rewrite <- Ex| |done].
      intros l Hl Hdl. rewrite div_pow_S.
      assert (l / 2 ^ h <> x + 1) as Hn1.
      { intros e. rewrite <- e in Es. rewrite (up_true K d1 (x + 1) l h) in Es; [done| |done|done|done|lia].
        intros y Hy Hy'. apply Hl2; lia. }
      pose proof (Hright1 l Hl Hdl). apply Nat.div_le_lower_bound; lia.
  - destruct (other_child_odd x Ev) as [-> Ex].
    rewrite (D_lookup d1 (x - 1)) by lia. rewrite bind_S.
    assert (level K h (x - 1)) as Hls.
    { destruct (level_child K (S h) (x / 2) 0 Hlp Hpi) as (h' & e & Hc); [lia|]. injection e as <-.
      by replace (2 * (x / 2) + 0) with (x - 1) in Hc by lia. }
    assert (D d1 (x - 1) = false) as Es.
    { destruct (D d1 (x - 1)) eqn:Es; [|done]. exfalso.
      destruct (down_true K d1 h (x - 1)) as (l & Hl & El & Hdl); [|done|done|].
      - intros y Hy Hy'. apply Hl2; lia.
      - pose proof (Hright1 l Hl Hdl). lia. }
    rewrite Es. cbn [negb]. rewrite orb_true_r. cbn [chk]. rewrite bind_S.
    eapply Hnext; [by replace (2 * (x / 2)) with (x - 1) by lia| by rewrite <- Ex| |done].
    intros l Hl Hdl. rewrite div_pow_S. pose proof (Hright1 l Hl Hdl).
    apply Nat.div_le_lower_bound; lia.
Qed.

Lemma pop_down_spec a K fuel d x h :
  (forall y, 1 <= y < 2 ^ K -> local d y) -> level K h x -> D d x = true -> h <= fuel ->
  (forall l, 2 ^ K <= l < 2 * 2 ^ K -> D d l = true -> x <= l / 2 ^ h) ->
  exists z, pop_down a fuel (2 ^ K) d x = Some z /\ 2 ^ K <= z < 2 * 2 ^ K /\ D d z = true /\
    forall l, 2 ^ K <= l < 2 * 2 ^ K -> D d l = true -> z <= l.
Proof.
  intros Hloc. revert x h. induction fuel as [|fuel IH]; intros x h Hlev Hd Hh Hr.
  - assert (h = 0) as -> by lia. destruct Hlev as [_ Hx]. rewrite Nat.sub_0_r in Hx.
    exists x. cbn. rewrite decide_True by lia. split_and!; [done|lia|lia|done|].
    intros l Hl Hdl. specialize (Hr l Hl Hdl). by rewrite Nat.pow_0_r, Nat.div_1_r in Hr.
  - cbn [pop_down]. destruct (decide (2 ^ K <= x)) as [Hge|Hlt].
    + destruct h as [|h]; [|pose proof (level_interior _ _ _ Hlev); lia].
      destruct Hlev as [_ Hx]. rewrite Nat.sub_0_r in Hx.
      exists x. split_and!; [done|lia|lia|done|].
      intros l Hl Hdl. specialize (Hr l Hl Hdl). by rewrite Nat.pow_0_r, Nat.div_1_r in Hr.
    + assert (1 <= x) as Hx1.
      { destruct Hlev as [_ H]. assert (0 < 2 ^ (K - h)) by (apply Nat.neq_0_lt_0, Nat.pow_nonzero; lia). lia. }
      pose proof (Hloc x ltac:(lia)) as Hlx. unfold local in Hlx. rewrite Hd in Hlx. symmetry in Hlx.
      unfold smaller_child.
      assert (2 * x < length d) as H2.
      { apply orb_true_iff in Hlx as [H|H]; apply D_true_lt in H; lia. }
      rewrite (D_lookup d (2 * x)) by done. rewrite bind_S.
      destruct (level_child K h x 0 Hlev ltac:(lia) ltac:(lia)) as (h' & -> & Hl0).
      destruct (level_child K (S h') x 1 Hlev ltac:(lia) ltac:(lia)) as (h'' & e & Hl1). injection e as <-.
      rewrite Nat.add_0_r in Hl0.
      assert (forall l, 2 ^ K <= l < 2 * 2 ^ K -> D d l = true -> 2 * x <= l / 2 ^ h') as Hr0.
      { intros l Hl Hdl. pose proof (Hr l Hl Hdl) as H. rewrite div_pow_S in H.
        assert (l / 2 ^ h' = 2 * (l / 2 ^ h' / 2) + (l / 2 ^ h') mod 2) by (apply Nat.div_mod; lia). lia. }
      destruct (D d (2 * x)) eqn:E0.
      * rewrite (D_lookup d (2 * x)) by done. rewrite bind_S, E0, orb_true_r. cbn [chk]. rewrite bind_S.
        eapply IH; [done|done|lia|done].
      * cbn [orb] in Hlx. destruct (other_child_even (2 * x)) as [-> _].
        { apply Nat.even_spec. by exists x. }
        rewrite (D_lookup d (2 * x + 1)) by (by apply D_true_lt). rewrite bind_S, Hlx, orb_true_r. cbn [chk]. rewrite bind_S.
        eapply IH; [done|done|lia|].
        intros l Hl Hdl. pose proof (Hr0 l Hl Hdl).
        assert (l / 2 ^ h' <> 2 * x); [|lia]. intros e.
        rewrite <- e, (up_true K d 1 l h') in E0; [done| |done|done|destruct Hlev; lia|lia].
        intros y _ Hy. by apply Hloc.
Qed.

Lemma idset_pop_spec a n q s :
  sref n q s -> s <> ∅ ->
  exists x q', idset_pop a q = Some (Some x, q') /\ set_min s x /\ sref n q' (s ∖ {[ x ]}).
Proof.
  intros (K & Hm & Ho & HnK & Hlen & Hloc & Hlf & Hb & Hmin) Hne.
  destruct q as [mx mi off dat]; cbn [max_number_of_ids min_id offset data] in *. destruct mi as [m|]; [|done].
  pose proof Hmin as [Hms Hmm]. pose proof (Hb m Hms) as Hmn.
  assert (D dat (m + 2 ^ K) = true) as Hdm.
  { apply Hlf; [lia|]. by replace (m + 2 ^ K - 2 ^ K) with m by lia. }
  destruct (pop_up_spec a K (S (m + 2 ^ K)) dat (m + 2 ^ K) 0) as (d' & stop & E & L' & Hl' & Hlf' & Hx' & Hst).
  - destruct K; [right; cbn [Nat.pow] in *; lia|lia].
  - lia.
  - destruct K as [|K]; [right; cbn [Nat.pow] in *; lia|left].
    rewrite Hlen, Nat.pow_succ_r'.
    pose proof (Nat.div_mod n 2 ltac:(lia)) as Hdm2.
    apply Nat.mod_divides; [lia|]. exists (n / 2 + 2 ^ K + n mod 2). lia.
  - apply level_leaf0. lia.
  - lia.
  - lia.
  - intros; auto.
  - done.
  - lia.
  - intros l Hl Hdl. rewrite Nat.pow_0_r, Nat.div_1_r. apply Hlf in Hdl; [|done]. specialize (Hmm _ Hdl). lia.
  - assert (forall l, 2 ^ K <= l < 2 * 2 ^ K -> D d' l = true <-> l - 2 ^ K ∈ s ∖ {[ m ]}) as Hs'.
    { intros l Hl. destruct (decide (l = m + 2 ^ K)) as [->|Hlne].
      - rewrite Hx' by lia. replace (m + 2 ^ K - 2 ^ K) with m by lia. set_solver.
      - rewrite Hlf' by lia. rewrite Hlf by done. assert (l - 2 ^ K <> m) by lia. set_solver. }
    assert (forall i, i ∈ s ∖ {[ m ]} -> i < n) as Hb' by (intros i [? _]%elem_of_difference; auto).
    unfold idset_pop, idset_empty. cbn [min_id data max_number_of_ids offset]. rewrite bool_decide_eq_false_2 by done. cbn [negb]. rewrite orb_true_r. cbn [chk]. rewrite bind_S, Ho, E, bind_S.
    destruct stop as [z|].
    + destruct Hst as (Hev & Hdz & hz & Hlz & Hrz).
      unfold is_smaller_child. rewrite Hev, orb_true_r. cbn [chk]. rewrite bind_S.
      destruct (other_child_even z Hev) as [-> _].
      rewrite (D_lookup d' (z + 1)) by (by apply D_true_lt). rewrite bind_S, Hdz, orb_true_r. cbn [chk]. rewrite bind_S.
      destruct (pop_down_spec a K (2 ^ K) d' (z + 1) hz) as (y & Ey & Hy & Hdy & Hyl); [done|done|done| | |].
      * destruct Hlz as [H _]. pose proof (Nat.pow_gt_lin_r 2 K ltac:(lia)). lia.
      * intros l Hl Hdl. specialize (Hrz l Hl Hdl). lia.
      * rewrite Ey, bind_S. eexists _, _. split; [done|]. split; [done|].
        exists K. cbn [max_number_of_ids min_id offset data]. split_and!; [done|done|done|lia|done|done|done|].
        split.
        -- by apply Hs'.
        -- intros i Hi. pose proof (Hb' i Hi). assert (y <= i + 2 ^ K); [|lia].
           apply Hyl; [lia|]. apply Hs'; [lia|]. by replace (i + 2 ^ K - 2 ^ K) with i by lia.
    + eexists _, _. split; [done|]. split; [done|].
      exists K. cbn [max_number_of_ids min_id offset data]. split_and!; [done|done|done|lia|done|done|done|].
      apply leibniz_equiv. apply equiv_empty. intros i Hi. exfalso. pose proof (Hb' i Hi).
      assert (D d' (i + 2 ^ K) = true) as Ht.
      { apply Hs'; [lia|]. by replace (i + 2 ^ K - 2 ^ K) with i by lia. }
      rewrite Hst in Ht by lia. done.
Qed.

Lemma pop_up_all_false fuel d k :
  (forall y, 1 <= y -> D d y = false) -> 2 ^ S k <= length d -> 2 ^ S k - 1 < fuel ->
  pop_up false fuel d (2 ^ S k - 1) = Some (d, None).
Proof.
  intros Hd. revert k. induction fuel as [|fuel IH]; intros k Hlen Hf; [lia|].
  assert (0 < 2 ^ k) by (apply Nat.neq_0_lt_0, Nat.pow_nonzero; lia).
  pose proof (Nat.pow_succ_r' 2 k) as Ek.
  cbn [pop_up negb orb chk]. rewrite D_lookup, bind_S, bind_S, (wr_Some d), bind_S by lia.
  assert (<[2 ^ S k - 1:=false]> d = d) as ->.
  { apply list_insert_id. rewrite D_lookup by lia. by rewrite Hd by lia. }
  destruct k as [|k]; [done|].
  rewrite decide_False by (pose proof (Nat.pow_succ_r' 2 k); assert (0 < 2 ^ k) by (apply Nat.neq_0_lt_0, Nat.pow_nonzero; lia); lia).
  assert (Nat.even (2 ^ S (S k) - 1) = false) as Ev.
  { destruct (Nat.even (2 ^ S (S k) - 1)) eqn:Ev; [|done]. apply Nat.even_spec in Ev as [z Hz]. lia. }
  unfold is_smaller_child, parent. rewrite Ev. destruct (other_child_odd _ Ev) as [-> Ex].
  rewrite D_lookup, bind_S, bind_S by lia.
  replace ((2 ^ S (S k) - 1) / 2) with (2 ^ S k - 1) by lia. apply IH; lia.
Qed.

(** Without assertions, pop of an empty queue over two or more ids is a no-op. *)
Lemma idset_pop_empty n q : sref n q ∅ -> 2 <= n -> idset_pop false q = Some (None, q).
Proof.
  intros (K & Hm & Ho & HnK & Hlen & Hloc & Hlf & Hb & Hmin) Hn.
  destruct q as [mx mi off dat]; cbn [max_number_of_ids min_id offset data] in *.
  destruct mi as [m|]; [destruct Hmin; set_solver|].
  assert (forall y, 1 <= y -> D dat y = false) as Hd.
  { intros y Hy1. destruct (D dat y) eqn:E; [|done]. exfalso.
    assert (y < 2 * 2 ^ K) as Hy.
    { apply D_true_lt in E. pose proof (Nat.mod_upper_bound n 2 ltac:(lia)). 
      assert (n + n mod 2 <= 2 ^ K); [|lia].
      destruct K as [|K]; [cbn [Nat.pow] in *; lia|]. rewrite Nat.pow_succ_r' in *. 
      pose proof (Nat.div_mod n 2 ltac:(lia)). lia. }
    destruct (decide (2 ^ K <= y)) as [Hge|Hlt]; [apply Hlf in E; [set_solver|lia]|].
    pose proof (Nat.log2_spec y ltac:(lia)) as [Hl1 Hl2]. rewrite Nat.pow_succ_r' in Hl2.
    assert (Nat.log2 y < K) as HlK by (apply (Nat.pow_lt_mono_r_iff 2); lia).
    destruct (down_true K dat (K - Nat.log2 y) y) as (l & Hl & _ & Hdl).
    - intros z _. apply Hloc.
    - split; [lia|]. replace (K - (K - Nat.log2 y)) with (Nat.log2 y) by lia. lia.
    - done.
    - apply Hlf in Hdl; [set_solver|done]. }
  unfold idset_pop. cbn [negb orb chk min_id offset data max_number_of_ids]. rewrite bind_S.
  destruct K as [|K]; [cbn [Nat.pow] in *; lia|].
  rewrite Ho, pop_up_all_false, bind_S; [done|done|lia|lia].
Qed.

Lemma idset_empty_spec n q s : sref n q s -> idset_empty q = bool_decide (s = ∅).
Proof.
  intros (K & _ & _ & _ & _ & _ & _ & _ & Hmin). unfold idset_empty. destruct (min_id q) as [m|].
  - rewrite !bool_decide_eq_false_2; [done| |done]. intros ->. destruct Hmin. set_solver.
  - subst s. by rewrite !bool_decide_eq_true_2.
Qed.

Lemma clear_loop_spec a n fuel q s :
  sref n q s -> size s <= fuel -> exists q', clear_loop a fuel q = Some q' /\ sref n q' ∅.
Proof.
  revert q s. induction fuel as [|fuel IH]; intros q s Hq Hsz; cbn [clear_loop]; rewrite (idset_empty_spec n q s Hq).
  - assert (s = ∅) as -> by (apply leibniz_equiv, size_empty_inv; lia).
    rewrite bool_decide_eq_true_2 by done. eauto.
  - case_bool_decide as He; [subst s; eauto|].
    destruct (idset_pop_spec a n q s Hq He) as (x & q' & E & [Hx _] & Hq'). rewrite E, bind_S.
    apply (IH _ _ Hq'). rewrite size_difference by set_solver. rewrite size_singleton. lia.
Qed.

Lemma set_size_bound n (s : gset nat) : (forall i, i ∈ s -> i < n) -> size s <= n.
Proof.
  intros H. etrans; [apply (subseteq_size s (list_to_set (seq 0 n)))|].
  - intros i Hi%H. apply elem_of_list_to_set, elem_of_seq. lia.
  - rewrite size_list_to_set by apply NoDup_seq. by rewrite seq_length.
Qed.

Lemma s_step_refines a n q s o :
  sref n q s -> s_legal a n s o ->
  exists r q' s', s_step a q o = Some (r, q') /\ s_spec s o r s' /\ sref n q' s'.
Proof.
  intros Hq Ho. destruct o as [id| | |id| |]; cbn in Ho; cbn [s_step s_spec].
  - destruct (idset_push_spec n q s id Hq Ho) as (q' & E & Hq'). rewrite E, bind_S. eauto 10.
  - destruct (decide (s = ∅)) as [->|Hne].
    + destruct Ho as [?|[-> Hn]]; [done|]. rewrite (idset_pop_empty n q Hq Hn), bind_S.
      eexists _, q, ∅. split; [done|]. split; [by left|done].
    + destruct (idset_pop_spec a n q s Hq Hne) as (x & q' & E & Hx & Hq'). rewrite E, bind_S.
      eexists _, _, _. split; [done|]. split; [right; eauto|done].
  - eexists _, _, s. split; [done|]. split; [|done]. split; [done|].
    destruct Hq as (K & _ & _ & _ & _ & _ & _ & _ & Hmin). unfold idset_peek. destruct (min_id q); [right|left]; eauto.
  - eexists _, _, s. split; [|split; [|done]].
    + unfold idset_contains. pose proof Hq as (K & Hm & Hof & HnK & Hlen & Hloc & Hlf & Hb & Hmin).
      rewrite bool_decide_eq_true_2 by lia. cbn [chk]. rewrite bind_S, D_lookup, bind_S by lia. done.
    + split; [|done]. f_equal. destruct Hq as (K & Hm & Hof & HnK & Hlen & Hloc & Hlf & Hb & Hmin).
      rewrite Hof. specialize (Hlf (2 ^ K + id) ltac:(lia)). replace (2 ^ K + id - 2 ^ K) with id in Hlf by lia.
      destruct (D (data q) (2 ^ K + id)); symmetry;
        [apply bool_decide_eq_true|apply bool_decide_eq_false]; naive_solver.
  - eexists _, _, s. split; [done|]. split; [|done]. split; [|done]. f_equal. by apply (idset_empty_spec n).
  - destruct (clear_loop_spec a n (max_number_of_ids q) q s Hq) as (q' & E & Hq').
    + destruct Hq as (K & Hm & _ & _ & _ & _ & _ & Hb & _). rewrite Hm. by apply set_size_bound.
    + unfold idset_clear. rewrite E, bind_S. eauto 10.
Qed.

Lemma s_run_refines a n os : forall q s, sref n q s ->
  (exists rs q' s', s_run a q os = Some (rs, q') /\ s_spec_run a n s os rs s' /\ sref n q' s') \/
  (exists os1 o os2 rs q' s', os = os1 ++ o :: os2 /\ s_run a q os1 = Some (rs, q') /\
     s_spec_run a n s os1 rs s' /\ sref n q' s' /\ ~ s_legal a n s' o).
Proof.
  induction os as [|o os IH]; intros q s Hq.
  { left. exists [], q, s. split; [done|]. split; [constructor|done]. }
  assert (s_legal a n s o \/ ~ s_legal a n s o) as [Hl|Hl].
  { destruct o as [id| | |id| |]; cbn [s_legal]; try tauto.
    - destruct (decide (id < n)); tauto.
    - destruct (decide (s = ∅)), a, (decide (2 <= n)); naive_solver.
    - destruct (decide (id < n)); tauto. }
  - destruct (s_step_refines a n q s o Hq Hl) as (r & q1 & s1 & E & Hs & Hq1).
    destruct (IH q1 s1 Hq1) as [(rs & q2 & s2 & E2 & Hs2 & Hq2)|(os1 & o' & os2 & rs & q2 & s2 & -> & E2 & Hs2 & Hq2 & Hn)].
    + left. exists (r :: rs), q2, s2. cbn [s_run]. rewrite E, bind_S, E2, bind_S. split; [done|]. split; [|done].
      by econstructor.
    + right. exists (o :: os1), o', os2, (r :: rs), q2, s2. split; [done|].
      cbn [s_run]. rewrite E, bind_S, E2, bind_S. split; [done|]. split; [|done]. by econstructor.
  - right. exists [], o, os, [], q, s. split; [done|]. split; [done|]. split; [constructor|done].
Qed.

Lemma pop_empty_one_diverges fuel :
  pop_up false fuel (data (new_idset 1)) (offset (new_idset 1) - 1) = None.
Proof. induction fuel as [|fuel IH]; [done|]. cbn in IH |- *. exact IH. Qed.
