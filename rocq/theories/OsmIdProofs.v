(** Local ids: the mapper of a bit vector numbers the set in increasing order. *)
From Verif Require Import Base BitVectorModel BitVectorSpec BitVectorProofs BitVectorBulkProofs IdMapperModel IdMapperProofs OsmGraphModel OsmGraphSpec Properties_IdMapper.
Ltac Zify.zify_post_hook ::= idtac.

Lemma sorted_lt_unique (l k : list nat) : StronglySorted lt l -> StronglySorted lt k -> (forall x, x ∈ l <-> x ∈ k) -> l = k.
Proof.
  intros Hl. revert k. induction Hl as [|a l Hl IH Ha]; intros k Hk Hlk.
  - destruct k as [|b k]; [done|]. exfalso. apply (not_elem_of_nil b). apply Hlk. by left.
  - destruct Hk as [|b k Hk Hb]; [exfalso; apply (not_elem_of_nil a); apply Hlk; by left|].
    rewrite Forall_forall in Ha, Hb.
    assert (a = b) as ->.
    { assert (a ∈ b :: k) as H1 by (apply Hlk; by left). assert (b ∈ a :: l) as H2 by (apply Hlk; by left).
      apply elem_of_cons in H1 as [?|H1]; [done|]. apply elem_of_cons in H2 as [?|H2]; [done|]. specialize (Hb _ H1). specialize (Ha _ H2). lia. }
    f_equal. apply IH; [done|]. intros x. specialize (Hlk x). rewrite !elem_of_cons in Hlk. split; intros Hx.
    + destruct (proj1 Hlk) as [?|?]; [by right| |done]. specialize (Ha _ Hx). lia.
    + destruct (proj2 Hlk) as [?|?]; [by right| |done]. specialize (Hb _ Hx). lia.
Qed.

Lemma filter_nothing (P : nat -> Prop) `{forall x, Decision (P x)} l : (forall x, x ∈ l -> ~ P x) -> filter P l = [].
Proof.
  induction l as [|a l IH]; intros Hl; [done|]. rewrite filter_cons_False by (apply Hl; by left). apply IH. intros x Hx. apply Hl. by right.
Qed.

Lemma rank_cons a l x : rank (a :: l) x = if decide (a < x) then S (rank l x) else rank l x.
Proof. unfold rank. rewrite filter_cons. by case_decide. Qed.

Lemma rank_lookup ids k x : StronglySorted lt ids -> (ids !! k = Some x <-> x ∈ ids /\ rank ids x = k).
Proof.
  intros Hs. revert k. induction Hs as [|a l Hs IH Ha]; intros k.
  - rewrite lookup_nil. split; [done|]. intros [H _]. by apply elem_of_nil in H.
  - rewrite Forall_forall in Ha. rewrite elem_of_cons, rank_cons. destruct (decide (x = a)) as [-> |Hne].
    + rewrite decide_False by lia. assert (rank l a = 0) as ->.
      { unfold rank. rewrite filter_nothing; [done|]. intros z Hz. specialize (Ha _ Hz). lia. }
      split.
      * intros Hk. split; [by left|]. destruct k as [|k]; [done|]. cbn in Hk. apply elem_of_list_lookup_2 in Hk. specialize (Ha _ Hk). lia.
      * intros [_ <-]. done.
    + split.
      * destruct k as [|k]; cbn [lookup list_lookup]; [congruence|]. intros Hk. apply IH in Hk as [Hx Hr]. split; [by right|]. specialize (Ha _ Hx). rewrite decide_True by lia. lia.
      * intros [[?|Hx] Hr]; [done|]. specialize (Ha _ Hx). rewrite decide_True in Hr by lia. subst k. cbn. by apply IH.
Qed.

Lemma rank_lt ids x : x ∈ ids -> rank ids x < length ids.
Proof.
  unfold rank. intros Hx. assert (length (filter (fun y => y < x) ids) + length (filter (fun y => ~ y < x) ids) = length ids) as H.
  { clear. induction ids as [|a l IH]; [done|]. rewrite !filter_cons. repeat case_decide; cbn; try lia; tauto. }
  enough (1 <= length (filter (fun y => ~ y < x) ids)) by lia.
  assert (x ∈ filter (fun y => ~ y < x) ids) as Hf by (apply elem_of_list_filter; split; [lia|done]).
  destruct (filter (fun y => ~ y < x) ids); [by apply elem_of_nil in Hf|cbn; lia].
Qed.

(** The indices of the true bits. *)
Definition ids_of (l : list bool) : list nat := filter (fun x => nth x l false = true) (seq 0 (length l)).

Lemma seq_sorted n k : StronglySorted lt (seq n k).
Proof. revert n. induction k as [|k IH]; intros n; cbn; constructor; [done|]. apply Forall_forall. intros x Hx%elem_of_seq. lia. Qed.
Lemma filter_sorted (P : nat -> Prop) `{forall x, Decision (P x)} l : StronglySorted lt l -> StronglySorted lt (filter P l).
Proof.
  induction 1 as [|a l Hl IH Ha]; [constructor|]. rewrite filter_cons. case_decide; [|done]. constructor; [done|].
  rewrite Forall_forall in Ha |- *. intros x [_ Hx]%elem_of_list_filter. by apply Ha.
Qed.

Lemma ids_enum l P : (forall x, nth x l false = true <-> P x) -> enum P (ids_of l).
Proof.
  intros HP. split; [by apply filter_sorted, seq_sorted|]. intros x. unfold ids_of. rewrite elem_of_list_filter, elem_of_seq, HP. split; [tauto|].
  intros Hx. split; [done|]. apply HP in Hx. destruct (decide (x < length l)); [lia|]. rewrite nth_overflow in Hx by lia. done.
Qed.

Lemma enum_unique P a b : enum P a -> enum P b -> a = b.
Proof. intros [Ha Ha'] [Hb Hb']. apply sorted_lt_unique; [done..|]. intros x. by rewrite Ha', Hb'. Qed.

Lemma count_true_take l x : x <= length l -> count_true (take x l) = length (filter (fun y => nth y l false = true) (seq 0 x)).
Proof.
  induction x as [|x IH]; intros Hx; [done|].
  destruct (lookup_lt_is_Some_2 l x) as [b Hb]; [lia|]. rewrite (take_S_r l x b Hb). unfold count_true in *. rewrite filter_app, app_length, IH by lia.
  rewrite seq_S, filter_app, app_length. f_equal. cbn [Nat.add]. rewrite (filter_cons _ x), (filter_cons _ b), !filter_nil. rewrite (nth_lookup l x), Hb. cbn. destruct b; [by rewrite !decide_True by done|by rewrite !decide_False by done].
Qed.
Lemma rank_ids l x : nth x l false = true -> rank (ids_of l) x = count_true (take x l).
Proof.
  intros Hx. assert (x < length l) as Hlt. { destruct (decide (x < length l)); [done|]. rewrite nth_overflow in Hx by lia. done. }
  rewrite count_true_take by lia. unfold rank, ids_of. f_equal.
  replace (length l) with (x + (length l - x)) at 1 by lia. rewrite seq_app, !filter_app.
  assert (filter (fun y => y < x) (filter (fun y => nth y l false = true) (seq 0 x)) = filter (fun y => nth y l false = true) (seq 0 x)) as ->.
  { assert (forall k : list nat, Forall (fun y => y < x) k -> filter (fun y => y < x) k = k) as Hall.
    { induction 1 as [|a k Ha Hk IH]; [done|]. rewrite filter_cons_True by done. by rewrite IH. }
    apply Hall. apply Forall_forall. intros y [_ Hy]%elem_of_list_filter. apply elem_of_seq in Hy. lia. }
  assert (filter (fun y => y < x) (filter (fun y => nth y l false = true) (seq (0 + x) (length l - x))) = []) as ->; [|apply app_nil_r].
  apply filter_nothing. intros y [_ Hy]%elem_of_list_filter. apply elem_of_seq in Hy. lia.
Qed.
Lemma count_true_ids l : count_true l = length (ids_of l).
Proof. rewrite <- (take_ge l (length l)) at 1 by lia. rewrite count_true_take by lia. done. Qed.

(** The mapper of a set. *)
Record numbers (m : mapper) (ids : list nat) : Prop := {
  nu_count : local_id_count m = length ids;
  nu_local : forall x, x ∈ ids -> to_local m x = Some (rank ids x);
  nu_local_or : forall x, to_local_or m x None = Some (if bool_decide (x ∈ ids) then Some (rank ids x) else None);
  nu_global : forall k x, ids !! k = Some x -> to_global m k = Some x }.

Lemma mapper_numbers v P : set_rep v P -> exists m ids, new_mapper (bv_size v) (bv_data v) = Some m /\ enum P ids /\ numbers m ids.
Proof.
  intros (l & Hl & Hb). destruct (C06_id_mapper v l Hl) as (m & E & Hc & _ & _ & Hloc & _ & Hor). exists m, (ids_of l). split; [done|].
  pose proof (ids_enum l P Hb) as He. split; [done|].
  assert (forall x, x ∈ ids_of l <-> nth x l false = true) as Hin by (intros x; rewrite Hb; apply He).
  split.
  - by rewrite Hc, count_true_ids.
  - intros x Hx%Hin. rewrite rank_ids by done. by apply Hloc.
  - intros x. rewrite Hor. destruct (nth x l false) eqn:Ex.
    + rewrite bool_decide_eq_true_2 by (by apply Hin). by rewrite rank_ids.
    + rewrite bool_decide_eq_false_2; [done|]. rewrite Hin. congruence.
  - intros k x Hk. apply (rank_lookup _ _ _ (proj1 He)) in Hk as [Hx%Hin Hr]. subst k. rewrite rank_ids by done. by apply Hloc.
Qed.
