(** Arrays of which a prefix is in use: queues and stacks. *)
From Verif Require Import Base UtilSpec GraphSpec FlowModel FlowSpec.

Ltac Zify.zify_post_hook ::= idtac.

Definition sarr (n : nat) (arr : list nat) (e : nat) (q : list nat) : Prop := length arr = n /\ e = length q /\ take e arr = q.

Lemma sarr_push n arr e q y : sarr n arr e q -> length q < n -> exists arr', wr arr e y = Some arr' /\ sarr n arr' (e + 1) (q ++ [y]).
Proof.
  intros (Hl & -> & Ht) Hlt. rewrite wr_Some by lia. eexists. split; [done|].
  split; [by rewrite insert_length|]. rewrite app_length. split; [cbn; lia|].
  rewrite Nat.add_1_r. rewrite (take_S_r _ _ y) by (apply list_lookup_insert; lia).
  rewrite take_insert by lia. by rewrite Ht.
Qed.
Lemma sarr_lookup n arr e q k : sarr n arr e q -> k < e -> arr !! k = q !! k.
Proof. intros (Hl & He & Ht) Hk. rewrite <- Ht. by rewrite lookup_take. Qed.
Lemma sarr_le n arr e q : sarr n arr e q -> e <= n.
Proof. intros (Hl & He & Ht). assert (length (take e arr) = e) as H by (rewrite Ht; done). rewrite take_length in H. lia. Qed.
Lemma sarr_pop n arr e q x : sarr n arr e (q ++ [x]) -> 0 < e /\ arr !! (e - 1) = Some x /\ sarr n arr (e - 1) q.
Proof.
  intros H. pose proof H as (Hl & He & Ht). rewrite app_length in He. cbn in He. split; [lia|]. split.
  - rewrite (sarr_lookup n arr e _ _ H) by lia. rewrite He. replace (length q + 1 - 1) with (length q) by lia.
    rewrite lookup_app_r by lia. by rewrite Nat.sub_diag.
  - split; [done|]. split; [lia|]. replace (e - 1) with (length q) by lia.
    assert (take (length q) (take e arr) = q) as H2 by (rewrite Ht; by rewrite take_app).
    rewrite take_take in H2. rewrite Nat.min_l in H2 by lia. done.
Qed.
Lemma sarr_init n : sarr n (replicate n 0) 0 [].
Proof. split; [by rewrite replicate_length|]. split; [done|]. by rewrite take_0. Qed.
Lemma sarr_reset n arr e q : sarr n arr e q -> sarr n arr 0 [].
Proof. intros (Hl & _). split; [done|]. split; [done|]. by rewrite take_0. Qed.

Lemma nodup_lt_len n (l : list nat) : NoDup l -> (forall x, x ∈ l -> x < n) -> length l <= n.
Proof.
  intros Hnd Hlt. rewrite <- (seq_length n 0). apply submseteq_length. apply NoDup_submseteq; [done|].
  intros x Hx. apply elem_of_seq. specialize (Hlt x Hx). lia.
Qed.
Lemma nodup_snoc (l : list nat) x : NoDup l -> x ∉ l -> NoDup (l ++ [x]).
Proof.
  intros H Hx. apply NoDup_app. split; [done|]. split; [|apply NoDup_singleton].
  intros z Hz Hz'. apply elem_of_list_singleton in Hz'. subst. done.
Qed.

(** The marked nodes below [k], in order. *)
Definition marked (S : list bool) (k : nat) : list nat := filter (fun x => node_in S x = true) (seq 0 k).
Lemma marked_S S k : marked S (k + 1) = marked S k ++ (if node_in S k then [k] else []).
Proof.
  unfold marked. rewrite seq_app, filter_app. f_equal. change (seq (0 + k) 1) with [k]. rewrite filter_cons, filter_nil.
  destruct (node_in S k) eqn:E; [by rewrite decide_True|by rewrite decide_False].
Qed.
Lemma marked_in S k x : x ∈ marked S k <-> x < k /\ node_in S x = true.
Proof. unfold marked. rewrite elem_of_list_filter, elem_of_seq. naive_solver lia. Qed.
Lemma marked_NoDup S k : NoDup (marked S k).
Proof. unfold marked. apply NoDup_filter, NoDup_seq. Qed.
Lemma marked_len S k : length (marked S k) <= k.
Proof. unfold marked. rewrite filter_length. by rewrite seq_length. Qed.

Section Frag.
  Context (g : fragment) (Hok : fragment_ok g).
  Notation n := (fr_nodes g).
  Notation m := (fr_arcs g).

  Lemma frag_m : length (fr_head g) = m.
  Proof using Hok. unfold fr_arcs. by rewrite (fo_tail_len _ Hok). Qed.
  Lemma frag_range x : x < n -> exists lo hi, fr_first_out g !! x = Some lo /\ fr_first_out g !! (x + 1) = Some hi /\ lo <= hi <= m /\
    (forall a, lo <= a < hi -> fr_tail g !! a = Some x) /\ (forall a, fr_tail g !! a = Some x -> lo <= a < hi).
  Proof using Hok.
    intros Hx. destruct (csr_range _ _ _ _ (fo_csr _ Hok) Hx) as (lo & hi & H1 & H2 & H3). exists lo, hi.
    rewrite frag_m in H3. rewrite Nat.add_1_r. split; [done|]. split; [done|]. split; [done|]. split.
    - intros a Ha. apply (fo_tail _ Hok). by exists lo, hi.
    - intros a Ha. apply (fo_tail _ Hok) in Ha. destruct Ha as (lo' & hi' & H4 & H5 & H6). rewrite H1 in H4. rewrite H2 in H5. simplify_eq. done.
  Qed.
  Lemma frag_tail a : a < m -> exists x, fr_tail g !! a = Some x /\ x < n.
  Proof using Hok.
    intros Ha. destruct (lookup_lt_is_Some_2 (fr_tail g) a Ha) as [x Hx]. exists x. split; [done|].
    apply (fo_tail _ Hok) in Hx. apply (out_arc_lt _ _ _ _ _ (fo_csr _ Hok)) in Hx. apply Hx.
  Qed.
  Lemma frag_tail_lt a x : fr_tail g !! a = Some x -> a < m /\ x < n.
  Proof using Hok.
    intros Hx. assert (a < m) as Ha by (by apply lookup_lt_Some in Hx). split; [done|].
    destruct (frag_tail a Ha) as (x' & Hx' & Hlt). by simplify_eq.
  Qed.
  Lemma frag_head a : a < m -> exists y, fr_head g !! a = Some y /\ y < n.
  Proof using Hok.
    intros Ha. destruct (lookup_lt_is_Some_2 (fr_head g) a ltac:(rewrite frag_m; done)) as [y Hy]. exists y. split; [done|].
    apply (csr_head _ _ _ (fo_csr _ Hok)). by apply elem_of_list_lookup_2 in Hy.
  Qed.
  Lemma frag_back a : a < m -> exists b, fr_back g !! a = Some b /\ b < m /\ fr_back g !! b = Some a.
  Proof using Hok.
    intros Ha. destruct (lookup_lt_is_Some_2 (fr_back g) a ltac:(rewrite (fo_back_len _ Hok), frag_m; done)) as [b Hb].
    exists b. split; [done|]. pose proof (fo_back _ Hok _ _ Hb) as H. split; [|done].
    apply lookup_lt_Some in H. by rewrite (fo_back_len _ Hok), frag_m in H.
  Qed.

  Lemma lk_bool (l : list bool) k x : length l = k -> x < k -> l !! x = Some (node_in l x).
  Proof using. intros Hl Hx. unfold node_in. destruct (lookup_lt_is_Some_2 l x) as [b Hb]; [lia|]. by rewrite Hb. Qed.
  Lemma node_in_lt (l : list bool) x : node_in l x = true -> x < length l.
  Proof using. unfold node_in. intros H. apply lookup_lt_is_Some. destruct (l !! x); [done|discriminate]. Qed.
  Lemma node_in_insert (l : list bool) x y b : x < length l -> node_in (<[x:=b]> l) y = if decide (x = y) then b else node_in l y.
  Proof using.
    intros Hx. unfold node_in. case_decide; subst; [by rewrite list_lookup_insert|by rewrite list_lookup_insert_ne].
  Qed.

  (** :113-120, 347-357 *)
  Lemma push_marked_spec (mark : list bool) (stack : list nat) : length mark = n -> length stack = n ->
    exists arr, push_marked g mark stack = Some (arr, length (marked mark n)) /\ sarr n arr (length (marked mark n)) (marked mark n).
  Proof using.
    intros Hm Hs. unfold push_marked.
    match goal with |- context [for_range 0 n ?body] =>
      destruct (for_range_inv (fun k (s : list nat * nat) => let '(arr, e) := s in sarr n arr e (marked mark k)) body 0 n (stack, 0)) as ((arr & e) & Hf & Hi) end.
    - lia.
    - split; [done|]. split; [done|]. by rewrite take_0.
    - intros x [arr e] Hx Hi. rewrite (lk_bool mark n x Hm) by lia. rewrite bind_S.
      replace (S x) with (x + 1) by lia. rewrite marked_S. destruct (node_in mark x).
      + pose proof (marked_len mark x). destruct (sarr_push n arr e _ x Hi) as (arr' & Hw & Hi'); [lia|].
        rewrite Hw, bind_S. eauto.
      + rewrite app_nil_r. eauto.
    - rewrite Hf. exists arr. destruct Hi as (H1 & -> & H3). done.
  Qed.
  Lemma collect_spec (mark : list bool) : length mark = n ->
    exists arr, collect g mark = Some (arr, length (marked mark n)) /\ sarr n arr (length (marked mark n)) (marked mark n).
  Proof using. intros Hm. apply (push_marked_spec mark (replicate n 0)); [done|apply replicate_length]. Qed.
End Frag.
