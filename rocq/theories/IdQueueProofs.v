(** Proofs about IdQueueModel. *)
From Verif Require Import Base IdQueueModel IdQueueSpec PermutationProofs.
From Coq Require Import ZifyBool ZifyNat ZifyN.
Ltac Zify.zify_post_hook ::= Z.div_mod_to_equations.

(** Positions and heap entries agree. *)
Record qstruct (n : nat) (q : queue) : Prop := {
  qs_ip : length (id_pos q) = n;
  qs_heap : length (heap q) = n;
  qs_size : heap_size q <= n;
  qs_iff : forall id i, id_pos q !! id = Some (Some i) <-> i < heap_size q /\ exists k, heap q !! i = Some (id, k) }.

(** Key stored at a heap position. *)
Definition kf (q : queue) (i : nat) : N := match heap q !! i with Some (_, k) => k | None => 0%N end.
Definition par (i : nat) : nat := (i - 1) / 4.
Definition horder (q : queue) : Prop := forall i, 0 < i < heap_size q -> (kf q (par i) <= kf q i)%N.
(** Key associated with an id. *)
Definition qkey (q : queue) (id : nat) : option N :=
  match id_pos q !! id with Some (Some i) => snd <$> heap q !! i | _ => None end.

Lemma qs_at n q i : qstruct n q -> i < heap_size q ->
  exists id, heap q !! i = Some (id, kf q i) /\ id_pos q !! id = Some (Some i) /\ id < n.
Proof.
  intros H Hi. destruct (lookup_lt_is_Some_2 (heap q) i) as [[id k] He].
  { rewrite (qs_heap _ _ H). pose proof (qs_size _ _ H) as Hls. lia. }
  exists id. unfold kf. rewrite He.
  assert (id_pos q !! id = Some (Some i)) as Hp by (apply (qs_iff _ _ H); eauto).
  split; [done|]. split; [done|]. apply lookup_lt_Some in Hp. rewrite (qs_ip _ _ H) in Hp. done.
Qed.

Lemma swap_entries_spec n q i j :
  qstruct n q -> i < heap_size q -> j < heap_size q -> i <> j ->
  exists q', swap_entries q i j = Some q' /\ qstruct n q' /\ heap_size q' = heap_size q /\
    (forall id, qkey q' id = qkey q id) /\ kf q' i = kf q j /\ kf q' j = kf q i /\
    (forall k, k <> i -> k <> j -> kf q' k = kf q k) /\
    (forall k, k <> i -> k <> j -> heap q' !! k = heap q !! k).
Proof.
  intros H Hi Hj Hne.
  destruct (qs_at _ _ _ H Hi) as (a & Ha & Hpa & Han). destruct (qs_at _ _ _ H Hj) as (b & Hb & Hpb & Hbn).
  assert (a <> b) as Hab by (intros ->; congruence).
  pose proof (qs_heap _ _ H) as Hlh. pose proof (qs_ip _ _ H) as Hlp. pose proof (qs_size _ _ H) as Hs.
  unfold swap_entries. rewrite Ha, bind_S, Hb, bind_S. rewrite wr_Some, bind_S by lia.
  rewrite wr_Some, bind_S by len. cbn [fst]. rewrite Hpb, bind_S, Hpa, bind_S.
  rewrite wr_Some, bind_S by lia. rewrite wr_Some, bind_S by len.
  eexists. split; [done|]. 
  set (hp := <[j:=(a, kf q i)]> (<[i:=(b, kf q j)]> (heap q))).
  set (ip := <[a:=Some j]> (<[b:=Some i]> (id_pos q))).
  assert (hp !! i = Some (b, kf q j)) as Hhi.
  { unfold hp. rewrite list_lookup_insert_ne by done. rewrite list_lookup_insert by lia. done. }
  assert (hp !! j = Some (a, kf q i)) as Hhj.
  { unfold hp. rewrite list_lookup_insert by len. done. }
  assert (forall k, k <> i -> k <> j -> hp !! k = heap q !! k) as Hhk.
  { intros k ? ?. unfold hp. rewrite !list_lookup_insert_ne by done. done. }
  assert (ip !! a = Some (Some j)) as Hia by (unfold ip; rewrite list_lookup_insert by len; done).
  assert (ip !! b = Some (Some i)) as Hib.
  { unfold ip; rewrite list_lookup_insert_ne by done. rewrite list_lookup_insert by lia; done. }
  assert (forall k, k <> a -> k <> b -> ip !! k = id_pos q !! k) as Hik.
  { intros k ? ?. unfold ip. rewrite !list_lookup_insert_ne by done. done. }
  split; [|split; [done|split; [|split; [|split; [|split; [|exact Hhk]]]]]].
  - split; cbn [id_pos heap heap_size]; [unfold ip; len|unfold hp; len|done|].
    intros id p. destruct (decide (id = a)) as [->|Hna]; [|destruct (decide (id = b)) as [->|Hnb]].
    + rewrite Hia. split.
      * intros ?. simplify_eq. split; [done|]. eauto.
      * intros (Hp & k & Hk). destruct (decide (p = j)) as [->|]; [done|]. exfalso.
        destruct (decide (p = i)) as [->|]; [congruence|]. rewrite Hhk in Hk by done.
        assert (id_pos q !! a = Some (Some p)) by (apply (qs_iff _ _ H); eauto). congruence.
    + rewrite Hib. split.
      * intros ?. simplify_eq. split; [done|]. eauto.
      * intros (Hp & k & Hk). destruct (decide (p = i)) as [->|]; [done|]. exfalso.
        destruct (decide (p = j)) as [->|]; [congruence|]. rewrite Hhk in Hk by done.
        assert (id_pos q !! b = Some (Some p)) by (apply (qs_iff _ _ H); eauto). congruence.
    + rewrite Hik by done. rewrite (qs_iff _ _ H). split.
      * intros (Hp & k & Hk). split; [done|]. exists k. rewrite Hhk; [done|congruence..].
      * intros (Hp & k & Hk). split; [done|]. exists k. rewrite Hhk in Hk; [done|congruence..].
  - intros id. unfold qkey. cbn [id_pos heap].
    destruct (decide (id = a)) as [->|Hna]; [|destruct (decide (id = b)) as [->|Hnb]].
    + fold ip hp. rewrite Hia, Hpa, Hhj, Ha. done.
    + fold ip hp. rewrite Hib, Hpb, Hhi, Hb. done.
    + fold ip hp. rewrite Hik by done. destruct (id_pos q !! id) as [[p|]|] eqn:E; [|done..].
      assert (exists k, heap q !! p = Some (id, k)) as [k Hk] by (by apply (qs_iff _ _ H) in E as [_ ?]).
      rewrite Hhk; [done|congruence..].
  - unfold kf at 1. cbn [heap]. fold hp. rewrite Hhi. done.
  - unfold kf at 1. cbn [heap]. fold hp. rewrite Hhj. done.
  - intros k ? ?. unfold kf. cbn [heap]. fold hp. rewrite Hhk by done. done.
Qed.

(** ** move_up *)
Definition up_inv (q : queue) (pos : nat) : Prop :=
  (forall i, 0 < i < heap_size q -> i <> pos -> (kf q (par i) <= kf q i)%N) /\
  (forall c, 0 < c < heap_size q -> par c = pos -> pos <> 0 -> (kf q (par pos) <= kf q c)%N).

Lemma par_lt i : i <> 0 -> par i < i.
Proof. unfold par. intros. lia. Qed.

Lemma move_up_spec n fuel q pos :
  qstruct n q -> pos < heap_size q -> pos <= fuel -> up_inv q pos ->
  exists q', move_up_in_tree fuel q pos = Some q' /\ qstruct n q' /\ heap_size q' = heap_size q /\
    (forall id, qkey q' id = qkey q id) /\ horder q'.
Proof.
  revert q pos. induction fuel as [|fuel IH]; intros q pos H Hpos Hf [Hu1 Hu2]; cbn [move_up_in_tree].
  { assert (pos = 0) as -> by lia. rewrite decide_True by done. exists q. split; [done|]. split; [done|]. split; [done|].
    split; [done|]. intros i Hi. apply Hu1; lia. }
  case_decide as E.
  { subst. exists q. split; [done|]. split; [done|]. split; [done|]. split; [done|]. intros i Hi. apply Hu1; lia. }
  change ((pos - 1) / 4) with (par pos). pose proof (par_lt pos E) as Hpl.
  destruct (qs_at n q (par pos) H) as (a & Ha & _); [lia|]. destruct (qs_at n q pos H) as (b & Hb & _); [lia|].
  rewrite Ha, bind_S, Hb, bind_S. cbn [snd]. case_decide as Hc.
  - destruct (swap_entries_spec n q pos (par pos)) as (q1 & -> & Hs1 & Hsz & Hk & Hk1 & Hk2 & Hk3 & _); [done|lia|lia|lia|].
    rewrite bind_S.
    destruct (IH q1 (par pos)) as (q' & Hq' & Hs' & Hsz' & Hk' & Ho); [done|lia|lia| |].
    + split.
      * intros i Hi Hne. destruct (decide (i = pos)) as [->|Hnp].
        { rewrite Hk2, Hk1. lia. }
        pose proof (Hu1 i ltac:(lia) Hnp) as Hi1. pose proof (par_lt i ltac:(lia)).
        rewrite (Hk3 i) by done.
        destruct (decide (par i = pos)) as [Ep|].
        { rewrite Ep, Hk1. apply Hu2; [lia|done|done]. }
        destruct (decide (par i = par pos)) as [Ep|].
        { rewrite Ep, Hk2. rewrite Ep in Hi1. lia. }
        rewrite Hk3 by done. done.
      * intros c Hcr Hcp Hne. pose proof (par_lt (par pos) Hne).
        rewrite (Hk3 (par (par pos))) by lia.
        pose proof (Hu1 (par pos) ltac:(lia) ltac:(lia)) as Hg.
        destruct (decide (c = pos)) as [->|].
        { rewrite Hk1. done. }
        rewrite (Hk3 c); [|done|pose proof (par_lt c ltac:(lia)); lia].
        pose proof (Hu1 c ltac:(lia) ltac:(done)) as Hcc. rewrite Hcp in Hcc. lia.
    + exists q'. split; [done|]. split; [done|]. split; [lia|]. split; [|done]. intros id. rewrite Hk', Hk. done.
  - rewrite bind_S. apply IH; [done|lia|lia|]. split.
    + intros i Hi Hne. destruct (decide (i = pos)) as [->|]; [lia|]. apply Hu1; [lia|done].
    + intros c Hcr Hcp Hne.
      pose proof (Hu1 (par pos) ltac:(lia) ltac:(lia)) as Hg.
      destruct (decide (c = pos)) as [->|]; [lia|].
      pose proof (Hu1 c ltac:(lia) ltac:(done)) as Hcc. rewrite Hcp in Hcc. lia.
Qed.

(** ** move_down *)
Definition down_inv (q : queue) (pos : nat) : Prop :=
  (forall i, 0 < i < heap_size q -> par i <> pos -> (kf q (par i) <= kf q i)%N) /\
  (forall c, 0 < c < heap_size q -> par c = pos -> pos <> 0 -> (kf q (par pos) <= kf q c)%N).

Lemma smallest_child_spec n q pos :
  qstruct n q -> 4 * pos + 1 < heap_size q ->
  exists s, smallest_child q pos = Some s /\ par s = pos /\ 0 < s < heap_size q /\
    forall c, 0 < c < heap_size q -> par c = pos -> (kf q s <= kf q c)%N.
Proof.
  intros H Hfc. unfold smallest_child.
  set (hi := (4 * pos + 5) `min` heap_size q).
  assert (4 * pos + 2 <= hi) by (unfold hi; lia).
  destruct (for_range_inv
    (fun c s => par s = pos /\ 0 < s < heap_size q /\ forall c', 4 * pos + 1 <= c' < c -> (kf q s <= kf q c')%N)
    (fun c s => x ← heap q !! s; y ← heap q !! c;
       Some (if decide (snd y < snd x)%N then c else s)) (4 * pos + 2) hi (4 * pos + 1)) as (s & -> & Hp & Hs & Hmin).
  - lia.
  - split; [unfold par; lia|]. split; [lia|]. intros c' Hc'. replace c' with (4 * pos + 1) by lia. done.
  - intros c s Hc (Hp & Hs & Hmin). unfold hi in Hc.
    destruct (qs_at n q s H) as (a & Ha & _); [lia|]. destruct (qs_at n q c H) as (b & Hb & _); [lia|].
    rewrite Ha, bind_S, Hb, bind_S. cbn [snd]. eexists. split; [done|]. case_decide as E.
    + split; [unfold par; lia|]. split; [lia|]. intros c' Hc'. destruct (decide (c' = c)) as [->|]; [done|].
      specialize (Hmin c' ltac:(lia)). lia.
    + split; [done|]. split; [lia|]. intros c' Hc'. destruct (decide (c' = c)) as [->|]; [lia|]. apply Hmin; lia.
  - exists s. split; [done|]. split; [done|]. split; [done|]. intros c Hc Hcp. apply Hmin. unfold hi. unfold par in Hcp. lia.
Qed.

Lemma move_down_spec n fuel q pos :
  qstruct n q -> heap_size q < fuel + pos -> pos <= heap_size q -> down_inv q pos ->
  exists q', move_down_in_tree fuel q pos = Some q' /\ qstruct n q' /\ heap_size q' = heap_size q /\
    (forall id, qkey q' id = qkey q id) /\ horder q' /\ (forall i, heap_size q <= i -> heap q' !! i = heap q !! i).
Proof.
  revert q pos. induction fuel as [|fuel IH]; intros q pos H Hf Hpos [Hd1 Hd2]; [lia|]. cbn [move_down_in_tree]. cbv zeta.
  case_decide as E.
  { exists q. repeat (split; [done|]). split; [|done]. intros i Hi. apply Hd1; [lia|]. unfold par. lia. }
  destruct (smallest_child_spec n q pos H ltac:(lia)) as (s & -> & Hsp & Hs & Hmin). rewrite bind_S.
  assert (pos < s) as Hlt by (unfold par in Hsp; lia).
  destruct (qs_at n q s H) as (a & Ha & _); [lia|]. destruct (qs_at n q pos H) as (b & Hb & _); [lia|].
  rewrite Ha, bind_S, Hb, bind_S. cbn [snd]. case_decide as Hc.
  { exists q. repeat (split; [done|]). split; [|done]. intros i Hi.
    destruct (decide (par i = pos)) as [<-|]; [|apply Hd1; [lia|done]]. specialize (Hmin i Hi ltac:(done)). lia. }
  destruct (swap_entries_spec n q pos s) as (q1 & -> & Hs1 & Hsz & Hk & Hk1 & Hk2 & Hk3 & Hh3); [done|lia|lia|lia|].
  rewrite bind_S.
  destruct (IH q1 s) as (q' & Hq' & Hs' & Hsz' & Hk' & Ho & Hh'); [done|lia|lia| |].
  - split.
    + intros i Hi Hne. pose proof (par_lt i ltac:(lia)). destruct (decide (i = s)) as [->|Hnp].
      { rewrite Hsp, Hk1, Hk2. lia. }
      destruct (decide (par i = pos)) as [Ep|].
      { rewrite Ep, Hk1. rewrite (Hk3 i); [|lia|done]. apply Hmin; [lia|done]. }
      destruct (decide (i = pos)) as [->|].
      { rewrite Hk1, Hk3 by lia. apply Hd2; [lia|done|lia]. }
      rewrite !Hk3 by done. apply Hd1; [lia|done].
    + intros c Hcr Hcp Hne. pose proof (par_lt c ltac:(lia)). rewrite Hsp, Hk1. rewrite Hk3 by lia.
      rewrite <- Hcp. apply Hd1; [lia|]. lia.
  - exists q'. split; [done|]. split; [done|]. split; [lia|]. split; [intros id; rewrite Hk', Hk; done|].
    split; [done|]. intros i Hi. rewrite Hh' by lia. apply Hh3; lia.
Qed.

(** ** Refinement to a finite map *)
Definition qref (n : nat) (q : queue) (m : gmap nat N) : Prop :=
  qstruct n q /\ horder q /\ forall id, m !! id = qkey q id.

Lemma qkey_at n q i id k : qstruct n q -> i < heap_size q -> heap q !! i = Some (id, k) -> qkey q id = Some k.
Proof.
  intros H Hi He. assert (id_pos q !! id = Some (Some i)) as Hp by (apply (qs_iff _ _ H); eauto).
  unfold qkey. rewrite Hp, He. done.
Qed.
Lemma qkey_Some n q id k : qstruct n q -> qkey q id = Some k ->
  exists i, id_pos q !! id = Some (Some i) /\ i < heap_size q /\ heap q !! i = Some (id, k).
Proof.
  intros H Hk. unfold qkey in Hk. destruct (id_pos q !! id) as [[i|]|] eqn:E; [|done..].
  pose proof E as E'. apply (qs_iff _ _ H) in E' as (Hi & k' & He). rewrite He in Hk. cbn in Hk. simplify_eq. eauto.
Qed.

Lemma live_ids_NoDup n q : qstruct n q -> NoDup ((take (heap_size q) (heap q)).*1).
Proof.
  intros H. apply NoDup_alt. intros i j id Hi Hj. rewrite list_lookup_fmap in Hi, Hj.
  apply fmap_Some in Hi as ([id1 k1] & Hi & ->). apply fmap_Some in Hj as ([id2 k2] & Hj & E). cbn in E. subst.
  apply lookup_take_Some in Hi as [Hi Hil]. apply lookup_take_Some in Hj as [Hj Hjl].
  assert (id_pos q !! id2 = Some (Some i)) by (apply (qs_iff _ _ H); cbn in *; eauto).
  assert (id_pos q !! id2 = Some (Some j)) by (apply (qs_iff _ _ H); eauto). congruence.
Qed.

Lemma qref_list n q m : qref n q m -> m = list_to_map (take (heap_size q) (heap q)).
Proof.
  intros (H & _ & Hm). apply map_eq. intros id. rewrite Hm. apply option_eq. intros k.
  rewrite <- elem_of_list_to_map by (by eapply live_ids_NoDup). rewrite elem_of_list_lookup. split.
  - intros (i & _ & Hi & He)%(qkey_Some n); [|done]. exists i. rewrite lookup_take by done. done.
  - intros (i & He). apply lookup_take_Some in He as [He Hi]. by eapply qkey_at.
Qed.

Lemma qref_size n q m : qref n q m -> size m = heap_size q.
Proof.
  intros H. pose proof H as (Hs & _ & _). rewrite (qref_list _ _ _ H). unfold size, map_size.
  rewrite map_to_list_to_map by (by eapply live_ids_NoDup).
  rewrite take_length. pose proof (qs_heap _ _ Hs). pose proof (qs_size _ _ Hs). lia.
Qed.

Lemma horder_root n q i : qstruct n q -> horder q -> i < heap_size q -> (kf q 0 <= kf q i)%N.
Proof.
  intros H Ho. induction (lt_wf i) as [i _ IH]. intros Hi. destruct (decide (i = 0)) as [->|]; [done|].
  pose proof (par_lt i ltac:(done)) as Hp. specialize (IH (par i) Hp ltac:(lia)). specialize (Ho i ltac:(lia)). lia.
Qed.

Lemma qref_new n : qref n (new_queue n) ∅.
Proof.
  split; [|split].
  - split; cbn [id_pos heap heap_size new_queue]; [len|len|lia|]. intros id i. split; [|lia].
    intros [? ?]%lookup_replicate. done.
  - intros i Hi. cbn in Hi. lia.
  - intros id. rewrite lookup_empty. unfold qkey, new_queue. cbn.
    destruct (replicate n None !! id) as [[i|]|] eqn:E; [|done..]. apply lookup_replicate in E as [? _]. done.
Qed.

Lemma root_min n q m : qref n q m -> m <> ∅ -> exists id k,
  heap q !! 0 = Some (id, k) /\ is_min m id k /\ 0 < heap_size q.
Proof.
  intros H Hne. pose proof (qref_size _ _ _ H) as Hsz. destruct H as (Hs & Ho & Hm).
  assert (0 < heap_size q) as Hpos.
  { rewrite <- Hsz. destruct (decide (size m = 0)) as [E|]; [|lia]. by apply map_size_empty_inv in E. }
  destruct (qs_at _ _ 0 Hs Hpos) as (id & He & _). exists id, (kf q 0). split; [done|]. split; [|done]. split.
  - rewrite Hm. by eapply qkey_at.
  - intros id' k' Hk'. rewrite Hm in Hk'. apply (qkey_Some n) in Hk' as (i & _ & Hi & He'); [|done].
    replace k' with (kf q i) by (unfold kf; rewrite He'; done). by eapply horder_root.
Qed.

(** Overwriting the key at a live position. *)
Lemma set_key_struct n q pos id k0 k :
  qstruct n q -> pos < heap_size q -> heap q !! pos = Some (id, k0) ->
  let q1 := mkQueue (id_pos q) (<[pos:=(id,k)]> (heap q)) (heap_size q) in
  qstruct n q1 /\ kf q1 pos = k /\ (forall i, i <> pos -> kf q1 i = kf q i) /\
  (forall id', qkey q1 id' = if decide (id' = id) then Some k else qkey q id').
Proof.
  intros H Hpos He q1. pose proof (qs_heap _ _ H) as Hlh. pose proof (qs_size _ _ H) as Hls.
  assert (qstruct n q1) as H1.
  { split; cbn [id_pos heap heap_size q1]; [apply (qs_ip _ _ H)|len|done|].
    intros id' i. rewrite (qs_iff _ _ H). split; intros (Hi & k' & Hk'); (split; [done|]).
    - destruct (decide (pos = i)) as [->|]; [|exists k'; rewrite list_lookup_insert_ne by done; done].
      rewrite list_lookup_insert by lia. simplify_eq. eauto.
    - destruct (decide (pos = i)) as [->|]; [|rewrite list_lookup_insert_ne in Hk' by done; eauto].
      rewrite list_lookup_insert in Hk' by lia. simplify_eq. eauto. }
  split; [done|]. split; [|split].
  - unfold kf. cbn [heap q1]. rewrite list_lookup_insert by lia. done.
  - intros i Hi. unfold kf. cbn [heap q1]. rewrite list_lookup_insert_ne by done. done.
  - intros id'. case_decide as E.
    + subst id'. eapply (qkey_at n q1 pos); [done|done|]. cbn [heap q1]. rewrite list_lookup_insert by lia. done.
    + unfold qkey. cbn [id_pos heap q1]. destruct (id_pos q !! id') as [[i|]|] eqn:Ei; [|done..].
      rewrite list_lookup_insert_ne; [done|]. intros <-. apply (qs_iff _ _ H) in Ei as (_ & k' & Hk'). congruence.
Qed.

Lemma clear_spec n q m : qref n q m -> exists q', clear q = Some q' /\ qref n q' ∅.
Proof.
  intros (H & Ho & Hm). unfold clear. pose proof (qs_heap _ _ H) as Hlh. pose proof (qs_size _ _ H) as Hls. pose proof (qs_ip _ _ H) as Hlp.
  destruct (for_range_inv
    (fun i ip => length ip = n /\ forall id j, ip !! id = Some (Some j) -> i <= j /\ id_pos q !! id = Some (Some j))
    (fun i ip => e ← heap q !! i; wr ip (fst e) None) 0 (heap_size q) (id_pos q)) as (ip & -> & Hl & Hip).
  - lia.
  - split; [done|]. intros id j Hj. split; [lia|done].
  - intros i ip Hi (Hl & Hip). destruct (qs_at n q i H) as (id & He & Hp & Hid); [lia|]. rewrite He, bind_S. cbn [fst].
    rewrite wr_Some by lia. eexists. split; [done|]. split; [len|]. intros id' j Hj.
    destruct (decide (id = id')) as [->|].
    + rewrite list_lookup_insert in Hj by lia. done.
    + rewrite list_lookup_insert_ne in Hj by done. destruct (Hip _ _ Hj) as [Hij Hj']. split; [|done].
      destruct (decide (i = j)) as [->|]; [|lia]. exfalso.
      apply (qs_iff _ _ H) in Hj' as (_ & k & Hk). congruence.
  - rewrite bind_S. eexists. split; [done|].
    assert (forall id i, ip !! id <> Some (Some i)) as Hnone.
    { intros id i Hi. destruct (Hip _ _ Hi) as [Hle Hi']. apply (qs_iff _ _ H) in Hi' as [? _]. lia. }
    split; [|split].
    + split; cbn [id_pos heap heap_size]; [done|done|lia|]. intros id i. split; [|lia]. intros Hi. by apply Hnone in Hi.
    + intros i Hi. cbn in Hi. lia.
    + intros id. rewrite lookup_empty. unfold qkey. cbn [id_pos].
      destruct (ip !! id) as [[i|]|] eqn:E; [by apply Hnone in E|done..].
Qed.

Lemma push_spec n q m id k :
  qref n q m -> id < n -> m !! id = None ->
  exists q', push q (id, k) = Some q' /\ qref n q' (<[id:=k]> m).
Proof.
  intros (H & Ho & Hm) Hid Hnone. pose proof (qs_heap _ _ H) as Hlh. pose proof (qs_size _ _ H) as Hls. pose proof (qs_ip _ _ H) as Hlp.
  unfold push, contains_id. cbn [fst].
  assert (id_pos q !! id = Some None) as Hp.
  { destruct (lookup_lt_is_Some_2 (id_pos q) id) as [[i|] Hi]; [lia| |done]. exfalso.
    rewrite Hm in Hnone. pose proof Hi as Hi'. apply (qs_iff _ _ H) in Hi' as (Hlt & k' & Hk').
    unfold qkey in Hnone. rewrite Hi, Hk' in Hnone. done. }
  rewrite Hp, bind_S, bind_S. rewrite bool_decide_eq_false_2 by (intros E; by apply E). cbn [chk negb]. rewrite bind_S.
  assert (heap_size q < n) as Hlt.
  { assert (S (heap_size q) <= n); [|lia].
    assert (NoDup (id :: (take (heap_size q) (heap q)).*1)) as Hnd.
    { apply NoDup_cons. split; [|by eapply live_ids_NoDup]. intros ([id' k'] & E & Hin)%elem_of_list_fmap. cbn in E. subst.
      apply elem_of_list_lookup in Hin as (i & Hi). apply lookup_take_Some in Hi as [Hi Hil].
      assert (id_pos q !! id' = Some (Some i)) by (apply (qs_iff _ _ H); eauto). congruence. }
    assert (length (id :: (take (heap_size q) (heap q)).*1) <= length (seq 0 n)) as Hlen.
    { apply submseteq_length. apply NoDup_submseteq; [done|]. intros x Hx. apply elem_of_seq.
      apply elem_of_cons in Hx as [->|([id' k'] & E & Hin)%elem_of_list_fmap]; [lia|]. cbn in E. subst.
      apply elem_of_list_lookup in Hin as (i & Hi). apply lookup_take_Some in Hi as [Hi Hil].
      assert (id_pos q !! id' = Some (Some i)) as Hx by (apply (qs_iff _ _ H); eauto). apply lookup_lt_Some in Hx. lia. }
    cbn [length] in Hlen. len. }
  rewrite (wr_Some (heap q)), bind_S by lia. rewrite wr_Some, bind_S by lia.
  set (q1 := mkQueue (<[id:=Some (heap_size q)]> (id_pos q)) (<[heap_size q:=(id, k)]> (heap q)) (S (heap_size q))).
  assert (qstruct n q1) as H1.
  { split; cbn [id_pos heap heap_size q1]; [len|len|lia|].
    intros id' i. destruct (decide (id = id')) as [<-|].
    - rewrite list_lookup_insert by lia. split.
      + intros ?. simplify_eq. split; [lia|]. exists k. rewrite list_lookup_insert by lia. done.
      + intros (Hi & k' & Hk'). destruct (decide (heap_size q = i)) as [->|]; [done|].
        rewrite list_lookup_insert_ne in Hk' by done.
        assert (id_pos q !! id = Some (Some i)) by (apply (qs_iff _ _ H); split; [lia|eauto]). congruence.
    - rewrite list_lookup_insert_ne by done. rewrite (qs_iff _ _ H). split; intros (Hi & k' & Hk').
      + split; [lia|]. exists k'. rewrite list_lookup_insert_ne by lia. done.
      + destruct (decide (heap_size q = i)) as [<-|].
        * rewrite list_lookup_insert in Hk' by lia. congruence.
        * rewrite list_lookup_insert_ne in Hk' by lia. split; [lia|eauto]. }
  assert (forall i, i <> heap_size q -> kf q1 i = kf q i) as Hkf.
  { intros i Hi. unfold kf. cbn [heap q1]. rewrite list_lookup_insert_ne by done. done. }
  destruct (move_up_spec n (heap_size q) q1 (heap_size q)) as (q' & Hq' & Hs' & Hsz' & Hk' & Ho').
  - done.
  - cbn. lia.
  - done.
  - split.
    + intros i Hi Hne. cbn in Hi. pose proof (par_lt i ltac:(lia)). rewrite !Hkf by lia. apply Ho. lia.
    + intros c Hc Hcp Hne. cbn in Hc. pose proof (par_lt c ltac:(lia)). lia.
  - exists q'. split; [exact Hq'|]. split; [done|]. split; [done|]. intros id'. rewrite Hk'.
    destruct (decide (id = id')) as [<-|Hne].
    + rewrite lookup_insert. symmetry. eapply (qkey_at n q1 (heap_size q)); [done|cbn; lia|].
      cbn [heap q1]. rewrite list_lookup_insert by lia. done.
    + rewrite lookup_insert_ne by done. rewrite Hm. unfold qkey. cbn [id_pos heap q1].
      rewrite list_lookup_insert_ne by done. destruct (id_pos q !! id') as [[i|]|] eqn:E; [|done..].
      apply (qs_iff _ _ H) in E as [Hi _]. rewrite list_lookup_insert_ne by lia. done.
Qed.

Lemma pop_spec n q m :
  qref n q m -> m <> ∅ ->
  exists id k q', pop q = Some ((id, k), q') /\ is_min m id k /\ qref n q' (delete id m).
Proof.
  intros Href Hne. destruct (root_min n q m Href Hne) as (id & k & He0 & Hmin & Hpos).
  destruct Href as (H & Ho & Hm). pose proof (qs_heap _ _ H) as Hlh. pose proof (qs_size _ _ H) as Hls. pose proof (qs_ip _ _ H) as Hlp.
  unfold pop, q_empty. rewrite bool_decide_eq_false_2 by lia. cbn [chk negb]. rewrite bind_S. cbv zeta.
  set (hs := heap_size q - 1).
  destruct (qs_at n q 0 H Hpos) as (id0 & He0' & Hp0 & Hid0). assert (id0 = id) as -> by congruence.
  destruct (qs_at n q hs H) as (idl & Hel & Hpl & Hidl); [lia|].
  rewrite He0, bind_S, Hel, bind_S. rewrite wr_Some, bind_S by lia. rewrite wr_Some, bind_S by len.
  set (hp := <[hs:=(id, k)]> (<[0:=(idl, kf q hs)]> (heap q))).
  assert (hp !! hs = Some (id, k)) as Hhs by (unfold hp; rewrite list_lookup_insert by len; done).
  assert (exists e0, hp !! 0 = Some (idl, e0) /\ (hs <> 0 -> e0 = kf q hs)) as (e0 & Hh0 & He0eq).
  { destruct (decide (hs = 0)) as [E|].
    - rewrite E in Hhs. exists k. rewrite Hhs. split; [|done]. rewrite E in Hel. congruence.
    - exists (kf q hs). split; [|done]. unfold hp. rewrite list_lookup_insert_ne by done. rewrite list_lookup_insert by lia. done. }
  assert (forall i, i <> 0 -> i <> hs -> hp !! i = heap q !! i) as Hhi.
  { intros i ? ?. unfold hp. rewrite !list_lookup_insert_ne by done. done. }
  rewrite Hh0, bind_S. cbn [fst]. rewrite wr_Some, bind_S by lia.
  rewrite Hhs, bind_S. cbn [fst]. rewrite wr_Some, bind_S by len.
  set (ip := <[id:=None]> (<[idl:=Some 0]> (id_pos q))).
  set (q1 := mkQueue ip hp hs).
  assert (ip !! id = Some None) as Hipid by (unfold ip; rewrite list_lookup_insert by len; done).
  assert (forall id', id' <> id -> id' <> idl -> ip !! id' = id_pos q !! id') as Hipo.
  { intros id' ? ?. unfold ip. rewrite !list_lookup_insert_ne by done. done. }
  assert (idl = id <-> hs = 0) as Hlid.
  { split; [intros ->; congruence|]. intros E. rewrite E in Hel. congruence. }
  assert (qstruct n q1) as H1.
  { split; cbn [id_pos heap heap_size q1]; [unfold ip; len|unfold hp; len|lia|].
    intros id' i. destruct (decide (id' = id)) as [->|Hn1].
    - rewrite Hipid. split; [done|]. intros (Hi & k' & Hk'). exfalso. destruct (decide (i = 0)) as [->|].
      + rewrite Hh0 in Hk'. assert (idl = id) as E by congruence. apply Hlid in E. lia.
      + rewrite Hhi in Hk' by lia.
        assert (id_pos q !! id = Some (Some i)) by (apply (qs_iff _ _ H); split; [lia|eauto]). congruence.
    - destruct (decide (id' = idl)) as [->|Hn2].
      + assert (ip !! idl = Some (Some 0)) as ->.
        { unfold ip. rewrite list_lookup_insert_ne by done. rewrite list_lookup_insert by lia. done. }
        assert (hs <> 0) by tauto. split.
        * intros ?. simplify_eq. split; [lia|eauto].
        * intros (Hi & k' & Hk'). destruct (decide (i = 0)) as [->|]; [done|]. rewrite Hhi in Hk' by lia.
          assert (id_pos q !! idl = Some (Some i)) by (apply (qs_iff _ _ H); split; [lia|eauto]).
          assert (i = hs) by congruence. lia.
      + rewrite Hipo by done. rewrite (qs_iff _ _ H). split; intros (Hi & k' & Hk').
        * assert (i <> 0) by congruence. assert (i <> hs) by congruence. split; [lia|]. exists k'. rewrite Hhi by done. done.
        * split; [lia|]. destruct (decide (i = 0)) as [->|]; [congruence|]. rewrite Hhi in Hk' by lia. eauto. }
  destruct (move_down_spec n (S hs) q1 0) as (q' & Hq' & Hs' & Hsz' & Hk' & Ho' & Hrest).
  - done.
  - cbn. lia.
  - lia.
  - split; [|lia]. intros i Hi Hp. cbn [heap_size q1] in Hi. pose proof (par_lt i ltac:(lia)).
    assert (kf q1 (par i) = kf q (par i)) as -> by (unfold kf; cbn [heap q1]; rewrite Hhi by lia; done).
    assert (kf q1 i = kf q i) as -> by (unfold kf; cbn [heap q1]; rewrite Hhi by lia; done).
    apply Ho. lia.
  - rewrite Hq', bind_S. rewrite Hrest by (cbn; lia). cbn [heap q1]. rewrite Hhs, bind_S.
    exists id, k, q'. split; [done|]. split; [done|]. split; [done|]. split; [done|].
    intros id'. rewrite Hk'. destruct (decide (id = id')) as [<-|Hne'].
    + rewrite lookup_delete. unfold qkey. cbn [id_pos q1]. rewrite Hipid. done.
    + rewrite lookup_delete_ne by done. rewrite Hm. unfold qkey. cbn [id_pos heap q1].
      destruct (decide (id' = idl)) as [->|Hn2].
      * assert (ip !! idl = Some (Some 0)) as ->.
        { unfold ip. rewrite list_lookup_insert_ne by done. rewrite list_lookup_insert by lia. done. }
        assert (hs <> 0) by (intros E; apply Hlid in E; congruence).
        rewrite Hpl, Hh0, Hel. cbn. f_equal. symmetry. auto.
      * rewrite Hipo by done. destruct (id_pos q !! id') as [[i|]|] eqn:E; [|done..].
        apply (qs_iff _ _ H) in E as (Hi & k' & Hki).
        assert (i <> 0) by congruence. assert (i <> hs) by congruence. rewrite Hhi by done. done.
Qed.

Lemma decrease_key_spec n q m id k k0 :
  qref n q m -> m !! id = Some k0 ->
  exists q', decrease_key q (id, k) = Some (bool_decide (k < k0)%N, q') /\
    qref n q' (if decide (k < k0)%N then <[id:=k]> m else m).
Proof.
  intros (H & Ho & Hm) Hk0. pose proof Hk0 as Hk0'. rewrite Hm in Hk0'. apply (qkey_Some n) in Hk0' as (pos & Hp & Hpos & He); [|done].
  pose proof (qs_heap _ _ H) as Hlh. pose proof (qs_size _ _ H) as Hls.
  unfold decrease_key. cbn [fst snd]. rewrite Hp, bind_S, bind_S, He, bind_S. cbn [fst snd].
  case_decide as Hc; [|rewrite bool_decide_eq_false_2 by done; exists q; done].
  rewrite bool_decide_eq_true_2 by done. rewrite wr_Some, bind_S by lia.
  destruct (set_key_struct n q pos id k0 k H Hpos He) as (H1 & Hkp & Hko & Hq1). 
  set (q1 := mkQueue (id_pos q) (<[pos:=(id, k)]> (heap q)) (heap_size q)) in *.
  assert (kf q pos = k0) as Hkfp by (unfold kf; rewrite He; done).
  destruct (move_up_spec n pos q1 pos) as (q' & -> & Hs' & Hsz' & Hk' & Ho'); [done|done|done| |].
  - split.
    + intros i Hi Hne. cbn [heap_size q1] in Hi. rewrite (Hko i) by done.
      specialize (Ho i Hi). destruct (decide (par i = pos)) as [E|].
      * rewrite E in *. rewrite Hkp. lia.
      * rewrite Hko by done. done.
    + intros c Hcr Hcp Hne. cbn [heap_size q1] in Hcr. pose proof (par_lt pos Hne). pose proof (par_lt c ltac:(lia)).
      rewrite !Hko by lia. pose proof (Ho c ltac:(lia)). pose proof (Ho pos ltac:(lia)). rewrite Hcp in *. lia.
  - rewrite bind_S. exists q'. split; [done|]. split; [done|]. split; [done|]. intros id'. rewrite Hk', Hq1.
    destruct (decide (id' = id)) as [->|]; [by rewrite lookup_insert|]. rewrite lookup_insert_ne by done. apply Hm.
Qed.

Lemma increase_key_spec n q m id k k0 :
  qref n q m -> m !! id = Some k0 ->
  exists q', increase_key q (id, k) = Some (bool_decide (k0 < k)%N, q') /\
    qref n q' (if decide (k0 < k)%N then <[id:=k]> m else m).
Proof.
  intros (H & Ho & Hm) Hk0. pose proof Hk0 as Hk0'. rewrite Hm in Hk0'. apply (qkey_Some n) in Hk0' as (pos & Hp & Hpos & He); [|done].
  pose proof (qs_heap _ _ H) as Hlh. pose proof (qs_size _ _ H) as Hls.
  unfold increase_key. cbn [fst snd]. rewrite Hp, bind_S, bind_S, He, bind_S. cbn [fst snd].
  case_decide as Hc; [|rewrite bool_decide_eq_false_2 by done; exists q; done].
  rewrite bool_decide_eq_true_2 by done. rewrite wr_Some, bind_S by lia.
  destruct (set_key_struct n q pos id k0 k H Hpos He) as (H1 & Hkp & Hko & Hq1). 
  set (q1 := mkQueue (id_pos q) (<[pos:=(id, k)]> (heap q)) (heap_size q)) in *.
  assert (kf q pos = k0) as Hkfp by (unfold kf; rewrite He; done).
  destruct (move_down_spec n (S (heap_size q)) q1 pos) as (q' & -> & Hs' & Hsz' & Hk' & Ho' & _); [done|cbn; lia|cbn; lia| |].
  - split.
    + intros i Hi Hne. cbn [heap_size q1] in Hi. rewrite (Hko (par i)) by done.
      specialize (Ho i Hi). destruct (decide (i = pos)) as [->|].
      * rewrite Hkp. lia.
      * rewrite Hko by done. done.
    + intros c Hcr Hcp Hne. cbn [heap_size q1] in Hcr. pose proof (par_lt pos Hne). pose proof (par_lt c ltac:(lia)).
      rewrite !Hko by lia. pose proof (Ho c ltac:(lia)). pose proof (Ho pos ltac:(lia)). rewrite Hcp in *. lia.
  - rewrite bind_S. exists q'. split; [done|]. split; [done|]. split; [done|]. intros id'. rewrite Hk', Hq1.
    destruct (decide (id' = id)) as [->|]; [by rewrite lookup_insert|]. rewrite lookup_insert_ne by done. apply Hm.
Qed.

Lemma contains_id_spec n q m id :
  qref n q m -> id < n -> contains_id q id = Some (bool_decide (is_Some (m !! id))).
Proof.
  intros (H & Ho & Hm) Hid. unfold contains_id. pose proof (qs_ip _ _ H) as Hlp.
  destruct (lookup_lt_is_Some_2 (id_pos q) id) as [p Hp]; [lia|]. rewrite Hp, bind_S. f_equal.
  apply bool_decide_ext. rewrite Hm. unfold qkey. rewrite Hp. destruct p as [i|].
  - apply (qs_iff _ _ H) in Hp as (_ & k & Hk). rewrite Hk. split; [cbn; eauto|done].
  - split; [done|]. intros [? ?]. done.
Qed.

Lemma get_key_spec n q m id k : qref n q m -> m !! id = Some k -> get_key q id = Some k.
Proof.
  intros (H & Ho & Hm) Hk. rewrite Hm in Hk. apply (qkey_Some n) in Hk as (pos & Hp & Hpos & He); [|done].
  unfold get_key. rewrite Hp, bind_S, bind_S, He, bind_S. done.
Qed.

Lemma q_empty_spec n q m : qref n q m -> q_empty q = bool_decide (m = ∅).
Proof.
  intros H. pose proof (qref_size _ _ _ H) as Hsz. unfold q_empty. apply bool_decide_ext. rewrite <- Hsz. split.
  - apply map_size_empty_inv.
  - intros ->. apply map_size_empty.
Qed.

Lemma q_step_refines n q m o :
  qref n q m -> legal n m o ->
  exists r q' m', q_step q o = Some (r, q') /\ spec_step m o r m' /\ qref n q' m'.
Proof.
  intros Href Hl. destruct o as [id k| |id k|id k| |id|id| | |]; cbn [q_step legal spec_step] in *.
  - destruct Hl as [Hid Hn]. destruct (push_spec n q m id k Href Hid Hn) as (q' & -> & Hr).
    rewrite bind_S. eauto 10.
  - destruct (pop_spec n q m Href Hl) as (id & k & q' & -> & Hmin & Hr). rewrite bind_S. eauto 10.
  - destruct Hl as [k0 Hk0]. destruct (decrease_key_spec n q m id k k0 Href Hk0) as (q' & -> & Hr). rewrite bind_S.
    eexists _, _, _. split; [done|]. split; [|exact Hr]. exists k0. split; [done|].
    case_decide; [rewrite bool_decide_eq_true_2 by done|rewrite bool_decide_eq_false_2 by done]; done.
  - destruct Hl as [k0 Hk0]. destruct (increase_key_spec n q m id k k0 Href Hk0) as (q' & -> & Hr). rewrite bind_S.
    eexists _, _, _. split; [done|]. split; [|exact Hr]. exists k0. split; [done|].
    case_decide; [rewrite bool_decide_eq_true_2 by done|rewrite bool_decide_eq_false_2 by done]; done.
  - destruct (clear_spec n q m Href) as (q' & -> & Hr). rewrite bind_S. eauto 10.
  - rewrite (contains_id_spec n q m id Href Hl), bind_S. eauto 10.
  - destruct Hl as [k Hk]. rewrite (get_key_spec n q m id k Href Hk), bind_S. eauto 10.
  - destruct (root_min n q m Href Hl) as (id & k & He & Hmin & Hpos). unfold peek, q_empty.
    rewrite bool_decide_eq_false_2 by lia. cbn [chk negb]. rewrite bind_S, He, bind_S. eauto 10.
  - unfold q_size. rewrite <- (qref_size _ _ _ Href). eauto 10.
  - rewrite (q_empty_spec _ _ _ Href). eauto 10.
Qed.

(** Every history: it runs to the end and agrees with the map, or it reaches an
    operation whose documented precondition is violated. *)
Lemma q_run_refines n os : forall q m, qref n q m ->
  (exists rs q' m', q_run q os = Some (rs, q') /\ spec_run n m os rs m' /\ qref n q' m') \/
  (exists os1 o os2 rs q' m', os = os1 ++ o :: os2 /\ q_run q os1 = Some (rs, q') /\
     spec_run n m os1 rs m' /\ qref n q' m' /\ ~ legal n m' o).
Proof.
  induction os as [|o os IH]; intros q m Href.
  { left. exists [], q, m. split; [done|]. split; [constructor|done]. }
  assert (legal n m o \/ ~ legal n m o) as [Hl|Hl].
  { destruct o; cbn [legal]; try (apply (decide _)); try tauto.
    - destruct (decide (id < n)), (decide (m !! id = None)); tauto.
    - destruct (decide (m = ∅)); tauto.
    - destruct (decide (is_Some (m !! id))); tauto.
    - destruct (decide (is_Some (m !! id))); tauto.
    - destruct (decide (id < n)); tauto.
    - destruct (decide (is_Some (m !! id))); tauto.
    - destruct (decide (m = ∅)); tauto. }
  - destruct (q_step_refines n q m o Href Hl) as (r & q1 & m1 & Hq & Hs & Hr1).
    destruct (IH q1 m1 Hr1) as [(rs & q2 & m2 & Hq2 & Hs2 & Hr2)|(os1 & o' & os2 & rs & q2 & m2 & -> & Hq2 & Hs2 & Hr2 & Hnl)].
    + left. exists (r :: rs), q2, m2. cbn [q_run]. rewrite Hq, bind_S, Hq2, bind_S.
      split; [done|]. split; [by econstructor|done].
    + right. exists (o :: os1), o', os2, (r :: rs), q2, m2. split; [done|]. cbn [q_run].
      rewrite Hq, bind_S, Hq2, bind_S. split; [done|]. split; [by econstructor|]. done.
  - right. exists [], o, os, [], q, m. split; [done|]. split; [done|]. split; [constructor|]. done.
Qed.
