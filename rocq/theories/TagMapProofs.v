(** Look-up in a tag map finds the first pair with the key. *)
From stdpp Require Import sorting.
From Verif Require Import Base CchCustomizeProofs ProtobufProofs TagMapModel TagMapSpec.
Ltac Zify.zify_post_hook ::= Z.div_mod_to_equations.

Lemma char_hash_lt c : compute_char_hash c < 16.
Proof. unfold compute_char_hash. repeat (case_decide; [lia|]). assert (c mod 7 < 7)%N by (apply N.mod_lt; lia). lia. Qed.
Lemma hash_spec s : exists h, compute_hash s = Some h /\ h < hash_count.
Proof.
  unfold compute_hash. case_decide as H; [exists 0; split; [done|unfold hash_count, char_hash_count; lia]|].
  destruct (lookup_lt_is_Some_2 s 0) as [a ->]; [lia|]. destruct (lookup_lt_is_Some_2 s (length s - 1)) as [b ->]; [lia|].
  destruct (lookup_lt_is_Some_2 s ((length s - 1) / 2)) as [c ->]; [lia|]. bs. eexists. split; [done|].
  pose proof (char_hash_lt a). pose proof (char_hash_lt b). pose proof (char_hash_lt c). unfold hash_count, char_hash_count. lia.
Qed.

(** ** The packed elements *)
Definition pack (h i : nat) : N := N.lor (N.shiftl (N.of_nat h) 16) (N.of_nat i).
Lemma pack_eq h i : i < N.to_nat 65536 -> pack h i = (N.of_nat i + N.of_nat h * 65536)%N.
Proof. intros H. unfold pack. rewrite N.lor_comm, lor_add; [done|]. change (2 ^ 16)%N with 65536%N. lia. Qed.
Lemma pack_hash h i : i < N.to_nat 65536 -> N.to_nat (N.shiftr (pack h i) 16) = h.
Proof. intros H. rewrite pack_eq by done. rewrite N.shiftr_div_pow2. change (2 ^ 16)%N with 65536%N. lia. Qed.
Lemma pack_index h i : i < N.to_nat 65536 -> N.to_nat (N.land (pack h i) 65535) = i.
Proof. intros H. rewrite pack_eq by done. change 65535%N with (N.ones 16). rewrite N.land_ones. change (2 ^ 16)%N with 65536%N. lia. Qed.
Lemma pack_le h i h' i' : i < N.to_nat 65536 -> i' < N.to_nat 65536 -> (pack h i <= pack h' i')%N <-> h < h' \/ (h = h' /\ i <= i').
Proof. intros H H'. rewrite !pack_eq by done. lia. Qed.

Lemma ssorted_lookup {A} (R : A -> A -> Prop) l i j x y : StronglySorted R l -> l !! i = Some x -> l !! j = Some y -> i < j -> R x y.
Proof.
  intros H. revert i j. induction H as [|a l Hl IH Ha]; intros i j Hi Hj Hij; [done|]. destruct j as [|j]; [lia|]. destruct i as [|i]; cbn in Hi, Hj.
  - injection Hi as <-. rewrite Forall_lookup in Ha. by eapply Ha.
  - eapply IH; [done|done|lia].
Qed.
Section build.
  Context {V : Type} (kv : list (cstring * V)).
  Definition key_hash (k : cstring) : nat := default 0 (compute_hash k).
  Lemma key_hash_eq k : compute_hash k = Some (key_hash k).
  Proof. unfold key_hash. destruct (hash_spec k) as (h & -> & _). done. Qed.
  Lemma key_hash_lt k : key_hash k < hash_count.
  Proof. unfold key_hash. destruct (hash_spec k) as (h & -> & H). done. Qed.
  Definition hash_at (i : nat) : nat := match kv !! i with Some p => key_hash (fst p) | None => 0 end.
  Definition packed : list N := (fun i => pack (hash_at i) i) <$> seq 0 (length kv).
  (** Indices of the pairs in the order of the entries. *)
  Definition sorted : list N := merge_sort N.le packed.

  Hypothesis Hn : length kv <= N.to_nat 65536.

  Lemma hel_eq : mapM (fun i => p ← kv !! i; h ← compute_hash (fst p); Some (N.lor (N.shiftl (N.of_nat h) 16) (N.of_nat i))) (seq 0 (length kv)) = Some packed.
  Proof.
    apply mapM_Some_2. unfold packed. apply Forall2_fmap_r, Forall_Forall2_diag, Forall_forall. intros i Hi%elem_of_seq.
    destruct (lookup_lt_is_Some_2 kv i) as [p Hp]; [lia|]. rewrite Hp. bs. rewrite key_hash_eq. bs. f_equal. unfold pack, hash_at. by rewrite Hp.
  Qed.
  Lemma sorted_perm : sorted ≡ₚ packed.
  Proof. apply merge_sort_Permutation. Qed.
  Lemma sorted_length : length sorted = length kv.
  Proof. rewrite sorted_perm. unfold packed. by rewrite fmap_length, seq_length. Qed.
  Lemma packed_inj i j : i < length kv -> j < length kv -> pack (hash_at i) i = pack (hash_at j) j -> i = j.
  Proof. intros Hi Hj E. rewrite <- (pack_index (hash_at i) i), <- (pack_index (hash_at j) j) by lia. by rewrite E. Qed.
  (** The pair index of an entry. *)
  Lemma sorted_elem x i : sorted !! i = Some x -> exists j, j < length kv /\ x = pack (hash_at j) j.
  Proof.
    intros Hi. assert (x ∈ packed) as Hx by (rewrite <- sorted_perm; by eapply elem_of_list_lookup_2). unfold packed in Hx.
    apply elem_of_list_fmap in Hx as (j & -> & Hj%elem_of_seq). exists j. split; [lia|done].
  Qed.
  Lemma sorted_has j : j < length kv -> exists i, sorted !! i = Some (pack (hash_at j) j).
  Proof.
    intros Hj. apply elem_of_list_lookup. rewrite sorted_perm. unfold packed. apply elem_of_list_fmap. exists j. split; [done|]. apply elem_of_seq. lia.
  Qed.
  Lemma sorted_le i i' x x' : sorted !! i = Some x -> sorted !! i' = Some x' -> i <= i' -> (x <= x')%N.
  Proof.
    assert (StronglySorted N.le sorted) as Hs.
    { apply Sorted_StronglySorted; [intros ???; apply N.le_trans|]. apply Sorted_merge_sort. intros a b. apply N.le_ge_cases. }
    intros Hi Hi' Hle. destruct (decide (i = i')) as [->|]; [rewrite Hi in Hi'; injection Hi' as ->; lia|].
    eapply (ssorted_lookup N.le); [exact Hs|exact Hi|exact Hi'|lia].
  Qed.
  Lemma sorted_nodup : NoDup sorted.
  Proof.
    rewrite sorted_perm. unfold packed. apply NoDup_fmap_2_strong; [|apply NoDup_seq]. intros i j Hi%elem_of_seq Hj%elem_of_seq. apply packed_inj; lia.
  Qed.

  Definition hash_of (x : N) : nat := N.to_nat (N.shiftr x 16).
  (** entries [b h .. e h) are those with hash h among the first n *)
  Definition ranges (L : list N) (n : nat) (b e : list nat) : Prop :=
    length b = hash_count /\ length e = hash_count /\
    forall h bh eh, b !! h = Some bh -> e !! h = Some eh -> forall j, (bh <= j < eh) <-> (j < n /\ exists x, L !! j = Some x /\ hash_of x = h).
  Definition zeros (b e : list nat) : Prop := b = replicate hash_count 0 /\ e = replicate hash_count 0.

  Lemma ranges_zero L : ranges L 0 (replicate hash_count 0) (replicate hash_count 0).
  Proof.
    split; [apply replicate_length|]. split; [apply replicate_length|]. intros h bh eh [-> _]%lookup_replicate [-> _]%lookup_replicate j. lia.
  Qed.

  Lemma build_loop b0 e0 : zeros b0 e0 ->
    exists en b e ph, for_range 0 (length kv) (fun i '(en, b, e, prev_hash) =>
      x ← sorted !! i;
      let hash := N.to_nat (N.shiftr x 16) in
      let j := N.to_nat (N.land x 65535) in
      p ← kv !! j;
      b ← (if decide (hash <> prev_hash) then wr b hash i else Some b);
      e ← wr e hash (i + 1);
      Some (en ++ [p], b, e, hash)) ([], b0, e0, hash_count) = Some (en, b, e, ph) /\
    length en = length kv /\
    (forall i x, sorted !! i = Some x -> exists j p, x = pack (hash_at j) j /\ kv !! j = Some p /\ en !! i = Some p) /\
    ranges sorted (length kv) b e /\
    (forall h bh eh, b !! h = Some bh -> e !! h = Some eh -> (bh <> 0 \/ eh <> 0) -> exists x, x ∈ sorted /\ hash_of x = h).
  Proof.
    intros [-> ->].
    set (f := fun i '(en, b, e, prev_hash) =>
      x ← sorted !! i;
      let hash := N.to_nat (N.shiftr x 16) in
      let j := N.to_nat (N.land x 65535) in
      p ← kv !! j;
      b ← (if decide (hash <> prev_hash) then wr b hash i else Some b);
      e ← wr e hash (i + 1);
      Some (en ++ [p], b, e, hash)).
    destruct (for_range_inv (fun i '(en, b, e, ph) => length en = i /\
        (forall k x, k < i -> sorted !! k = Some x -> exists j p, x = pack (hash_at j) j /\ kv !! j = Some p /\ en !! k = Some p) /\
        ranges sorted i b e /\
        (forall h bh eh, b !! h = Some bh -> e !! h = Some eh -> (bh <> 0 \/ eh <> 0) -> exists x, x ∈ sorted /\ hash_of x = h) /\
        ((i = 0 /\ ph = hash_count) \/ (exists x, 0 < i /\ sorted !! (i - 1) = Some x /\ hash_of x = ph)))
      f 0 (length kv) ([], replicate hash_count 0, replicate hash_count 0, hash_count)) as ([[[en b] e] ph] & E & H1 & H2 & H3 & H4 & _).
    - lia.
    - split; [done|]. split; [lia|]. split; [apply ranges_zero|]. split; [|by left].
      intros h bh eh [-> _]%lookup_replicate [-> _]%lookup_replicate. lia.
    - intros i [[[en b] e] ph] Hi (H1 & H2 & (Hb & He & H3) & H4 & H5). unfold f. cbv beta iota.
      destruct (lookup_lt_is_Some_2 sorted i) as [x Hx]; [rewrite sorted_length; lia|]. rewrite Hx. rewrite bind_S. cbv zeta.
      destruct (sorted_elem x i Hx) as (j & Hj & Ex). assert (N.to_nat (N.land x 65535) = j) as -> by (rewrite Ex; apply pack_index; lia).
      assert (hash_of x = hash_at j) as Ehash by (rewrite Ex; apply pack_hash; lia). unfold hash_of in Ehash. rewrite Ehash.
      destruct (lookup_lt_is_Some_2 kv j Hj) as [p Hp]. rewrite Hp. rewrite bind_S.
      assert (hash_at j < hash_count) as Hlt by (unfold hash_at; rewrite Hp; apply key_hash_lt).
      assert (forall k y, k < i -> sorted !! k = Some y -> hash_of y <= hash_at j) as Hmono.
      { intros k y Hk Hy. pose proof (sorted_le _ _ _ _ Hy Hx ltac:(lia)) as Hle. destruct (sorted_elem _ _ Hy) as (j' & Hj' & ->). rewrite Ex in Hle.
        apply pack_le in Hle; [|lia|lia]. unfold hash_of. rewrite pack_hash by lia. lia. }
      assert (exists b', (if decide (hash_at j <> ph) then wr b (hash_at j) i else Some b) = Some b' /\ length b' = hash_count /\
        (forall h, h <> hash_at j -> b' !! h = b !! h) /\
        (exists bh, b' !! hash_at j = Some bh /\ forall k, (bh <= k < i + 1) <-> (k < i + 1 /\ exists y, sorted !! k = Some y /\ hash_of y = hash_at j))) as (b' & -> & Hb' & Hbne & (bh & Hbh & Hrange)).
      { case_decide as Hd.
        - rewrite wr_Some by lia. eexists. split; [done|]. split; [by rewrite insert_length|]. split; [intros h Hh; by apply list_lookup_insert_ne|].
          exists i. split; [apply list_lookup_insert; lia|]. intros k. split.
          + intros Hk. assert (k = i) as -> by lia. split; [lia|]. by exists x.
          + intros (Hk & y & Hy & Ey). destruct (decide (k = i)) as [->|Hne]; [lia|]. exfalso. destruct H5 as [[? ?]|(z & Hz0 & Hz & Ez)]; [lia|].
            pose proof (sorted_le _ _ _ _ Hy Hz ltac:(lia)) as Hle. destruct (sorted_elem _ _ Hy) as (j1 & Hj1 & ->). destruct (sorted_elem _ _ Hz) as (j2 & Hj2 & ->).
            apply pack_le in Hle; [|lia|lia]. pose proof (Hmono (i - 1) _ ltac:(lia) Hz) as Hm. unfold hash_of in *. rewrite pack_hash in Ey, Ez, Hm by lia. lia.
        - assert (hash_at j = ph) as Eph by (destruct (decide (hash_at j = ph)); [done|tauto]). eexists. split; [done|]. split; [done|]. split; [done|].
          destruct H5 as [[? ?]|(z & Hz0 & Hz & Ez)]; [lia|].
          destruct (lookup_lt_is_Some_2 b (hash_at j)) as [bh Hbh]; [lia|]. destruct (lookup_lt_is_Some_2 e (hash_at j)) as [eh Heh]; [lia|].
          exists bh. split; [done|]. pose proof (H3 _ _ _ Hbh Heh) as Hr.
          assert (bh <= i - 1 < eh) as Hi1. { apply Hr. split; [lia|]. exists z. split; [done|congruence]. }
          assert (eh <= i) as Hle. { destruct (decide (eh <= i)); [done|]. assert (bh <= i < eh) as Hc by lia. apply Hr in Hc as [? _]. lia. }
          intros k. destruct (decide (k = i)) as [->|Hne].
          + split; [intros _; split; [lia|by exists x]|lia].
          + split.
            * intros Hk. destruct (proj1 (Hr k) ltac:(lia)) as (? & y & ?). split; [lia|by exists y].
            * intros (Hk & y & Hy & Ey). destruct (proj2 (Hr k)) as [? ?]; [split; [lia|by exists y]|lia]. }
      rewrite bind_S. rewrite wr_Some by lia. rewrite bind_S. eexists. split; [done|]. cbv beta iota.
      split; [rewrite app_length; cbn; lia|]. split; [|split; [|split]].
      + intros k y Hk Hy. destruct (decide (k = i)) as [->|].
        * rewrite Hx in Hy. injection Hy as <-. exists j, p. split; [done|]. split; [done|]. rewrite lookup_app_r by lia. by rewrite H1, Nat.sub_diag.
        * destruct (H2 k y ltac:(lia) Hy) as (j' & p' & ? & ? & ?). exists j', p'. split; [done|]. split; [done|]. rewrite lookup_app_l by lia. done.
      + split; [done|]. split; [by rewrite insert_length|]. intros h bh' eh' Hb1 He1 k. destruct (decide (h = hash_at j)) as [->|Hne].
        * rewrite list_lookup_insert in He1 by lia. injection He1 as <-. rewrite Hbh in Hb1. injection Hb1 as <-. replace (S i) with (i + 1) by lia. apply Hrange.
        * rewrite list_lookup_insert_ne in He1 by done. rewrite Hbne in Hb1 by done. rewrite (H3 _ _ _ Hb1 He1 k). split.
          -- intros (? & y & ?). split; [lia|by exists y].
          -- intros (Hk & y & Hy & Ey). destruct (decide (k = i)) as [->|]; [|split; [lia|by exists y]]. rewrite Hx in Hy. injection Hy as <-. unfold hash_of in Ey. congruence.
      + intros h bh' eh' Hb1 He1 Hnz. destruct (decide (h = hash_at j)) as [->|Hne].
        * exists x. split; [by eapply elem_of_list_lookup_2|done].
        * rewrite list_lookup_insert_ne in He1 by done. rewrite Hbne in Hb1 by done. by eapply H4.
      + right. exists x. split; [lia|]. replace (S i - 1) with i by lia. split; [done|]. done.
    - exists en, b, e, ph. split; [exact E|]. split; [done|]. split; [|split; [done|done]]. intros i x Hi. apply (H2 i x); [|done].
      apply lookup_lt_Some in Hi. rewrite sorted_length in Hi. done.
  Qed.

  (** The pair found by the search. *)
  Lemma first_value_spec key : match first_value kv key with
    | Some v => exists j, kv !! j = Some (key, v) /\ forall j' v', j' < j -> kv !! j' <> Some (key, v')
    | None => forall j v, kv !! j <> Some (key, v) end.
  Proof.
    clear. induction kv as [|[k v] l IH]; cbn [first_value]; [done|]. case_decide as H.
    - subst k. exists 0. split; [done|]. intros. lia.
    - destruct (first_value l key) as [w|].
      + destruct IH as (j & Hj & Hlt). exists (S j). split; [done|]. intros [|j'] v' Hj'; cbn; [congruence|]. apply Hlt. lia.
      + intros [|j] v'; cbn; [congruence|apply IH].
  Qed.
  Lemma search_spec (en : list (cstring * V)) key n i : (forall k, i <= k < i + n -> is_Some (en !! k)) ->
    exists r, tm_search n i en key = Some r /\
      match r with Some v => exists k, i <= k < i + n /\ en !! k = Some (key, v) /\ forall k' v', i <= k' < k -> en !! k' <> Some (key, v')
              | None => forall k v, i <= k < i + n -> en !! k <> Some (key, v) end.
  Proof.
    clear. revert i. induction n as [|n IH]; intros i H; cbn [tm_search].
    - exists (@None V). split; [done|]. intros. lia.
    - destruct (H i) as [[k v] Hk]; [lia|]. rewrite Hk. bs. cbn [fst snd]. case_decide as E.
      + subst k. exists (Some v). split; [done|]. exists i. split; [lia|]. split; [done|]. intros. lia.
      + destruct (IH (S i)) as (r & -> & Hr); [intros; apply H; lia|]. exists r. split; [done|]. destruct r as [w|].
        * destruct Hr as (q & Hq & Hw & Hlt). exists q. split; [lia|]. split; [done|]. intros k' v' Hk'. destruct (decide (k' = i)) as [->|]; [congruence|apply Hlt; lia].
        * intros k' v' Hk'. destruct (decide (k' = i)) as [->|]; [congruence|apply Hr; lia].
  Qed.
  Lemma lookup_spec (en : list (cstring * V)) b e hel key : length en = length kv ->
    (forall i x, sorted !! i = Some x -> exists j p, x = pack (hash_at j) j /\ kv !! j = Some p /\ en !! i = Some p) ->
    ranges sorted (length kv) b e -> tm_lookup (mkTm hel en b e) key = Some (first_value kv key).
  Proof.
    intros Hen Hel (Hb & He & Hr). unfold tm_lookup. rewrite key_hash_eq. bs. cbn [entry_begin entry_end entry]. pose proof (key_hash_lt key) as Hlt.
    destruct (lookup_lt_is_Some_2 b (key_hash key)) as [bh Hbh]; [lia|]. destruct (lookup_lt_is_Some_2 e (key_hash key)) as [eh Heh]; [lia|]. rewrite Hbh, Heh. bs.
    pose proof (Hr _ _ _ Hbh Heh) as Hrange.
    destruct (search_spec en key (eh - bh) bh) as (r & -> & Hres).
    { intros k Hk. apply lookup_lt_is_Some_2. rewrite Hen. destruct (proj1 (Hrange k) ltac:(lia)) as [? _]. done. }
    f_equal. pose proof (first_value_spec key) as Hfv.
    (* the position of a pair with the key *)
    assert (forall j v, kv !! j = Some (key, v) -> exists i, bh <= i < eh /\ sorted !! i = Some (pack (hash_at j) j) /\ en !! i = Some (key, v)) as Hpos.
    { intros j v Hj. pose proof (lookup_lt_Some _ _ _ Hj) as Hjl. destruct (sorted_has j Hjl) as (i & Hi). exists i.
      assert (i < length kv) as Hil by (rewrite <- sorted_length; by eapply lookup_lt_Some).
      split; [|split; [done|]].
      - apply Hrange. split; [done|]. eexists. split; [done|]. unfold hash_of. rewrite pack_hash by lia. unfold hash_at. by rewrite Hj.
      - destruct (Hel i _ Hi) as (j' & p & E & Hp & Hep). pose proof (lookup_lt_Some _ _ _ Hp). apply packed_inj in E; [|done|done]. subst j'. congruence. }
    destruct r as [v|].
    - destruct Hres as (k & Hk & Hek & Hfirst). destruct (proj1 (Hrange k) ltac:(lia)) as (Hkl & x & Hx & _).
      destruct (Hel k x Hx) as (j & p & -> & Hp & Hep). rewrite Hek in Hep. injection Hep as <-.
      destruct (first_value kv key) as [w|]; [|exfalso; by apply (Hfv j v)]. destruct Hfv as (j0 & Hj0 & Hlt0).
      destruct (decide (j0 = j)) as [->|Hne]; [congruence|]. exfalso.
      assert (j0 < j) as Hjj by (destruct (decide (j < j0)) as [Hl|]; [exfalso; by apply (Hlt0 j v)|lia]).
      destruct (Hpos j0 w Hj0) as (i & Hi & Hsi & Hei). pose proof (lookup_lt_Some _ _ _ Hp). pose proof (lookup_lt_Some _ _ _ Hj0).
      destruct (decide (i < k)) as [Hik|Hik]; [by apply (Hfirst i w); [lia|]|].
      pose proof (sorted_le _ _ _ _ Hx Hsi ltac:(lia)) as Hle. apply pack_le in Hle; [|lia|lia]. unfold hash_at in Hle. rewrite Hp, Hj0 in Hle. cbn [fst] in Hle. lia.
    - destruct (first_value kv key) as [w|]; [|done]. destruct Hfv as (j0 & Hj0 & _). destruct (Hpos j0 w Hj0) as (i & Hi & _ & Hei). exfalso. apply (Hres i w); [lia|done].
  Qed.
End build.

(** ** Histories *)
(** The object after a build (or new): arrays zero except at the hashes of the elements. *)
Definition tm_wf {V} (t : tagmap V) : Prop :=
  length (entry_begin t) = hash_count /\ length (entry_end t) = hash_count /\
  (forall x, x ∈ hash_element_list t -> hash_of x < hash_count) /\
  (forall h bh eh, entry_begin t !! h = Some bh -> entry_end t !! h = Some eh -> (bh <> 0 \/ eh <> 0) -> exists x, x ∈ hash_element_list t /\ hash_of x = h).
Lemma wf_new {V} : tm_wf (@tm_new V).
Proof.
  split; [apply replicate_length|]. split; [apply replicate_length|]. split; [by intros x ?%elem_of_nil|]. intros h bh eh [-> _]%lookup_replicate [-> _]%lookup_replicate. lia.
Qed.
Lemma clear_spec {V} (t : tagmap V) : tm_wf t ->
  tm_clear t = Some (mkTm (hash_element_list t) (entry t) (replicate hash_count 0) (replicate hash_count 0)).
Proof.
  intros (Hb & He & Hx & Hnz). unfold tm_clear.
  assert (forall l b e, (forall x, x ∈ l -> hash_of x < hash_count) -> length b = hash_count -> length e = hash_count ->
    exists b' e', for_each l (fun x '(b, e) => b ← wr b (N.to_nat (N.shiftr x 16)) 0; e ← wr e (N.to_nat (N.shiftr x 16)) 0; Some (b, e)) (b, e) = Some (b', e') /\
      length b' = hash_count /\ length e' = hash_count /\
      forall h bh eh, b' !! h = Some bh -> e' !! h = Some eh -> (bh = 0 /\ eh = 0) \/ (b !! h = Some bh /\ e !! h = Some eh /\ forall x, x ∈ l -> hash_of x <> h)) as Hloop.
  { induction l as [|x l IH]; intros b e Hl Hlb Hle.
    - exists b, e. split; [done|]. split; [done|]. split; [done|]. intros h bh eh ? ?. right. split; [done|]. split; [done|]. by intros x ?%elem_of_nil.
    - pose proof (Hl x ltac:(constructor)) as Hxl. unfold hash_of in Hxl. cbn [for_each]. rewrite !wr_Some by lia. bs.
      destruct (IH (<[N.to_nat (N.shiftr x 16):=0]> b) (<[N.to_nat (N.shiftr x 16):=0]> e)) as (b' & e' & -> & H1 & H2 & H3).
      { intros y Hy. apply Hl. by constructor. } { by rewrite insert_length. } { by rewrite insert_length. }
      exists b', e'. split; [done|]. split; [done|]. split; [done|]. intros h bh eh Hbh Heh. destruct (H3 h bh eh Hbh Heh) as [?|(G1 & G2 & G3)]; [by left|].
      destruct (decide (h = N.to_nat (N.shiftr x 16))) as [->|Hne].
      + rewrite list_lookup_insert in G1, G2 by lia. injection G1 as <-. injection G2 as <-. by left.
      + rewrite list_lookup_insert_ne in G1, G2 by done. right. split; [done|]. split; [done|]. intros y [->|Hy]%elem_of_cons; [unfold hash_of; done|by apply G3]. }
  destruct (Hloop (hash_element_list t) (entry_begin t) (entry_end t) Hx Hb He) as (b' & e' & -> & H1 & H2 & H3). bs.
  assert (forall h bh eh, b' !! h = Some bh -> e' !! h = Some eh -> bh = 0 /\ eh = 0) as Hz.
  { intros h bh eh Hbh Heh. destruct (H3 h bh eh Hbh Heh) as [?|(G1 & G2 & G3)]; [done|].
    destruct (decide (bh = 0 /\ eh = 0)) as [?|Hn]; [done|]. exfalso. destruct (Hnz h bh eh G1 G2 ltac:(lia)) as (x & Hxin & Ex). by apply (G3 x). }
  f_equal. f_equal; apply list_eq; intros h.
  - destruct (decide (h < hash_count)); [|rewrite !lookup_ge_None_2 by (rewrite ?replicate_length; lia); done].
    destruct (lookup_lt_is_Some_2 b' h) as [bh Hbh]; [lia|]. destruct (lookup_lt_is_Some_2 e' h) as [eh Heh]; [lia|]. destruct (Hz _ _ _ Hbh Heh) as [-> ->].
    by rewrite Hbh, lookup_replicate_2.
  - destruct (decide (h < hash_count)); [|rewrite !lookup_ge_None_2 by (rewrite ?replicate_length; lia); done].
    destruct (lookup_lt_is_Some_2 b' h) as [bh Hbh]; [lia|]. destruct (lookup_lt_is_Some_2 e' h) as [eh Heh]; [lia|]. destruct (Hz _ _ _ Hbh Heh) as [-> ->].
    by rewrite Heh, lookup_replicate_2.
Qed.
Lemma wf_clear {V} (t t' : tagmap V) : tm_wf t -> tm_clear t = Some t' -> tm_wf t' /\ (forall key, tm_lookup t' key = Some None) /\ entry t' = entry t.
Proof.
  intros H E. rewrite (clear_spec t H) in E. apply (inj Some) in E. subst t'. split; [|split; [|done]].
  - destruct H as (_ & _ & Hx & _). split; [apply replicate_length|]. split; [apply replicate_length|]. split; [done|].
    intros h bh eh [-> _]%lookup_replicate [-> _]%lookup_replicate. lia.
  - intros key. unfold tm_lookup. cbn [entry_begin entry_end entry]. rewrite key_hash_eq. bs. rewrite !lookup_replicate_2 by apply key_hash_lt. bs. done.
Qed.
Lemma build_spec {V} (t : tagmap V) kv : tm_wf t -> length kv <= N.to_nat 65536 ->
  exists t', tm_build t kv = Some t' /\ tm_wf t' /\ (forall key, tm_lookup t' key = Some (first_value kv key)) /\ tm_size t' = length kv /\ (forall p, p ∈ entry t' <-> p ∈ kv).
Proof.
  intros H Hn. unfold tm_build. rewrite (clear_spec t H). rewrite bind_S. cbn [entry_begin entry_end]. rewrite hel_eq by done. rewrite bind_S.
  destruct (build_loop kv Hn (replicate hash_count 0) (replicate hash_count 0)) as (en & b & e & ph & E & Hen & Hel & Hr & Hnz); [done|].
  cbv zeta in E |- *. fold (sorted kv). rewrite E. rewrite bind_S. eexists. split; [done|]. split; [|split; [|split]].
  - destruct Hr as (Hb & He & _). split; [done|]. split; [done|]. split; [|done]. cbn [hash_element_list]. intros x (i & Hi)%elem_of_list_lookup.
    destruct (sorted_elem kv Hn x i Hi) as (j & Hj & ->). unfold hash_of. rewrite pack_hash by lia. unfold hash_at. destruct (lookup_lt_is_Some_2 kv j Hj) as [p ->]. apply key_hash_lt.
  - intros key. by apply (lookup_spec kv).
  - done.
  - cbn [entry]. intros p. split.
    + intros (i & Hi)%elem_of_list_lookup. destruct (lookup_lt_is_Some_2 (sorted kv) i) as [x Hx]; [rewrite sorted_length, <- Hen; by eapply lookup_lt_Some|].
      destruct (Hel i x Hx) as (j & p' & _ & Hp & Hep). rewrite Hi in Hep. injection Hep as <-. by eapply elem_of_list_lookup_2.
    + intros (j & Hj)%elem_of_list_lookup. pose proof (lookup_lt_Some _ _ _ Hj) as Hjl. destruct (sorted_has kv Hn j Hjl) as (i & Hi). destruct (Hel i _ Hi) as (j' & p' & Ej & Hp & Hep).
      pose proof (lookup_lt_Some _ _ _ Hp). apply packed_inj in Ej; [|done|done|done]. subst j'. rewrite Hj in Hp. injection Hp as <-. by eapply elem_of_list_lookup_2.
Qed.
