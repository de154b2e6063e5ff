(** Proofs about the comparison of vectors. *)
From Verif Require Import Base ProtobufModel VectorIoModel VectorIoProofs VectorToolModel VectorToolSpec VectorToolProofs.
Ltac Zify.zify_post_hook ::= idtac.

Lemma counts_zero P : counts P 0 0.
Proof. exists []. split_and!; [constructor|done|]. intros i. rewrite elem_of_nil. lia. Qed.
Lemma counts_yes (P : nat -> Prop) k c : counts P k c -> P k -> counts P (S k) (S c).
Proof.
  intros (l & H1 & <- & H2) HP. exists (k :: l). split_and!; [|done|].
  - constructor; [|done]. rewrite H2. lia.
  - intros i. rewrite elem_of_cons, H2. split; [intros [-> |[? ?]]; split; [lia|done|lia|done]|]. intros [Hi Hp]. destruct (decide (i = k)); [by left|right; split; [lia|done]].
Qed.
Lemma counts_no (P : nat -> Prop) k c : counts P k c -> ~ P k -> counts P (S k) c.
Proof.
  intros (l & H1 & <- & H2) HP. exists l. split_and!; [done..|].
  intros i. rewrite H2. split; [intros [? ?]; split; [lia|done]|]. intros [Hi Hp]. destruct (decide (i = k)) as [-> |]; [done|split; [lia|done]].
Qed.
Lemma counts_none P n : counts P n 0 -> forall i, i < n -> ~ P i.
Proof. intros (l & _ & Hl & H) i Hi Hp. destruct l; [|done]. by apply (elem_of_nil i), H. Qed.
Lemma counts_some P n c : counts P n (S c) -> exists i, i < n /\ P i.
Proof. intros (l & _ & Hl & H). destruct l as [|i l]; [done|]. exists i. apply H. by left. Qed.
Lemma all_equal {A} (v1 v2 : list A) : length v1 = length v2 -> (forall i, i < length v1 -> at_index eq v1 v2 i) -> v1 = v2.
Proof.
  intros Hl H. apply list_eq. intros i. destruct (decide (i < length v1)) as [Hi|Hi].
  - destruct (H i Hi) as (x & y & -> & -> & ->). done.
  - rewrite !lookup_ge_None_2 by lia. done.
Qed.
Lemma at_index_iff {A} (R : A -> A -> Prop) v1 v2 i x y : v1 !! i = Some x -> v2 !! i = Some y -> at_index R v1 v2 i <-> R x y.
Proof. intros E1 E2. split; [intros (x' & y' & F1 & F2 & H); congruence|]. intros H. by exists x, y. Qed.

Lemma compare_values_spec {A} (lt eqb : A -> A -> bool) (val : A -> Z) v1 v2 :
  (forall x y, x ∈ v1 -> y ∈ v2 -> lt x y = (val x <? val y)%Z /\ lt y x = (val y <? val x)%Z /\ eqb x y = (val x =? val y)%Z) ->
  exists r, compare_values lt eqb v1 v2 = Some r /\ describes Z.lt (val <$> v1) (val <$> v2) r.
Proof.
  intros Hval. unfold compare_values. destruct (Nat.ltb_spec (length v1) (length v2)) as [Hl|Hl1].
  { eexists. split; [done|]. cbn. by rewrite !fmap_length. }
  destruct (Nat.ltb_spec (length v2) (length v1)) as [Hl|Hl2].
  { eexists. split; [done|]. cbn. by rewrite !fmap_length. }
  assert (length v1 = length v2) as Hl by lia. clear Hl1 Hl2. set (n := length v1) in *. set (V1 := val <$> v1). set (V2 := val <$> v2).
  set (ne := fun x y : Z => x <> y).
  set (Inv := fun k (s : nat * nat * option nat) => let '(c1, c2, first) := s in c1 + c2 <= k /\ counts (at_index Z.lt V1 V2) k c1 /\ counts (at_index (flip Z.lt) V1 V2) k c2 /\
    counts (at_index eq V1 V2) k (k - c1 - c2) /\ counts (at_index ne V1 V2) k (c1 + c2) /\
    match first with None => c1 + c2 = 0 | Some i => i < k /\ at_index ne V1 V2 i /\ forall j, j < i -> at_index eq V1 V2 j end).
  match goal with |- context [for_range 0 n ?body (0, 0, None)] => destruct (for_range_inv Inv body 0 n (0, 0, None)) as ([[c1 c2] first] & E & HI) end.
  - lia.
  - cbn. split_and!; [lia|apply counts_zero..|done].
  - intros k [[c1 c2] first] Hk (H0 & H1 & H2 & H3 & H4 & H5).
    destruct (lookup_lt_is_Some_2 v1 k) as [x Ex]; [lia|]. destruct (lookup_lt_is_Some_2 v2 k) as [y Ey]; [lia|]. rewrite Ex, bind_S, Ey, bind_S. eexists. split; [done|].
    destruct (Hval x y) as (-> & -> & ->); [by eapply elem_of_list_lookup_2..|].
    assert (V1 !! k = Some (val x)) as EX by (unfold V1; by rewrite list_lookup_fmap, Ex). assert (V2 !! k = Some (val y)) as EY by (unfold V2; by rewrite list_lookup_fmap, Ey).
    pose proof (fun R => at_index_iff R V1 V2 k _ _ EX EY) as HR.
    assert (first = None -> forall j, j < k -> at_index eq V1 V2 j) as Hfirst.
    { intros -> j Hj. rewrite H5 in H4. pose proof (counts_none _ _ H4 j Hj) as Hn. destruct (lookup_lt_is_Some_2 V1 j) as [a Ea]; [unfold V1; rewrite fmap_length; fold n; lia|]. destruct (lookup_lt_is_Some_2 V2 j) as [b Eb]; [unfold V2; rewrite fmap_length; lia|].
      exists a, b. split_and!; [done..|]. destruct (decide (a = b)); [done|]. exfalso. apply Hn. by exists a, b. }
    destruct (Z.ltb_spec (val x) (val y)) as [Hxy|Hxy]; destruct (Z.ltb_spec (val y) (val x)) as [Hyx|Hyx]; [lia|..].
    + destruct (Z.eqb_spec (val x) (val y)); [lia|]. cbn [negb andb]. unfold Inv. split_and!; [lia|..].
      * apply counts_yes; [done|]. by apply HR.
      * apply counts_no; [done|]. rewrite HR. unfold flip. lia.
      * replace (S k - S c1 - c2) with (k - c1 - c2) by lia. apply counts_no; [done|]. rewrite HR. lia.
      * apply (counts_yes _ _ (c1 + c2)); [done|]. rewrite HR. unfold ne. lia.
      * case_bool_decide as Hf.
        -- split; [lia|]. split; [by apply HR|]. by apply Hfirst.
        -- destruct first as [i|]; [|done]. destruct H5 as (? & ? & ?). split_and!; [lia|done..].
    + destruct (Z.eqb_spec (val x) (val y)); [lia|]. cbn [negb andb]. unfold Inv. split_and!; [lia|..].
      * apply counts_no; [done|]. rewrite HR. lia.
      * apply counts_yes; [done|]. by apply HR.
      * replace (S k - c1 - S c2) with (k - c1 - c2) by lia. apply counts_no; [done|]. rewrite HR. lia.
      * replace (c1 + S c2) with (S (c1 + c2)) by lia. apply counts_yes; [done|]. rewrite HR. unfold ne. lia.
      * case_bool_decide as Hf.
        -- split; [lia|]. split; [by apply HR|]. by apply Hfirst.
        -- destruct first as [i|]; [|done]. destruct H5 as (? & ? & ?). split_and!; [lia|done..].
    + destruct (Z.eqb_spec (val x) (val y)); [|lia]. cbn [negb andb]. unfold Inv. split_and!; [lia|..].
      * apply counts_no; [done|]. rewrite HR. lia.
      * apply counts_no; [done|]. rewrite HR. unfold flip. lia.
      * replace (S k - c1 - c2) with (S (k - c1 - c2)) by lia. apply counts_yes; [done|]. by apply HR.
      * apply counts_no; [done|]. rewrite HR. unfold ne. lia.
      * destruct first as [i|]; [|done]. destruct H5 as (? & ? & ?). split_and!; [lia|done..].
  - rewrite E, bind_S. cbn beta iota. destruct HI as (H0 & H1 & H2 & H3 & H4 & H5). eexists. split; [done|].
    assert (length V1 = n) as HV1 by (unfold V1; by rewrite fmap_length). assert (length V2 = n) as HV2 by (unfold V2; by rewrite fmap_length).
    destruct ((c1 =? 0) && (c2 =? 0)) eqn:Ez.
    + apply andb_true_iff in Ez as [Ez1%Nat.eqb_eq Ez2%Nat.eqb_eq]. subst c1 c2. cbn [describes]. split; [|done]. apply all_equal; [congruence|]. rewrite HV1. intros i Hi.
      destruct (lookup_lt_is_Some_2 V1 i) as [a Ea]; [lia|]. destruct (lookup_lt_is_Some_2 V2 i) as [b Eb]; [lia|]. exists a, b. split_and!; [done..|]. destruct (decide (a = b)); [done|]. exfalso. apply (counts_none _ _ H4 i Hi). by exists a, b.
    + cbn [describes]. split; [|split_and!; try done].
      * intros E12. destruct (c1 + c2) as [|c] eqn:Ec; [|destruct (counts_some _ _ _ H4) as (i & _ & a & b & Ea & Eb & Hab); rewrite E12 in Ea; congruence].
        apply andb_false_iff in Ez as [Ez%Nat.eqb_neq|Ez%Nat.eqb_neq]; lia.
      * destruct first as [i|]; [exists i; split; [done|]; by destruct H5 as (_ & ? & ?)|]. apply andb_false_iff in Ez as [Ez%Nat.eqb_neq|Ez%Nat.eqb_neq]; lia.
Qed.
Lemma compare_string_values_spec lt v1 v2 : exists r, compare_string_values v1 v2 = Some r /\ describes lt v1 v2 r.
Proof.
  unfold compare_string_values. destruct (Nat.ltb_spec (length v1) (length v2)) as [Hl|Hl1]; [by eexists|]. destruct (Nat.ltb_spec (length v2) (length v1)) as [Hl|Hl2]; [by eexists|].
  assert (length v1 = length v2) as Hl by lia. clear Hl1 Hl2. set (n := length v1) in *.
  set (ne := fun x y : list N => x <> y).
  set (Inv := fun k c => c <= k /\ counts (at_index eq v1 v2) k c /\ counts (at_index ne v1 v2) k (k - c)).
  match goal with |- context [for_range 0 n ?body 0] => destruct (for_range_inv Inv body 0 n 0) as (c & E & HI) end.
  - lia.
  - cbn. split_and!; [lia|apply counts_zero..].
  - intros k c Hk (H0 & H1 & H2). destruct (lookup_lt_is_Some_2 v1 k) as [x Ex]; [lia|]. destruct (lookup_lt_is_Some_2 v2 k) as [y Ey]; [lia|]. rewrite Ex, bind_S, Ey, bind_S. eexists. split; [done|].
    pose proof (fun R => at_index_iff R v1 v2 k _ _ Ex Ey) as HR. unfold Inv. case_bool_decide as Hxy.
    + split_and!; [lia| |].
      * apply counts_yes; [done|]. by apply HR.
      * replace (S k - S c) with (k - c) by lia. apply counts_no; [done|]. rewrite HR. unfold ne. tauto.
    + split_and!; [lia| |].
      * apply counts_no; [done|]. by rewrite HR.
      * replace (S k - c) with (S (k - c)) by lia. apply counts_yes; [done|]. by apply HR.
  - rewrite E, bind_S. destruct HI as (H0 & H1 & H2). eexists. split; [done|]. destruct (Nat.eqb_spec c n) as [-> |Hc].
    + cbn. split; [|done]. apply all_equal; [done|]. fold n. intros i Hi. rewrite Nat.sub_diag in H2. pose proof (counts_none _ _ H2 i Hi) as Hn.
      destruct (lookup_lt_is_Some_2 v1 i) as [a Ea]; [lia|]. destruct (lookup_lt_is_Some_2 v2 i) as [b Eb]; [lia|]. exists a, b. split_and!; [done..|]. destruct (decide (a = b)); [done|]. exfalso. apply Hn. by exists a, b.
    + cbn. split_and!; try done. intros E12. destruct (n - c) as [|d] eqn:Ed; [lia|]. destruct (counts_some _ _ _ H2) as (i & _ & a & b & Ea & Eb & Hab). rewrite E12 in Ea. congruence.
Qed.
(** ** float *)
Lemma magnitude_mono a b : (a < b)%N -> (magnitude a < magnitude b)%Z.
Proof.
  intros Hab. unfold magnitude. pose proof (N.div_mod' a (2 ^ 23)) as Da. pose proof (N.div_mod' b (2 ^ 23)) as Db. pose proof (N.mod_lt a (2 ^ 23) ltac:(done)) as Ma. pose proof (N.mod_lt b (2 ^ 23) ltac:(done)) as Mb.
  set (ea := (a / 2 ^ 23)%N) in *. set (eb := (b / 2 ^ 23)%N) in *. set (fa := (a mod 2 ^ 23)%N) in *. set (fb := (b mod 2 ^ 23)%N) in *. clearbody ea eb fa fb.
  change (2 ^ 23)%N with 8388608%N in *. change (2 ^ 23)%Z with 8388608%Z.
  assert (ea < eb \/ ea = eb /\ fa < fb)%N as [He|[-> Hf]] by lia.
  - destruct (Z.eqb_spec (Z.of_N eb) 0); [lia|]. pose proof (Z.pow_pos_nonneg 2 (Z.of_N eb - 1) ltac:(lia) ltac:(lia)) as Hp. destruct (Z.eqb_spec (Z.of_N ea) 0); [nia|].
    replace (Z.of_N eb - 1)%Z with (Z.of_N ea - 1 + (Z.of_N eb - Z.of_N ea))%Z by lia. rewrite Z.pow_add_r by lia.
    pose proof (Z.pow_pos_nonneg 2 (Z.of_N ea - 1) ltac:(lia) ltac:(lia)) as Hq. pose proof (Z.pow_le_mono_r 2 1 (Z.of_N eb - Z.of_N ea) ltac:(lia) ltac:(lia)) as Hr. change (2 ^ 1)%Z with 2%Z in Hr.
    set (p := (2 ^ (Z.of_N ea - 1))%Z) in *. set (q := (2 ^ (Z.of_N eb - Z.of_N ea))%Z) in *. clearbody p q. nia.
  - destruct (Z.eqb_spec (Z.of_N eb) 0); [lia|]. pose proof (Z.pow_pos_nonneg 2 (Z.of_N eb - 1) ltac:(lia) ltac:(lia)). nia.
Qed.
Lemma magnitude_zero : magnitude 0 = 0%Z. Proof. done. Qed.
Lemma float_value_mono a b : (float_key a < float_key b)%Z -> (float_value a < float_value b)%Z.
Proof.
  unfold float_key, float_value. pose proof (fun x => magnitude_mono 0 x) as H0. rewrite magnitude_zero in H0.
  destruct (N.ltb_spec a (2 ^ 31)) as [Ha|Ha], (N.ltb_spec b (2 ^ 31)) as [Hb|Hb]; intros H.
  - apply magnitude_mono. lia.
  - lia.
  - destruct (decide (a - 2 ^ 31 = 0)%N) as [E|E].
    + rewrite E, magnitude_zero. cbn [Z.opp]. apply H0. lia.
    + pose proof (H0 (a - 2 ^ 31)%N ltac:(lia)). destruct (decide (b = 0%N)) as [-> |]; [rewrite magnitude_zero; lia|]. pose proof (H0 b ltac:(lia)). lia.
  - pose proof (magnitude_mono (b - 2 ^ 31) (a - 2 ^ 31) ltac:(lia)). lia.
Qed.
Lemma float_value_eq a b : float_key a = float_key b -> float_value a = float_value b.
Proof.
  unfold float_key, float_value. destruct (N.ltb_spec a (2 ^ 31)) as [Ha|Ha], (N.ltb_spec b (2 ^ 31)) as [Hb|Hb]; intros H.
  - f_equal. lia.
  - replace (b - 2 ^ 31)%N with 0%N by lia. replace a with 0%N by lia. done.
  - replace (a - 2 ^ 31)%N with 0%N by lia. replace b with 0%N by lia. done.
  - do 2 f_equal. lia.
Qed.
Lemma float_order a b : is_number a -> is_number b -> float_lt a b = (float_value a <? float_value b)%Z /\ float_eq a b = (float_value a =? float_value b)%Z.
Proof.
  intros [_ Ha] [_ Hb]. unfold float_lt, float_eq, float_nan. apply N.ltb_ge in Ha, Hb. rewrite Ha, Hb. cbn [negb andb].
  destruct (Z.lt_trichotomy (float_key a) (float_key b)) as [H|[H|H]].
  - pose proof (float_value_mono _ _ H). split.
    + rewrite (proj2 (Z.ltb_lt _ _) H). symmetry. by apply Z.ltb_lt.
    + rewrite (proj2 (Z.eqb_neq _ _)) by lia. symmetry. apply Z.eqb_neq. lia.
  - rewrite (float_value_eq _ _ H), H, !Z.ltb_irrefl, !Z.eqb_refl. done.
  - pose proof (float_value_mono _ _ H). split.
    + rewrite (proj2 (Z.ltb_ge _ _)) by lia. symmetry. apply Z.ltb_ge. lia.
    + rewrite (proj2 (Z.eqb_neq _ _)) by lia. symmetry. apply Z.eqb_neq. lia.
Qed.
