(** Proofs about the comparison of vectors with elements that cannot be compared, and of any size. *)
From Verif Require Import Base ProtobufModel VectorIoModel VectorIoProofs VectorToolModel VectorToolSpec VectorToolProofs VectorToolCompareProofs CompareFullModel CompareFullSpec.
Ltac Zify.zify_post_hook ::= idtac.

(** ** double *)
Lemma double_magnitude_mono a b : (a < b)%N -> (double_magnitude a < double_magnitude b)%Z.
Proof.
  intros Hab. unfold double_magnitude. pose proof (N.div_mod' a (2 ^ 52)) as Da. pose proof (N.div_mod' b (2 ^ 52)) as Db. pose proof (N.mod_lt a (2 ^ 52) ltac:(done)) as Ma. pose proof (N.mod_lt b (2 ^ 52) ltac:(done)) as Mb.
  set (ea := (a / 2 ^ 52)%N) in *. set (eb := (b / 2 ^ 52)%N) in *. set (fa := (a mod 2 ^ 52)%N) in *. set (fb := (b mod 2 ^ 52)%N) in *. clearbody ea eb fa fb.
  change (2 ^ 52)%N with 4503599627370496%N in *. change (2 ^ 52)%Z with 4503599627370496%Z.
  assert (ea < eb \/ ea = eb /\ fa < fb)%N as [He|[-> Hf]] by lia.
  - destruct (Z.eqb_spec (Z.of_N eb) 0); [lia|]. pose proof (Z.pow_pos_nonneg 2 (Z.of_N eb - 1) ltac:(lia) ltac:(lia)) as Hp. destruct (Z.eqb_spec (Z.of_N ea) 0); [nia|].
    replace (Z.of_N eb - 1)%Z with (Z.of_N ea - 1 + (Z.of_N eb - Z.of_N ea))%Z by lia. rewrite Z.pow_add_r by lia.
    pose proof (Z.pow_pos_nonneg 2 (Z.of_N ea - 1) ltac:(lia) ltac:(lia)) as Hq. pose proof (Z.pow_le_mono_r 2 1 (Z.of_N eb - Z.of_N ea) ltac:(lia) ltac:(lia)) as Hr. change (2 ^ 1)%Z with 2%Z in Hr.
    set (p := (2 ^ (Z.of_N ea - 1))%Z) in *. set (q := (2 ^ (Z.of_N eb - Z.of_N ea))%Z) in *. clearbody p q. nia.
  - destruct (Z.eqb_spec (Z.of_N eb) 0); [lia|]. pose proof (Z.pow_pos_nonneg 2 (Z.of_N eb - 1) ltac:(lia) ltac:(lia)). nia.
Qed.
Lemma double_magnitude_zero : double_magnitude 0 = 0%Z. Proof. done. Qed.
Lemma double_value_mono a b : (double_key a < double_key b)%Z -> (double_value a < double_value b)%Z.
Proof.
  unfold double_key, double_value. pose proof (fun x => double_magnitude_mono 0 x) as H0. rewrite double_magnitude_zero in H0.
  destruct (N.ltb_spec a (2 ^ 63)) as [Ha|Ha], (N.ltb_spec b (2 ^ 63)) as [Hb|Hb]; intros H.
  - apply double_magnitude_mono. lia.
  - lia.
  - destruct (decide (a - 2 ^ 63 = 0)%N) as [E|E].
    + rewrite E, double_magnitude_zero. cbn [Z.opp]. apply H0. lia.
    + pose proof (H0 (a - 2 ^ 63)%N ltac:(lia)). destruct (decide (b = 0%N)) as [-> |]; [rewrite double_magnitude_zero; lia|]. pose proof (H0 b ltac:(lia)). lia.
  - pose proof (double_magnitude_mono (b - 2 ^ 63) (a - 2 ^ 63) ltac:(lia)). lia.
Qed.
Lemma double_value_eq a b : double_key a = double_key b -> double_value a = double_value b.
Proof.
  unfold double_key, double_value. destruct (N.ltb_spec a (2 ^ 63)) as [Ha|Ha], (N.ltb_spec b (2 ^ 63)) as [Hb|Hb]; intros H.
  - f_equal. lia.
  - replace (b - 2 ^ 63)%N with 0%N by lia. replace a with 0%N by lia. done.
  - replace (a - 2 ^ 63)%N with 0%N by lia. replace b with 0%N by lia. done.
  - do 2 f_equal. lia.
Qed.
Lemma double_order a b : (a < 2 ^ 64)%N -> (b < 2 ^ 64)%N ->
  (double_lt a b = true <-> below is_double double_value a b) /\ (double_eq a b = true <-> same is_double double_value a b).
Proof.
  intros Ba Bb. unfold double_lt, double_eq, double_nan, below, same, is_double. rewrite !andb_true_iff, !negb_true_iff, !N.ltb_ge, Z.ltb_lt, Z.eqb_eq.
  pose proof (double_value_mono a b). pose proof (double_value_mono b a). pose proof (double_value_eq a b).
  destruct (Z.lt_trichotomy (double_key a) (double_key b)) as [E|[E|E]]; split; split; intros; destruct_and?; split_and?; try done; auto; exfalso; intuition lia.
Qed.
Lemma float_order_any a b : (a < 2 ^ 32)%N -> (b < 2 ^ 32)%N ->
  (float_lt a b = true <-> below is_number float_value a b) /\ (float_eq a b = true <-> same is_number float_value a b).
Proof.
  intros Ba Bb. unfold float_lt, float_eq, float_nan, below, same, is_number. rewrite !andb_true_iff, !negb_true_iff, !N.ltb_ge, Z.ltb_lt, Z.eqb_eq.
  pose proof (float_value_mono a b). pose proof (float_value_mono b a). pose proof (float_value_eq a b).
  destruct (Z.lt_trichotomy (float_key a) (float_key b)) as [E|[E|E]]; split; split; intros; destruct_and?; split_and?; try done; auto; exfalso; intuition lia.
Qed.

(** ** Any elements *)
Section any.
  Context {A : Type} (lt eqb : A -> A -> bool) (LT SM : A -> A -> Prop) (v1 v2 : list A).
  Context (Hlt : forall x y, x ∈ v1 -> y ∈ v2 -> lt x y = true <-> LT x y).
  Context (Hgt : forall x y, x ∈ v1 -> y ∈ v2 -> lt y x = true <-> LT y x).
  Context (Heq : forall x y, x ∈ v1 -> y ∈ v2 -> eqb x y = true <-> SM x y).
  Context (Has : forall x y, LT x y -> ~ LT y x) (Hirr : forall x y, LT x y \/ LT y x -> ~ SM x y).

  Lemma compare_any_spec : exists r, compare_values lt eqb v1 v2 = Some r /\ describes_any LT SM v1 v2 r.
  Proof.
    unfold compare_values. destruct (Nat.ltb_spec (length v1) (length v2)) as [Hl|Hl1]; [by eexists|].
    destruct (Nat.ltb_spec (length v2) (length v1)) as [Hl|Hl2]; [by eexists|].
    assert (length v1 = length v2) as Hl by lia. clear Hl1 Hl2. set (n := length v1) in *.
    set (NE := fun x y => ~ LT x y /\ ~ LT y x). set (DI := fun x y => LT x y \/ LT y x).
    set (Inv := fun k (s : nat * nat * option nat) => let '(c1, c2, first) := s in c1 + c2 <= k /\ counts (at_index LT v1 v2) k c1 /\ counts (at_index (flip LT) v1 v2) k c2 /\
      counts (at_index NE v1 v2) k (k - c1 - c2) /\ counts (at_index DI v1 v2) k (c1 + c2) /\
      match first with None => forall j, j < k -> at_index SM v1 v2 j | Some i => i < k /\ at_index (fun x y => ~ SM x y) v1 v2 i /\ forall j, j < i -> at_index SM v1 v2 j end).
    match goal with |- context [for_range 0 n ?body (0, 0, None)] => destruct (for_range_inv Inv body 0 n (0, 0, None)) as ([[c1 c2] first] & E & HI) end.
    - lia.
    - cbn. split_and!; [lia|apply counts_zero..|intros; lia].
    - intros k [[c1 c2] first] Hk (H0 & H1 & H2 & H3 & H4 & H5).
      destruct (lookup_lt_is_Some_2 v1 k) as [x Ex]; [lia|]. destruct (lookup_lt_is_Some_2 v2 k) as [y Ey]; [lia|]. rewrite Ex, bind_S, Ey, bind_S. eexists. split; [done|].
      pose proof (elem_of_list_lookup_2 _ _ _ Ex) as Mx. pose proof (elem_of_list_lookup_2 _ _ _ Ey) as My.
      pose proof (Hlt x y Mx My) as Rlt. pose proof (Hgt x y Mx My) as Rgt. pose proof (Heq x y Mx My) as Req.
      pose proof (fun R => at_index_iff R v1 v2 k _ _ Ex Ey) as HR.
      assert (match (if negb (eqb x y) && bool_decide (first = None) then Some k else first) with None => forall j, j < S k -> at_index SM v1 v2 j
        | Some i => i < S k /\ at_index (fun x y => ~ SM x y) v1 v2 i /\ forall j, j < i -> at_index SM v1 v2 j end) as Hf.
      { destruct first as [i|].
        - rewrite bool_decide_eq_false_2 by done. rewrite andb_false_r. destruct H5 as (? & ? & ?). split_and!; [lia|done..].
        - rewrite bool_decide_eq_true_2 by done. rewrite andb_true_r. destruct (eqb x y); cbn [negb].
          + intros j Hj. destruct (decide (j = k)) as [-> |]; [apply HR; by apply Req|apply H5; lia].
          + split; [lia|]. split; [|exact H5]. apply HR. intros Hs. apply Req in Hs. done. }
      set (f' := if negb (eqb x y) && bool_decide (first = None) then Some k else first) in *. clearbody f'.
      destruct (lt x y), (lt y x).
      + exfalso. apply (Has x y); [by apply Rlt|by apply Rgt].
      + assert (LT x y) as T1 by (by apply Rlt). assert (~ LT y x) as T2 by (intros T; apply Rgt in T; done). unfold Inv. split_and!; [lia|..|exact Hf].
        * apply counts_yes; [done|]. by apply HR.
        * apply counts_no; [done|]. by rewrite HR.
        * replace (S k - S c1 - c2) with (k - c1 - c2) by lia. apply counts_no; [done|]. rewrite HR. unfold NE. tauto.
        * apply (counts_yes _ _ (c1 + c2)); [done|]. rewrite HR. unfold DI. tauto.
      + assert (LT y x) as T1 by (by apply Rgt). assert (~ LT x y) as T2 by (intros T; apply Rlt in T; done). unfold Inv. split_and!; [lia|..|exact Hf].
        * apply counts_no; [done|]. by rewrite HR.
        * apply counts_yes; [done|]. by apply HR.
        * replace (S k - c1 - S c2) with (k - c1 - c2) by lia. apply counts_no; [done|]. rewrite HR. unfold NE. tauto.
        * replace (c1 + S c2) with (S (c1 + c2)) by lia. apply counts_yes; [done|]. rewrite HR. unfold DI. tauto.
      + assert (~ LT x y) as T1 by (intros T; apply Rlt in T; done). assert (~ LT y x) as T2 by (intros T; apply Rgt in T; done). unfold Inv. split_and!; [lia|..|exact Hf].
        * apply counts_no; [done|]. by rewrite HR.
        * apply counts_no; [done|]. by rewrite HR.
        * replace (S k - c1 - c2) with (S (k - c1 - c2)) by lia. apply counts_yes; [done|]. rewrite HR. unfold NE. tauto.
        * apply counts_no; [done|]. rewrite HR. unfold DI. tauto.
    - rewrite E, bind_S. cbn beta iota. destruct HI as (H0 & H1 & H2 & H3 & H4 & H5). eexists. split; [done|].
      destruct ((c1 =? 0) && (c2 =? 0)) eqn:Ez.
      + apply andb_true_iff in Ez as [Ez1%Nat.eqb_eq Ez2%Nat.eqb_eq]. subst c1 c2. cbn [describes_any]. split; [done|]. split; [done|].
        intros i. split; intros Hi; assert (i < n) as Hin by (destruct Hi as (? & ? & Hx & _); by apply lookup_lt_Some in Hx).
        * by apply (counts_none _ _ H1 i Hin).
        * by apply (counts_none _ _ H2 i Hin).
      + assert (0 < c1 + c2) as Hc by (apply andb_false_iff in Ez as [Ez%Nat.eqb_neq|Ez%Nat.eqb_neq]; lia).
        cbn [describes_any]. split_and!; try done. destruct first as [i|]; [exists i; split; [done|]; by destruct H5 as (_ & ? & ?)|].
        exfalso. destruct (c1 + c2) as [|c] eqn:Ec; [lia|]. destruct (counts_some _ _ _ H4) as (i & Hi & a & b & Ea & Eb & Hab).
        destruct (H5 i Hi) as (a' & b' & Fa & Fb & Hs). rewrite Ea in Fa. rewrite Eb in Fb. injection Fa as <-. injection Fb as <-. by apply (Hirr a b).
  Qed.
End any.

(** ** Any size *)
(** The body of the loop in [compare_values], src/compare_vector.cpp:26-31. *)
Definition compare_body {A} (lt eq : A -> A -> bool) (v1 v2 : list A) : nat -> nat * nat * option nat -> option (nat * nat * option nat) :=
  ltac:(let t := eval unfold compare_values in (compare_values lt eq v1 v2) in match t with context [for_range _ _ ?b _] => exact b end).
Definition first_of (f : option nat) : N := match f with None => no_index | Some i => N.of_nat i end.
Lemma wide_loop_for_n {A} (lt eqb : A -> A -> bool) (v1 v2 : list A) : (forall x y, lt x y = true -> lt y x = false) -> length v1 = length v2 -> (N.of_nat (length v1) < 2 ^ 32)%N ->
  forall d i c1 c2 first fuel, i + d = length v1 -> d < fuel -> c1 + c2 <= i -> match first with None => True | Some j => j < i end ->
  exists c1' c2' first', c1' + c2' <= length v1 /\ match first' with None => True | Some j => j < length v1 end /\
    wide_loop lt eqb v1 v2 fuel (N.of_nat i) (N.of_nat c1) (N.of_nat c2) (first_of first) = Some (N.of_nat c1', N.of_nat c2', first_of first') /\
    for_n d i (compare_body lt eqb v1 v2) (c1, c2, first) = Some (c1', c2', first').
Proof.
  intros Has Hl Hn. induction d as [|d IH]; intros i c1 c2 first fuel Hi Hf Hc Hfi; (destruct fuel as [|fuel]; [lia|]); cbn [wide_loop for_n].
  - destruct (N.ltb_spec (N.of_nat i) (N.of_nat (length v1))); [lia|]. exists c1, c2, first. split; [lia|]. split; [destruct first; [lia|done]|]. done.
  - destruct (N.ltb_spec (N.of_nat i) (N.of_nat (length v1))); [|lia]. rewrite Nat2N.id.
    destruct (lookup_lt_is_Some_2 v1 i) as [x Ex]; [lia|]. destruct (lookup_lt_is_Some_2 v2 i) as [y Ey]; [lia|]. rewrite Ex, bind_S, Ey, bind_S.
    assert (forall k, k < length v1 -> unsigned_of (N.of_nat k + 1) = N.of_nat (S k)) as Hu.
    { intros k Hk. unfold unsigned_of. rewrite N.mod_small by lia. lia. }
    rewrite (Hu i) by lia. specialize (Has x y).
    set (isn := match first with None => true | Some _ => false end).
    assert (forall D : Decision (first = None), @bool_decide (first = None) D = isn) as Hb.
    { intros D. unfold isn. destruct first; [by rewrite bool_decide_eq_false_2|by rewrite bool_decide_eq_true_2]. }
    assert (compare_body lt eqb v1 v2 i (c1, c2, first) = Some (if lt x y then S c1 else c1, if lt y x then S c2 else c2, if negb (eqb x y) && isn then Some i else first)) as ->.
    { unfold compare_body. rewrite Ex, bind_S, Ey, bind_S, Hb. done. }
    rewrite bind_S.
    destruct (IH (S i) (if lt x y then S c1 else c1) (if lt y x then S c2 else c2) (if negb (eqb x y) && isn then Some i else first) fuel) as (a & b & f & H1 & H2 & H3 & H4).
    + lia.
    + lia.
    + destruct (lt x y); [rewrite Has by done; lia|]. destruct (lt y x); lia.
    + destruct (negb (eqb x y) && isn); [lia|]. destruct first; [lia|done].
    + exists a, b, f. split; [exact H1|]. split; [exact H2|]. split; [|exact H4]. rewrite <- H3. f_equal.
      * destruct (lt x y); [apply Hu; lia|done].
      * destruct (lt y x); [apply Hu; lia|done].
      * unfold isn. destruct (eqb x y); [done|]. cbn [negb andb]. destruct first as [j|]; cbn [first_of].
        -- destruct (N.eqb_spec (N.of_nat j) no_index) as [E|]; [|done]. unfold no_index in E. lia.
        -- rewrite N.eqb_refl. done.
Qed.
Lemma compare_wide_small {A} (lt eqb : A -> A -> bool) (v1 v2 : list A) fuel : (forall x y, lt x y = true -> lt y x = false) -> (N.of_nat (length v1) < 2 ^ 32)%N ->
  length v1 < fuel -> compare_wide lt eqb fuel v1 v2 = compare_values lt eqb v1 v2.
Proof.
  intros Has Hn Hf. unfold compare_wide, compare_values. destruct (Nat.ltb_spec (length v1) (length v2)) as [Hl|Hl1]; [done|].
  destruct (Nat.ltb_spec (length v2) (length v1)) as [Hl|Hl2]; [done|]. assert (length v1 = length v2) as Hl by lia.
  destruct (wide_loop_for_n lt eqb v1 v2 Has Hl Hn (length v1) 0 0 0 None fuel) as (a & b & f & H1 & H2 & H3 & H4); [lia..|done|].
  unfold for_range. rewrite Nat.sub_0_r. unfold compare_body in H4. rewrite H4. cbn [first_of] in H3. change (N.of_nat 0) with 0%N in H3. rewrite H3, !bind_S. cbn beta iota.
  assert (forall k, (N.of_nat k =? 0)%N = (k =? 0)) as Hz by (intros [|k]; done). rewrite !Hz. destruct ((a =? 0) && (b =? 0)); [done|].
  assert (a + b = N.to_nat (unsigned_of (N.of_nat a + N.of_nat b))) as Es by (unfold unsigned_of; rewrite N.mod_small by lia; lia).
  rewrite <- Es, !Nat2N.id. f_equal. f_equal. destruct f as [j|]; cbn [first_of]; [|done].
  destruct (N.eqb_spec (N.of_nat j) no_index) as [E|_]; [unfold no_index in E; lia|]. by rewrite Nat2N.id.
Qed.
Lemma wide_loop_never {A} (lt eqb : A -> A -> bool) (v1 v2 : list A) : (2 ^ 32 <= N.of_nat (length v1))%N ->
  forall fuel i c1 c2 first, (i < 2 ^ 32)%N -> wide_loop lt eqb v1 v2 fuel i c1 c2 first = None.
Proof.
  intros Hn. induction fuel as [|fuel IH]; intros i c1 c2 first Hi; cbn [wide_loop]; [done|].
  destruct (N.ltb_spec i (N.of_nat (length v1))); [|lia]. destruct (v1 !! N.to_nat i); [|done]. rewrite bind_S. destruct (v2 !! N.to_nat i); [|done]. rewrite bind_S.
  apply IH. unfold unsigned_of. apply N.mod_lt. done.
Qed.
Lemma load_words_bounded k (v : list N) : Forall (fun x => (x < 256 ^ N.of_nat k)%N) v -> k <> 0 -> load_vector k le_word (save_vector (le_bytes k) v) = Ret v.
Proof.
  intros Hv Hk. unfold load_vector, save_vector. assert (forall x, x ∈ v -> length (le_bytes k x) = k) as Hl by (intros; apply le_bytes_length).
  rewrite (concat_length k _ _ Hl). rewrite Nat.mod_mul by lia. rewrite decide_False by lia. rewrite Nat.div_mul by lia. f_equal.
  rewrite <- (app_nil_r (concat _)). rewrite groups_concat by done. rewrite <- list_fmap_compose. rewrite <- (list_fmap_id v) at 2. apply list_fmap_ext. intros i x Hi.
  apply le_word_bytes. rewrite Forall_forall in Hv. apply Hv. by eapply elem_of_list_lookup_2.
Qed.
(** ** Strings *)
Lemma wide_strings_for_n (v1 v2 : list (list N)) : length v1 = length v2 -> (N.of_nat (length v1) < 2 ^ 32)%N ->
  forall d i c fuel, i + d = length v1 -> d < fuel -> c <= i ->
  exists c', c' <= length v1 /\ wide_strings v1 v2 fuel (N.of_nat i) (N.of_nat c) = Some (N.of_nat c') /\
    for_n d i (fun i equal => x ← v1 !! i; y ← v2 !! i; Some (if bool_decide (x = y) then S equal else equal)) c = Some c'.
Proof.
  intros Hl Hn. induction d as [|d IH]; intros i c fuel Hi Hf Hc; (destruct fuel as [|fuel]; [lia|]); cbn [wide_strings for_n].
  - destruct (N.ltb_spec (N.of_nat i) (N.of_nat (length v1))); [lia|]. exists c. split; [lia|]. done.
  - destruct (N.ltb_spec (N.of_nat i) (N.of_nat (length v1))); [|lia]. rewrite Nat2N.id.
    destruct (lookup_lt_is_Some_2 v1 i) as [x Ex]; [lia|]. destruct (lookup_lt_is_Some_2 v2 i) as [y Ey]; [lia|]. rewrite Ex, !bind_S, Ey, !bind_S.
    assert (forall k, k < length v1 -> unsigned_of (N.of_nat k + 1) = N.of_nat (S k)) as Hu.
    { intros k Hk. unfold unsigned_of. rewrite N.mod_small by lia. lia. }
    rewrite (Hu i) by lia. destruct (IH (S i) (if bool_decide (x = y) then S c else c) fuel) as (c' & H1 & H2 & H3); [lia|lia|destruct (bool_decide (x = y)); lia|].
    exists c'. split; [exact H1|]. split; [|exact H3]. rewrite <- H2. f_equal. destruct (bool_decide (x = y)); [apply Hu; lia|done].
Qed.
Lemma compare_strings_wide_small v1 v2 fuel : (N.of_nat (length v1) < 2 ^ 32)%N -> length v1 < fuel -> compare_strings_wide fuel v1 v2 = compare_string_values v1 v2.
Proof.
  intros Hn Hf. unfold compare_strings_wide, compare_string_values. destruct (Nat.ltb_spec (length v1) (length v2)) as [Hl|Hl1]; [done|].
  destruct (Nat.ltb_spec (length v2) (length v1)) as [Hl|Hl2]; [done|]. assert (length v1 = length v2) as Hl by lia.
  destruct (wide_strings_for_n v1 v2 Hl Hn (length v1) 0 0 fuel) as (c & H1 & H2 & H3); [lia..|].
  unfold for_range. rewrite Nat.sub_0_r, H3. change (N.of_nat 0) with 0%N in H2. rewrite H2, !bind_S, Nat2N.id.
  destruct (Nat.eqb_spec c (length v1)); destruct (N.eqb_spec (N.of_nat c) (N.of_nat (length v1))); try done; lia.
Qed.
Lemma wide_strings_never (v1 v2 : list (list N)) : (2 ^ 32 <= N.of_nat (length v1))%N -> forall fuel i c, (i < 2 ^ 32)%N -> wide_strings v1 v2 fuel i c = None.
Proof.
  intros Hn. induction fuel as [|fuel IH]; intros i c Hi; cbn [wide_strings]; [done|].
  destruct (N.ltb_spec i (N.of_nat (length v1))); [|lia]. destruct (v1 !! N.to_nat i); [|done]. rewrite bind_S. destruct (v2 !! N.to_nat i); [|done]. rewrite bind_S.
  apply IH. unfold unsigned_of. apply N.mod_lt. done.
Qed.
